(** Theorems about SectorStreamReader: C14 (placement), C15 (exactly once),
    C16 (reset) and the inputs that break it. *)
From Coq Require Import String ZArith List Lia Bool Permutation Sorting.Sorted.
From Verif Require Import Base BaseFacts BlockModel StreamModel StreamSpec StreamProofs
  SectorModel SectorSpec SectorProofs.
Import ListNotations.
Open Scope Z_scope.

(** The frame size of the code meets the conditions on geometries. *)
Example stempy_geom_wf : wf_geom stempy_geom.
Proof. repeat split. Qed.

(** ** C14 *)

(** Storing the four sectors, in any order, over any previous contents: every
    pixel comes from the sector and index that [pixel_source] prescribes. *)
Theorem sectors_fill_frame g v order px frame0 :
  wf_geom g -> v = 4 \/ v = 5 -> Permutation order [0; 1; 2; 3] ->
  (forall s, 0 <= s < 4 -> 4 * Zlen (px s) = g_w g * g_h g) ->
  Zlen frame0 = g_w g * g_h g ->
  exists frame, for_each order (fun s fr => place_sector g v s (px s) fr) frame0 = Ok frame /\
    Zlen frame = g_w g * g_h g /\
    forall i, 0 <= i < g_w g * g_h g ->
      zat frame i = zat (px (fst (pixel_source g v i))) (snd (pixel_source g v i)).
Proof.
  intros Hg Hv HP Hpx H0.
  assert (Hgen : forall l fr, (forall s, In s l -> 0 <= s < 4) -> NoDup l ->
    Zlen fr = g_w g * g_h g ->
    exists fr', for_each l (fun s fr => place_sector g v s (px s) fr) fr = Ok fr' /\
      Zlen fr' = g_w g * g_h g /\
      forall i, 0 <= i < g_w g * g_h g ->
        zat fr' i = if existsb (Z.eqb (fst (pixel_source g v i))) l
                    then zat (px (fst (pixel_source g v i))) (snd (pixel_source g v i))
                    else zat fr i).
  { induction l as [|s l IH]; intros fr Hl HN Hfr.
    - exists fr. split; [reflexivity|]. split; auto.
    - inversion HN; subst.
      destruct (place_sector_ok g Hg v s (px s) fr) as (fr1 & E1 & L1 & H1'); auto.
      { apply Hl; simpl; auto. }
      { pose proof (npix_sector_4 g Hg). specialize (Hpx s (Hl s (or_introl eq_refl))). lia. }
      destruct (IH fr1) as (fr2 & E2 & L2 & H2'); auto.
      { intros s' Hs'. apply Hl. simpl; auto. }
      exists fr2. cbn [for_each]. rewrite E1. cbn [bind]. split; [exact E2|]. split; auto.
      intros i Hi. rewrite H2', H1' by auto. cbn [existsb].
      destruct (Z.eqb_spec (fst (pixel_source g v i)) s) as [->|]; cbn [orb]; auto.
      destruct (existsb _ l); auto. }
  destruct (Hgen order frame0) as (fr & E & L & H); auto.
  { intros s Hs. apply (Permutation_in _ HP) in Hs. simpl in Hs. lia. }
  { eapply Permutation_NoDup; [symmetry; exact HP|]. repeat constructor; simpl; lia. }
  exists fr. split; [exact E|]. split; [exact L|]. intros i Hi. rewrite H by auto.
  replace (existsb _ order) with true; auto. symmetry. apply existsb_exists.
  exists (fst (pixel_source g v i)). split; [|apply Z.eqb_refl].
  apply (Permutation_in _ (Permutation_sym HP)).
  destruct (pixel_source_range g Hg v i Hv Hi) as (Hr & _). simpl. lia.
Qed.

(** In the code's frames: pixel (row y, column x) is in sector x / 144 for
    version 4 and y / 144 for version 5, at the row major index within it. *)
Theorem pixel_source_576 y x : 0 <= y < 576 -> 0 <= x < 576 ->
  pixel_source stempy_geom 4 (y * 576 + x) = (x / 144, y * 144 + x mod 144) /\
  pixel_source stempy_geom 5 (y * 576 + x) = (y / 144, (y mod 144) * 576 + x).
Proof.
  intros Hy Hx. unfold pixel_source, stempy_geom. cbn [g_w g_h].
  change (576 / 4) with 144. change (576 * 144) with 82944.
  cbn [Z.eqb Pos.eqb].
  destruct (div_mod_unique_row 576 x y Hx) as [-> ->]. split; [reflexivity|].
  pose proof (Z.div_mod y 144 ltac:(lia)). pose proof (Z.mod_pos_bound y 144 ltac:(lia)).
  replace (y * 576 + x) with (y / 144 * 82944 + (y mod 144 * 576 + x)) by lia.
  destruct (div_mod_unique_row 82944 (y mod 144 * 576 + x) (y / 144)) as [-> ->]; [lia|].
  reflexivity.
Qed.

(** Every (sector, index) pair is used for exactly one pixel. *)
Theorem pixel_source_bijective g v :
  wf_geom g -> v = 4 \/ v = 5 ->
  (forall i, 0 <= i < g_w g * g_h g ->
     0 <= fst (pixel_source g v i) < 4 /\
     0 <= snd (pixel_source g v i) < g_w g * g_h g / 4) /\
  (forall s k, 0 <= s < 4 -> 0 <= k < g_w g * g_h g / 4 ->
     exists i, 0 <= i < g_w g * g_h g /\ pixel_source g v i = (s, k) /\
       forall j, 0 <= j < g_w g * g_h g -> pixel_source g v j = (s, k) -> j = i).
Proof.
  intros Hg Hv. split.
  - intros i Hi. destruct (pixel_source_range g Hg v i Hv Hi) as (H1 & H2 & _). auto.
  - intros s k Hs Hk. exists (sector_address g v s k).
    destruct (sector_address_ok g Hg v s k Hv Hs Hk) as [Ha Hsrc].
    split; [auto|]. split; [auto|]. intros j Hj Hsj.
    destruct (pixel_source_range g Hg v j Hv Hj) as (_ & _ & Hinv).
    rewrite Hsj in Hinv. symmetry. exact Hinv.
Qed.

(** A sector number outside 0..3 (a file without "module<n>" in its name has
    -1) writes outside the frame. *)
Theorem sector_outside_frame_undefined g v px frame0 :
  wf_geom g -> v = 4 \/ v = 5 -> 4 * Zlen px = g_w g * g_h g -> Zlen frame0 = g_w g * g_h g ->
  place_sector g v (-1) px frame0 = UB "write out of bounds"%string /\
  (v = 5 -> place_sector g v 4 px frame0 = UB "write out of bounds"%string).
Proof.
  intros Hg Hv Hpx Hfr.
  destruct (geom_split g Hg) as (a & b & Ha & Hb & Ew & Eh & Ew4 & Eh4 & Hlt).
  assert (Hp : 0 < Zlen px) by (rewrite Ew, Eh in Hpx; nia).
  assert (Hgo : forall s, g_w g * g_h g <= sector_address g v s 0 ->
            place_sector g v s px frame0 = UB "write out of bounds"%string).
  { intros s Hs. unfold place_sector, for_loop.
    replace (Z.to_nat (Zlen px)) with (S (Z.to_nat (Zlen px - 1))) by lia.
    cbn [for_from]. rewrite rd_zat by lia. cbn [bind].
    assert (Ew' : wr frame0 (sector_address g v s 0) (zat px 0) = UB "write out of bounds"%string).
    { unfold wr. fold (Zlen frame0).
      replace (Zlen frame0 <=? sector_address g v s 0) with true by (symmetry; apply Z.leb_le; lia).
      now rewrite orb_true_r. }
    rewrite Ew'. reflexivity. }
  assert (Hu : forall z, - 2 ^ 31 <= z < 0 -> u32 z = z + 2 ^ 32).
  { intros z Hz. unfold u32. symmetry. apply (Z.mod_unique_pos z (2 ^ 32) (-1)); lia. }
  split.
  - apply Hgo. unfold sector_address, sector_dims.
    change (2 ^ 31) with 2147483648 in *. change (2 ^ 32) with 4294967296 in *.
    destruct Hv as [-> | ->]; cbn [Z.eqb Pos.eqb fst snd]; rewrite ?Ew4, ?Eh4.
    + rewrite Z.div_0_l, Z.mod_0_l, Z.mul_0_r by lia.
      change (u32 0) with 0. rewrite Z.add_0_r.
      rewrite (Hu (-1 * a)) by nia. rewrite Ew, Eh.
      rewrite u32_id by (unfold is_u32; change (2 ^ 32) with 4294967296; nia). nia.
    + rewrite (Hu (-1 * b)) by nia. rewrite Z.add_0_r.
      assert (E : u32 ((-1 * b + 4294967296) * g_w g) = u32 (- (b * g_w g))).
      { unfold u32. change (2 ^ 32) with 4294967296.
        replace ((-1 * b + 4294967296) * g_w g) with (- (b * g_w g) + g_w g * 4294967296) by ring.
        apply Z.mod_add. lia. }
      rewrite E, (Hu (- (b * g_w g))) by (rewrite Ew; nia). rewrite Ew, Eh. nia.
  - intros ->. apply Hgo. unfold sector_address, sector_dims. cbn [Z.eqb Pos.eqb fst snd].
    rewrite Eh4. rewrite (u32_id (4 * b)) by (unfold is_u32; change (2 ^ 32) with 4294967296; nia).
    rewrite u32_id by (unfold is_u32; change (2 ^ 32) with 4294967296; rewrite Ew; nia).
    rewrite Ew, Eh. nia.
Qed.

(** ** C15 *)

(** For sector files in which a scan position appears at most once per sector:
    repeated reads deliver one block for every position in the files.  First
    come the frames of which all four sectors are there, then the partial ones
    by increasing position; then empty blocks forever. *)
Theorem sector_reader_exactly_once g v fs :
  wf_geom g -> v = 4 \/ v = 5 -> fs <> [] -> wf_sfiles g fs -> same_scan fs ->
  exists s full part,
    sector_reader (map encode_sfile fs) v = Ok s /\
    NoDup (full ++ part) /\ StronglySorted Z.lt part /\
    (forall p, In p (full ++ part) <-> exists e, In e (all_records fs) /\ s_pos (snd e) = p) /\
    (forall p, In p full <-> List.length (records_at p (all_records fs)) = 4%nat) /\
    forall n, fst (sector_reads g n s) =
      firstn n (map (fun p => Ok (frame_block g v p (records_at p (all_records fs))))
                    (full ++ part) ++ repeat (Ok empty_block) n).
Proof.
  intros Hg Hv Hne Hwf Hss.
  destruct (sector_reader_ok g v Hg Hv fs Hne Hwf Hss)
    as (s & full & part & E & HN & Hs & Hfull & Hpart & Hr).
  exists s, full, part. split; [exact E|]. split; [exact HN|]. split; [exact Hs|].
  split.
  { intros p. rewrite in_app_iff, Hfull, Hpart.
    pose proof (nrec_le_4 g p _ Hwf) as H4.
    assert (Hex : 0 < nrec p (all_records fs) <->
                  exists e, In e (all_records fs) /\ s_pos (snd e) = p).
    { unfold nrec, Zlen. destruct (records_at p (all_records fs)) as [|e l] eqn:Er.
      - split; [simpl; lia|]. intros (e & He). apply in_records_at in He. rewrite Er in He. destruct He.
      - split; [|simpl; lia]. intros _. exists e. apply in_records_at. rewrite Er. simpl; auto. }
    rewrite <- Hex. lia. }
  split; [|exact Hr].
  intros p. rewrite Hfull. unfold nrec, Zlen. lia.
Qed.

(** All sectors of a position are in its frame. *)
Theorem frame_block_contents g v p rs e k :
  wf_geom g -> v = 4 \/ v = 5 -> NoDup (map fst rs) -> In e rs -> 0 <= fst e < 4 ->
  wf_srec g (snd e) -> 0 <= k < Zlen (s_px (snd e)) ->
  exists px i, data (frame_block g v p rs) = Some px /\ Zlen px = g_w g * g_h g /\
    0 <= i < g_w g * g_h g /\ pixel_source g v i = (fst e, k) /\
    zat px i = zat (s_px (snd e)) k.
Proof.
  intros Hg Hv HN Hin Hs (_ & _ & _ & _ & _ & _ & Hlen & _) Hk.
  exists (assembled g v rs), (sector_address g v (fst e) k).
  assert (En : npix_sector g = Zlen (s_px (snd e))) by (pose proof (npix_sector_4 g Hg); lia).
  destruct (sector_address_ok g Hg v (fst e) k Hv Hs ltac:(lia)) as [Ha Hsrc].
  split; [reflexivity|]. split; [now apply assembled_length|]. split; [auto|]. split; [auto|].
  unfold assembled. rewrite zat_map_zseq by auto. rewrite Hsrc. cbn [fst snd].
  assert (Hf : find (fun e0 => fst e0 =? fst e) rs = Some e).
  { clear - HN Hin. induction rs as [|x rs IH]; [destruct Hin|]. simpl in *.
    inversion HN as [|? ? Hn HN']; subst.
    destruct (Z.eqb_spec (fst x) (fst e)) as [E|E].
    - destruct Hin as [->|Hin]; auto. exfalso. apply Hn. rewrite E. now apply in_map.
    - destruct Hin as [->|Hin]; [congruence|auto]. }
  now rewrite Hf.
Qed.

(** ** C16 *)

(** After the reader has reported the end of the data, reset starts over: the
    same blocks are delivered as by a new reader. *)
Theorem sector_reset_restarts g v fs s n m :
  wf_geom g -> v = 4 \/ v = 5 -> wf_sfiles g fs ->
  sector_reader (map encode_sfile fs) v = Ok s ->
  last (fst (sector_reads g n s)) (Throw "no read"%string) = Ok empty_block ->
  fst (sector_reads g m (sector_reset (snd (sector_reads g n s)))) = fst (sector_reads g m s).
Proof.
  intros Hg Hv Hwf E Hlast.
  assert (Hs : s = mkSSR (map encode_sfile fs) (map encode_sfile fs) 0 [] v).
  { unfold sector_reader in E. destruct (negb _); [discriminate|].
    destruct (map encode_sfile fs); [discriminate|]. now injection E as <-. }
  assert (Hph : phase g v (mkSSR (map encode_sfile fs) (map encode_sfile fs) 0 [] v)) by (apply fresh_phase; auto). rewrite <- Hs in Hph.
  destruct n as [|n]; [discriminate|].
  rewrite sector_reads_snoc in Hlast |- *. cbn [fst snd] in *.
  rewrite last_last in Hlast.
  destruct (reads_phase g v Hg Hv n s Hph) as [Hp1 [Hf1 Hv1]].
  destruct (read_phase g v Hg Hv _ Hp1) as (_ & [Hf2 Hv2] & b & Eb & Hc).
  rewrite Eb in Hlast. injection Hlast as ->. specialize (Hc eq_refl).
  replace (sector_reset _) with s; [reflexivity|].
  unfold sector_reset. rewrite Hc, Hf2, Hf1, Hv2, Hv1, Hs. reflexivity.
Qed.

(** Reset in the middle: the frames that are partially assembled stay in the
    reader, so it delivers a frame twice.  All four sectors of both positions
    are in the files. *)
Definition reset_rec (g : geom) (p : Z) : srec :=
  mkSrec 1 p 2 1 p 0 (repeat 7 (Z.to_nat (g_w g * g_h g / 4))).
Definition reset_files (g : geom) : list sfile :=
  [(0, [reset_rec g 1; reset_rec g 0]); (1, [reset_rec g 0; reset_rec g 1]);
   (2, [reset_rec g 0; reset_rec g 1]); (3, [reset_rec g 0; reset_rec g 1])].

Lemma reset_rec_wf g p : wf_geom g -> p = 0 \/ p = 1 -> wf_srec g (reset_rec g p).
Proof.
  intros Hg Hp. unfold wf_srec, reset_rec. cbn [s_scan s_frame s_sw s_sh s_x s_y s_px].
  unfold is_u32, is_u16. repeat (split; [lia|]). split.
  - rewrite Zlen_repeat. pose proof (npix_sector_4 g Hg) as H4. unfold npix_sector in H4.
    rewrite Z2Nat.id; [exact H4|]. destruct Hg as (? & ? & _). apply Z.div_pos; nia.
  - apply Forall_forall. intros x Hx. apply repeat_spec in Hx. subst x. lia.
Qed.

Theorem sector_reset_midway_refuted g v :
  wf_geom g -> v = 4 \/ v = 5 ->
  exists fs s, wf_sfiles g fs /\ same_scan fs /\
    (forall e, In e (all_records fs) ->
       List.length (records_at (s_pos (snd e)) (all_records fs)) = 4%nat) /\
    sector_reader (map encode_sfile fs) v = Ok s /\
    map ok_pos (fst (sector_reads g 3 s)) = [Some 0; Some 1; None] /\
    map ok_pos (fst (sector_reads g 3 (sector_reset (snd (sector_reads g 1 s))))) =
      [Some 0; Some 1; Some 1].
Proof.
  intros Hg Hv. exists (reset_files g).
  exists (mkSSR (map encode_sfile (reset_files g)) (map encode_sfile (reset_files g)) 0 [] v).
  set (s := mkSSR _ _ _ _ _).
  assert (Hf : files_ok g (reset_files g)).
  { intros e He. cbn in He. repeat destruct He as [<-|He]; try contradiction; cbn [fst snd];
      (split; [apply reset_rec_wf; auto|lia]). }
  split; [split; [exact Hf|]|].
  { cbn -[Z.div Z.mul]. repeat constructor; simpl; intuition discriminate. }
  split; [|split; [|split; [|split]]].
  - intros a b Ha Hb _. cbn in Ha, Hb.
    repeat destruct Ha as [<-|Ha]; try contradiction;
      repeat destruct Hb as [<-|Hb]; try contradiction; repeat split; reflexivity.
  - intros e He. cbn in He. repeat destruct He as [<-|He]; try contradiction; reflexivity.
  - unfold sector_reader. destruct Hv as [-> | ->]; reflexivity.
  - destruct (reads_positions g v 3 Hg Hv s (reset_files g) eq_refl eq_refl Hf (Forall_nil _))
      as (s1 & fs1 & _ & _ & _ & _ & _ & Ha).
    assert (Ha' : fst (a_reads 3 (a_of (reset_files g) s)) = [Some 0; Some 1; None])
      by reflexivity.
    rewrite Ha in Ha'. exact Ha'.
  - destruct (reads_positions g v 1 Hg Hv s (reset_files g) eq_refl eq_refl Hf (Forall_nil _))
      as (s1 & fs1 & E1 & Hst1 & [Hf1 Hv1] & Hok1 & Hc1 & Ha1).
    rewrite E1.
    assert (Hcnt : counts (ss_cache s1) = [(1, 1)]).
    { assert (Ha' : a_cnt (snd (a_reads 1 (a_of (reset_files g) s))) = [(1, 1)]) by reflexivity.
      rewrite Ha1 in Ha'. exact Ha'. }
    destruct (reads_positions g v 3 Hg Hv (sector_reset s1) (reset_files g))
      as (s2 & fs2 & _ & _ & _ & _ & _ & Ha2); auto.
    assert (Ea : a_of (reset_files g) (sector_reset s1) =
                 mkA [[1; 0]; [0; 1]; [0; 1]; [0; 1]] 0 [(1, 1)]).
    { unfold a_of, sector_reset. cbn [ss_it ss_cache]. rewrite Hcnt. reflexivity. }
    rewrite Ea in Ha2.
    assert (Ha' : fst (a_reads 3 (mkA [[1; 0]; [0; 1]; [0; 1]; [0; 1]] 0 [(1, 1)])) =
                  [Some 0; Some 1; Some 1]) by reflexivity.
    rewrite Ha2 in Ha'. exact Ha'.
Qed.

(** ** Damaged files *)

(** Sector data that ends too early is accepted without any error, however
    short it is; the rest of the sector keeps what the frame had before. *)
Theorem sector_truncated_data_accepted g v sec rem fr :
  wf_geom g -> v = 4 \/ v = 5 -> 0 <= sec < 4 -> Zlen fr = g_w g * g_h g ->
  exists fr' rem', read_sector_data g v sec rem fr = Ok (fr', rem') /\
    Zlen fr' = g_w g * g_h g /\
    forall i, 0 <= i < g_w g * g_h g ->
      (fst (pixel_source g v i) <> sec \/ (Zlen rem + 1) / 2 <= snd (pixel_source g v i)) ->
      zat fr' i = zat fr i.
Proof.
  intros Hg Hv Hs Hfr.
  assert (Hplace : forall px n, Zlen px = n -> n <= npix_sector g ->
    exists fr', place_sector g v sec px fr = Ok fr' /\ Zlen fr' = g_w g * g_h g /\
      forall i, 0 <= i < g_w g * g_h g ->
        (fst (pixel_source g v i) <> sec \/ n <= snd (pixel_source g v i)) -> zat fr' i = zat fr i).
  { intros px n Hpx Hn. unfold place_sector.
    destruct (for_loop_inv
      (fun k f => Zlen f = g_w g * g_h g /\
         forall i, 0 <= i < g_w g * g_h g ->
           (fst (pixel_source g v i) <> sec \/ n <= snd (pixel_source g v i)) -> zat f i = zat fr i)
      (Zlen px)
      (fun k fr => let* p := rd px k in wr fr (sector_address g v sec k) p) fr)
      as (fr' & E & L & H).
    - apply Zlen_nonneg.
    - split; auto.
    - intros k f Hk [L H]. rewrite rd_zat by lia. cbn [bind].
      destruct (sector_address_ok g Hg v sec k Hv Hs ltac:(lia)) as [Ha Hsrc].
      rewrite wr_ok by lia. eexists; split; [reflexivity|]. split; [now rewrite Zlen_upd|].
      intros i Hi Hout. rewrite zat_upd by lia.
      destruct (Z.eqb_spec i (sector_address g v sec k)) as [->|]; [|now apply H].
      rewrite Hsrc in Hout. cbn [fst snd] in Hout. lia.
    - exists fr'. auto. }
  unfold read_sector_data. rewrite sector_size_eq by auto.
  destruct (Z.leb_spec (npix_sector g * 2) (Zlen rem)) as [Hle|Hlt].
  - assert (Hn0 : 0 <= npix_sector g).
    { pose proof (npix_sector_4 g Hg). destruct Hg as (? & ? & _). nia. }
    destruct (Hplace (words (Z.to_nat (npix_sector g)) 2 rem) (npix_sector g))
      as (fr' & E & L & H).
    { unfold Zlen. rewrite words_length. lia. }
    { lia. }
    rewrite E. cbn [bind]. eexists _, _. split; [reflexivity|]. split; [auto|].
    intros i Hi Ho. apply H; auto. destruct Ho as [Ho|Ho]; auto. right.
    etransitivity; [|exact Ho]. apply Z.div_le_lower_bound; lia.
  - assert (Hr : 0 <= Zlen rem) by apply Zlen_nonneg.
    assert (Hn : 0 <= Zlen rem / 2 < npix_sector g).
    { split; [apply Z.div_pos; lia|apply Z.div_lt_upper_bound; lia]. }
    destruct (Hplace (words (Z.to_nat (Zlen rem / 2)) 2 rem) (Zlen rem / 2))
      as (fr' & E & L & H).
    { unfold Zlen at 1. rewrite words_length. lia. }
    { lia. }
    rewrite E. cbn [bind].
    destruct (Z.odd (Zlen rem)) eqn:Eo.
    + assert (Hdiv : Zlen rem = 2 * (Zlen rem / 2) + 1).
      { pose proof (Zmod_odd (Zlen rem)) as Hm. rewrite Eo in Hm.
        pose proof (Z.div_mod (Zlen rem) 2 ltac:(lia)). lia. }
      destruct (sector_address_ok g Hg v sec (Zlen rem / 2) Hv Hs Hn) as [Ha Hsrc].
      rewrite (rd_zat fr') by lia. cbn [bind]. rewrite rd_zat by lia. cbn [bind].
      rewrite wr_ok by lia. cbn [bind]. eexists _, _. split; [reflexivity|].
      split; [now rewrite Zlen_upd|]. intros i Hi Ho. rewrite zat_upd by lia.
      assert (E2 : (Zlen rem + 1) / 2 = Zlen rem / 2 + 1).
      { rewrite Hdiv at 1. replace (2 * (Zlen rem / 2) + 1 + 1) with ((Zlen rem / 2 + 1) * 2) by ring.
        apply Z.div_mul. lia. }
      destruct (Z.eqb_spec i (sector_address g v sec (Zlen rem / 2))) as [->|].
      * rewrite Hsrc in Ho. cbn [fst snd] in Ho. lia.
      * apply H; auto. lia.
    + eexists _, _. split; [reflexivity|]. split; [auto|]. intros i Hi Ho. apply H; auto.
      destruct Ho as [Ho|Ho]; auto. right. etransitivity; [|exact Ho].
      apply Z.div_le_mono; lia.
Qed.

(** A file that ends inside a header makes read() use uninitialised values. *)
Theorem sector_truncated_header_undefined g v sec rem s :
  v = 4 \/ v = 5 -> 0 < Zlen rem < 16 -> sector_reader [(sec, rem)] v = Ok s ->
  fst (sector_read g s) = UB "uninitialised header"%string.
Proof.
  intros Hv Hr E. unfold sector_reader in E.
  destruct (negb _); [discriminate|]. injection E as <-.
  unfold sector_read, sector_fuel. cbn [ss_streams List.length Nat.add Nat.mul].
  match goal with |- context [sector_read_f g ?n _] => destruct n eqn:En; [lia|] end.
  cbn [sector_read_f ss_streams ss_it nth_error].
  destruct rem as [|b t]; [unfold Zlen in Hr; simpl in Hr; lia|].
  unfold absorb, sector_header.
  replace (Zlen (b :: t) <? 16) with true by (symmetry; apply Z.ltb_lt; lia).
  reflexivity.
Qed.

(** ** Witnesses *)

Definition g44 : geom := mkGeom 4 4.
Example g44_wf : wf_geom g44.
Proof. repeat split. Qed.

Definition rec44 (frame pos a : Z) : srec := mkSrec 9 frame 3 1 pos 0 [a; a + 1; a + 2; a + 3].

(** Two complete frames out of order and a partial one: the hypotheses of
    [sector_reader_exactly_once] are met and these are the blocks. *)
Definition files44 : list sfile :=
  [(2, [rec44 0 0 20; rec44 1 1 60]); (0, [rec44 1 1 40; rec44 0 0 0; rec44 2 2 70]);
   (3, [rec44 0 0 30; rec44 1 1 80]); (1, [rec44 0 0 10; rec44 1 1 50])].

Example files44_ok : wf_sfiles g44 files44 /\ same_scan files44.
Proof.
  split; [split|].
  - intros e He. cbn in He. unfold wf_srec, is_u32, is_u16.
    repeat destruct He as [<-|He]; try contradiction;
      cbn [fst snd rec44 s_scan s_frame s_sw s_sh s_x s_y s_px g44 g_w g_h];
      repeat (split; [unfold Zlen; simpl; lia|]);
      (split; [|lia]); repeat constructor; unfold is_u16; lia.
  - cbn. repeat constructor; simpl; intuition discriminate.
  - intros a b Ha Hb _. cbn in Ha, Hb.
    repeat destruct Ha as [<-|Ha]; try contradiction;
      repeat destruct Hb as [<-|Hb]; try contradiction; repeat split; reflexivity.
Qed.

Example files44_blocks : exists s,
  sector_reader (map encode_sfile files44) 5 = Ok s /\
  map (fun o => match o with Ok b => (image_numbers (hdr b), data b) | _ => ([], None) end)
      (fst (sector_reads g44 5 s)) =
  [([0], Some [0; 1; 2; 3; 10; 11; 12; 13; 20; 21; 22; 23; 30; 31; 32; 33]);
   ([1], Some [40; 41; 42; 43; 50; 51; 52; 53; 60; 61; 62; 63; 80; 81; 82; 83]);
   ([2], Some [70; 71; 72; 73; 0; 0; 0; 0; 0; 0; 0; 0; 0; 0; 0; 0]);
   ([], None); ([], None)].
Proof. eexists. split; [reflexivity|]. vm_compute. reflexivity. Qed.

(** The reset theorem's hypothesis is met after the fourth read. *)
Example files44_end : exists s,
  sector_reader (map encode_sfile files44) 5 = Ok s /\
  last (fst (sector_reads g44 4 s)) (Throw "no read"%string) = Ok empty_block.
Proof. eexists. split; [reflexivity|]. vm_compute. reflexivity. Qed.

(** Two frames with the same scan position (of different frame numbers) are
    mixed: the reader delivers one block although no frame is complete, and the
    sectors of the first frame are lost. *)
Definition mixed_files : list sfile :=
  [(0, [rec44 0 0 0; rec44 1 0 100]); (1, [rec44 0 0 10; rec44 1 0 110])].

Theorem sector_same_position_mixed_refuted : exists s b,
  sector_reader (map encode_sfile mixed_files) 5 = Ok s /\
  fst (sector_reads g44 2 s) = [Ok b; Ok empty_block] /\
  data b = Some [100; 101; 102; 103; 110; 111; 112; 113; 0; 0; 0; 0; 0; 0; 0; 0].
Proof. eexists _, _. split; [reflexivity|]. split; vm_compute; reflexivity. Qed.

(** A cut file: the frame at position 1 is delivered as if its four sectors had
    been read. *)
Definition cut_files : list (Z * list Z) :=
  map (fun f => (fst f, if fst f =? 3 then firstn 42 (snd f) else snd f))
      (map encode_sfile files44).

Theorem sector_cut_file_unreported : exists s,
  sector_reader cut_files 5 = Ok s /\
  map (fun o => match o with Ok b => data b | _ => None end) (fst (sector_reads g44 2 s)) =
  [Some [0; 1; 2; 3; 10; 11; 12; 13; 20; 21; 22; 23; 30; 31; 32; 33];
   Some [40; 41; 42; 43; 50; 51; 52; 53; 60; 61; 62; 63; 80; 0; 0; 0]].
Proof. eexists. split; [reflexivity|]. vm_compute. reflexivity. Qed.

Print Assumptions sectors_fill_frame.
Print Assumptions pixel_source_576.
Print Assumptions pixel_source_bijective.
Print Assumptions sector_outside_frame_undefined.
Print Assumptions sector_reader_exactly_once.
Print Assumptions frame_block_contents.
Print Assumptions sector_reset_restarts.
Print Assumptions sector_reset_midway_refuted.
Print Assumptions sector_truncated_data_accepted.
Print Assumptions sector_truncated_header_undefined.
Print Assumptions sector_same_position_mixed_refuted.
Print Assumptions sector_cut_file_unreported.
