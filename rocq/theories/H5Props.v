(** C18: HDF5 export. *)
From Coq Require Import String ZArith List Lia Bool Permutation Sorting.Sorted.
From Verif Require Import Base BaseFacts PermFacts BlockModel StreamModel StreamSpec StreamProofs
  SectorModel SectorSpec SectorProofs SectorProps H5Model.
Import ListNotations.
Open Scope Z_scope.
Local Arguments Z.mul : simpl never.
Local Arguments Z.add : simpl never.

(** ** Writing one frame *)

Section Slab.
Variables (n : Z) (pre start : list Z).
Hypothesis Hn : 0 < n.

(** Copying [n*n] pixels to slot [q]. *)
Lemma slab_write (f : Z -> Z) (data d : list Z) q slots :
  Zlen d = slots * (n * n) -> 0 <= q < slots -> Zlen data = n * n ->
  (forall k, 0 <= k < n * n -> f k = q * (n * n) + k) ->
  exists d', for_loop (n * n) (fun k d => let* v := rd data (0 + k) in wr d (f k) v) d = Ok d' /\
    Zlen d' = slots * (n * n) /\
    forall j, 0 <= j < slots * (n * n) ->
      zat d' j = if j / (n * n) =? q then zat data (j mod (n * n)) else zat d j.
Proof.
  intros Hd Hq Hdata Hf.
  destruct (for_loop_inv
    (fun k d' => Zlen d' = slots * (n * n) /\
       forall j, 0 <= j < slots * (n * n) ->
         zat d' j = if (q * (n * n) <=? j) && (j <? q * (n * n) + k)
                    then zat data (j - q * (n * n)) else zat d j)
    (n * n) (fun k d => let* v := rd data (0 + k) in wr d (f k) v) d)
    as (d' & E & L & H).
  - nia.
  - split; auto. intros j Hj. destruct (Z.leb_spec (q * (n * n)) j);
      destruct (Z.ltb_spec j (q * (n * n) + 0)); cbn [andb]; auto. lia.
  - intros k d1 Hk [L H]. rewrite Z.add_0_l. rewrite rd_zat by lia. cbn [bind].
    rewrite Hf by auto. rewrite wr_ok by nia.
    eexists; split; [reflexivity|]. split; [now rewrite Zlen_upd|].
    intros j Hj. rewrite zat_upd by nia.
    destruct (Z.eqb_spec j (q * (n * n) + k)) as [->|Hne].
    + replace (q * (n * n) <=? q * (n * n) + k) with true by (symmetry; apply Z.leb_le; lia).
      replace (q * (n * n) + k <? q * (n * n) + (k + 1)) with true by (symmetry; apply Z.ltb_lt; lia).
      cbn [andb]. f_equal. lia.
    + rewrite H by auto.
      destruct (Z.ltb_spec j (q * (n * n) + k)); destruct (Z.ltb_spec j (q * (n * n) + (k + 1)));
        try lia; auto.
  - exists d'. split; [exact E|]. split; [exact L|]. intros j Hj. rewrite H by auto.
    pose proof (Z.div_mod j (n * n) ltac:(nia)) as Ej.
    pose proof (Z.mod_pos_bound j (n * n) ltac:(nia)) as Hm.
    destruct (Z.eqb_spec (j / (n * n)) q) as [Eq|Nq].
    + rewrite Eq in Ej.
      replace (q * (n * n) <=? j) with true by (symmetry; apply Z.leb_le; nia).
      replace (j <? q * (n * n) + n * n) with true by (symmetry; apply Z.ltb_lt; nia).
      cbn [andb]. f_equal. lia.
    + destruct (Z.leb_spec (q * (n * n)) j); destruct (Z.ltb_spec j (q * (n * n) + n * n));
        cbn [andb]; auto.
      exfalso. apply Nq. symmetry. apply (Z.div_unique_pos j (n * n) q (j - q * (n * n))); lia.
Qed.
End Slab.

Lemma flat_3 n P p k : 0 < n -> 0 <= k < n * n ->
  flat_index [P; n; n] (zip_add [p; 0; 0] (unflat [1; n; n] k)) = p * (n * n) + k.
Proof.
  intros Hn Hk. cbn [flat_index zip_add unflat prod fold_right]. rewrite !Z.mul_1_r, !Z.div_1_r.
  rewrite (Z.div_small k (n * n)), (Z.mod_small k (n * n)) by lia.
  pose proof (Z.div_mod k n ltac:(lia)). lia.
Qed.

Lemma flat_4 n w h x y k : 0 < n -> 0 <= k < n * n ->
  flat_index [w; h; n; n] (zip_add [x; y; 0; 0] (unflat [1; 1; n; n] k)) =
  (x * h + y) * (n * n) + k.
Proof.
  intros Hn Hk. cbn [flat_index zip_add unflat prod fold_right]. rewrite !Z.mul_1_r, !Z.div_1_r, ?Z.mul_1_l.
  rewrite (Z.div_small k (n * n)), (Z.mod_small k (n * n)) by lia.
  rewrite (Z.div_small k (n * n)), (Z.mod_small k (n * n)) by lia.
  pose proof (Z.div_mod k n ltac:(lia)). lia.
Qed.

(** ** The blocks that are exported *)

(** A frame of [n] by [n] pixels at position [pos] of a scan of [sw] by [sh]. *)
Definition frame_at (n sw sh pos : Z) (px : list Z) (b : block) : Prop :=
  scan_dims (hdr b) = (sw, sh) /\ frame_dims (hdr b) = (n, n) /\
  images_in_block (hdr b) = 1 /\ image_numbers (hdr b) = [pos] /\
  data b = Some px /\ Zlen px = n * n.

(** What the data set must hold for position [p]: the frame written last there,
    zeros if there is none. *)
Definition pixel_of (frames : list (Z * list Z)) (p k : Z) : Z :=
  match find (fun f => fst f =? p) (rev frames) with
  | Some f => zat (snd f) k
  | None => 0
  end.

Lemma pixel_of_snoc frames f p k :
  pixel_of (frames ++ [f]) p k = if fst f =? p then zat (snd f) k else pixel_of frames p k.
Proof. unfold pixel_of. rewrite rev_app_distr. cbn [rev app find]. now destruct (fst f =? p). Qed.

Section Export.
Variables (g : geom) (n sw sh : Z).
Hypothesis Hg : g_w g = n /\ g_h g = n.
Hypothesis Hn : 0 < n < 2 ^ 15.
Hypothesis Hscan : 0 < sw /\ 0 < sh /\ sw * sh < 2 ^ 31.

Definition frames_ds (frames : list (Z * list Z)) (ds : h5ds) : Prop :=
  ds_dims ds = [sw * sh; n; n] /\ Zlen (ds_data ds) = sw * sh * (n * n) /\
  forall j, 0 <= j < sw * sh * (n * n) ->
    zat (ds_data ds) j = pixel_of frames (j / (n * n)) (j mod (n * n)).

(** In the cube, slot x * sh + y is position y * sw + x. *)
Definition slot_pos (q : Z) : Z := (q mod sh) * sw + q / sh.
Definition cube_ds (frames : list (Z * list Z)) (ds : h5ds) : Prop :=
  ds_dims ds = [sw; sh; n; n] /\ Zlen (ds_data ds) = sw * sh * (n * n) /\
  forall j, 0 <= j < sw * sh * (n * n) ->
    zat (ds_data ds) j = pixel_of frames (slot_pos (j / (n * n))) (j mod (n * n)).

Lemma slot_pos_iff q p : 0 <= q < sw * sh -> 0 <= p < sw * sh ->
  (q =? (p mod sw) * sh + p / sw) = (p =? slot_pos q).
Proof.
  intros Hq Hp. unfold slot_pos.
  pose proof (Z.div_mod p sw ltac:(lia)) as Ep. pose proof (Z.mod_pos_bound p sw ltac:(lia)) as Hpm.
  pose proof (Z.div_mod q sh ltac:(lia)) as Eq. pose proof (Z.mod_pos_bound q sh ltac:(lia)) as Hqm.
  assert (Hpd : 0 <= p / sw < sh) by (split; [apply Z.div_pos; lia|apply Z.div_lt_upper_bound; lia]).
  assert (Hqd : 0 <= q / sh < sw) by (split; [apply Z.div_pos; lia|apply Z.div_lt_upper_bound; lia]).
  destruct (Z.eqb_spec q (p mod sw * sh + p / sw)) as [E|E].
  - symmetry. apply Z.eqb_eq.
    destruct (div_mod_unique_row sh (p / sw) (p mod sw) Hpd) as [E1 E2].
    rewrite <- E in E1, E2. rewrite E1, E2. lia.
  - symmetry. apply Z.eqb_neq. intros E'. apply E.
    destruct (div_mod_unique_row sw (q / sh) (q mod sh) Hqd) as [E1 E2].
    rewrite <- E' in E1, E2. rewrite E1, E2. lia.
Qed.

Lemma i32_pos z : 0 <= z < 2 ^ 31 -> i32_of_u32 z = z.
Proof. intros H. unfold i32_of_u32. destruct (Z.ltb_spec z (2 ^ 31)); lia. Qed.

Lemma scan_small : sw < 2 ^ 31 /\ sh < 2 ^ 31.
Proof. destruct Hscan as (? & ? & ?). split; nia. Qed.

Lemma frame_block_step frames st b p px :
  (match st with Some ds => frames_ds frames ds | None => frames = [] end) ->
  frame_at n sw sh p px b -> 0 <= p < sw * sh ->
  exists ds, h5_frame_block g st b = Ok (Some ds) /\ frames_ds (frames ++ [(p, px)]) ds.
Proof.
  intros Hst (Hd & Hf & Hi & Him & Hpx & Hlen) Hp. destruct scan_small as [Hw31 Hh31].
  unfold h5_frame_block. rewrite Hd, Hf, Hi, Him. unfold block_data. rewrite Hpx. cbn [fst snd].
  rewrite !i32_pos by lia.
  destruct Hg as [-> ->].
  assert (Hds : exists ds0,
    match st with
    | Some ds => Ok ds
    | None => let* m := mul_i32 sw sh in Ok (h5_create [m; n; n])
    end = Ok ds0 /\ frames_ds frames ds0).
  { destruct st as [ds|]; [exists ds; auto|]. subst frames.
    unfold mul_i32. replace (sw * sh <? 2 ^ 31) with true by (symmetry; apply Z.ltb_lt; lia).
    cbn [bind]. eexists; split; [reflexivity|]. unfold h5_create, frames_ds. cbn [ds_dims ds_data prod fold_right].
    split; [reflexivity|]. rewrite Zlen_repeat. rewrite Z.mul_1_r.
    split; [rewrite Z2Nat.id; nia|]. intros j Hj. now rewrite zat_repeat0. }
  destruct Hds as (ds0 & -> & Hdims & HL & Hc). cbn [bind].
  unfold for_loop. change (Z.to_nat 1) with 1%nat. cbn [for_from].
  change (rd [p] 0) with (Ok p). cbn [bind].
  change (u32 (u32 (0 * n) * n)) with 0.
  unfold h5_update. rewrite Hdims. cbn [box_inside].
  replace (p + 1 <=? sw * sh) with true by (symmetry; apply Z.leb_le; lia).
  replace (0 + n <=? n) with true by (symmetry; apply Z.leb_le; lia). cbn [andb].
  replace (prod [1; n; n]) with (n * n) by (cbn [prod fold_right]; lia).
  destruct (slab_write n ltac:(lia) (fun k => flat_index [sw * sh; n; n] (zip_add [p; 0; 0] (unflat [1; n; n] k)))
              px (ds_data ds0) p (sw * sh)) as (d' & E & L & H); auto.
  { intros k Hk. apply flat_3; lia. }
  rewrite E. cbn [bind]. eexists; split; [reflexivity|].
  split; [reflexivity|]. cbn [ds_data]. split; [exact L|].
  intros j Hj. rewrite H by auto. rewrite pixel_of_snoc. cbn [fst snd].
  rewrite Z.eqb_sym. destruct (p =? j / (n * n)); auto.
Qed.

Lemma cube_block_step frames st b p px :
  (match st with Some ds => cube_ds frames ds | None => frames = [] end) ->
  frame_at n sw sh p px b -> 0 <= p < sw * sh ->
  exists ds, h5_cube_block g st b = Ok (Some ds) /\ cube_ds (frames ++ [(p, px)]) ds.
Proof.
  intros Hst (Hd & Hf & Hi & Him & Hpx & Hlen) Hp. destruct scan_small as [Hw31 Hh31].
  unfold h5_cube_block. rewrite Hd, Hf, Hi, Him. unfold block_data. rewrite Hpx. cbn [fst snd bind].
  rewrite !i32_pos by lia.
  destruct Hg as [-> ->].
  set (ds0 := match st with Some ds => ds | None => h5_create [sw; sh; n; n] end).
  assert (Hds : cube_ds frames ds0).
  { unfold ds0. destruct st as [ds|]; auto. subst frames.
    unfold h5_create, cube_ds. cbn [ds_dims ds_data prod fold_right].
    split; [reflexivity|]. rewrite Zlen_repeat. rewrite Z.mul_1_r.
    split; [rewrite Z2Nat.id; nia|]. intros j Hj. now rewrite zat_repeat0. }
  clearbody ds0. destruct Hds as (Hdims & HL & Hc).
  unfold for_loop. change (Z.to_nat 1) with 1%nat. cbn [for_from].
  change (rd [p] 0) with (Ok p). cbn [bind].
  replace (sw =? 0) with false by (symmetry; apply Z.eqb_neq; lia).
  change (u32 (u32 (0 * n) * n)) with 0.
  unfold h5_update. rewrite Hdims. cbn [box_inside].
  pose proof (Z.mod_pos_bound p sw ltac:(lia)) as Hpm.
  assert (Hpd : 0 <= p / sw < sh) by (split; [apply Z.div_pos; lia|apply Z.div_lt_upper_bound; lia]).
  replace (p mod sw + 1 <=? sw) with true by (symmetry; apply Z.leb_le; lia).
  replace (p / sw + 1 <=? sh) with true by (symmetry; apply Z.leb_le; lia).
  replace (0 + n <=? n) with true by (symmetry; apply Z.leb_le; lia). cbn [andb].
  replace (prod [1; 1; n; n]) with (n * n) by (cbn [prod fold_right]; lia).
  set (q := p mod sw * sh + p / sw).
  assert (Hq : 0 <= q < sw * sh) by (unfold q; nia).
  destruct (slab_write n ltac:(lia) (fun k => flat_index [sw; sh; n; n] (zip_add [p mod sw; p / sw; 0; 0] (unflat [1; 1; n; n] k)))
              px (ds_data ds0) q (sw * sh)) as (d' & E & L & H); auto.
  { intros k Hk. rewrite flat_4 by lia. reflexivity. }
  rewrite E. cbn [bind]. eexists; split; [reflexivity|].
  split; [reflexivity|]. cbn [ds_data]. split; [exact L|].
  intros j Hj. rewrite H by auto. rewrite pixel_of_snoc. cbn [fst snd].
  assert (Hjn : 0 <= j / (n * n) < sw * sh)
    by (split; [apply Z.div_pos; nia|apply Z.div_lt_upper_bound; nia]).
  unfold q. rewrite (slot_pos_iff (j / (n * n)) p) by auto.
  destruct (p =? slot_pos (j / (n * n))); auto.
Qed.

Lemma export_ok fmt bs frames : bs <> [] ->
  Forall2 (fun b f => frame_at n sw sh (fst f) (snd f) b /\ 0 <= fst f < sw * sh) bs frames ->
  exists ds, h5_export g fmt bs = Ok (Some ds) /\
    match fmt with Frame => frames_ds frames ds | DataCube => cube_ds frames ds end.
Proof.
  intros Hne HF. unfold h5_export.
  assert (Hgen : forall bs frames st done,
    Forall2 (fun b f => frame_at n sw sh (fst f) (snd f) b /\ 0 <= fst f < sw * sh) bs frames ->
    match st with
    | Some ds => match fmt with Frame => frames_ds done ds | DataCube => cube_ds done ds end
    | None => done = [] end ->
    exists st', for_each bs (fun b st => match fmt with
                           | Frame => h5_frame_block g st b
                           | DataCube => h5_cube_block g st b
                           end) st = Ok st' /\
      match st' with
      | Some ds => match fmt with Frame => frames_ds (done ++ frames) ds
                             | DataCube => cube_ds (done ++ frames) ds end
      | None => st = None /\ bs = [] end).
  { clear bs frames Hne HF. induction bs as [|b bs IH]; intros frames st done HF Hst.
    - inversion HF; subst. exists st. split; [reflexivity|]. rewrite app_nil_r.
      destruct st; auto.
    - inversion HF as [|? [p px] ? frames' [Hb Hp] HF']; subst. cbn [fst snd] in *.
      assert (Hstep : exists ds, match fmt with Frame => h5_frame_block g st b
                                          | DataCube => h5_cube_block g st b end = Ok (Some ds) /\
                match fmt with Frame => frames_ds (done ++ [(p, px)]) ds
                           | DataCube => cube_ds (done ++ [(p, px)]) ds end).
      { destruct fmt; [apply frame_block_step|apply cube_block_step]; auto. }
      destruct Hstep as (ds & E & Hds).
      destruct (IH frames' (Some ds) (done ++ [(p, px)])) as (st' & E' & Hst'); auto.
      exists st'. cbn [for_each]. rewrite E. cbn [bind]. split; [exact E'|].
      replace (done ++ (p, px) :: frames') with ((done ++ [(p, px)]) ++ frames')
        by (now rewrite <- app_assoc).
      destruct st'; auto. destruct Hst'; discriminate. }
  destruct (Hgen bs frames None [] HF eq_refl) as (st' & E & Hst').
  destruct st' as [ds|]; [|destruct Hst'; congruence]. exists ds. auto.
Qed.

Lemma frames_at frames ds p y x : frames_ds frames ds ->
  0 <= p < sw * sh -> 0 <= y < n -> 0 <= x < n ->
  h5_at ds [p; y; x] = pixel_of frames p (y * n + x).
Proof.
  intros (Hd & HL & H) Hp Hy Hx. unfold h5_at. rewrite Hd. cbn [flat_index prod fold_right].
  replace (p * (n * (n * 1)) + (y * (n * 1) + (x * 1 + 0))) with (p * (n * n) + (y * n + x)) by ring.
  assert (Hk : 0 <= y * n + x < n * n) by nia.
  rewrite H by nia. destruct (div_mod_unique_row (n * n) (y * n + x) p Hk) as [-> ->]. reflexivity.
Qed.

Lemma cube_at frames ds i j y x : cube_ds frames ds ->
  0 <= i < sw -> 0 <= j < sh -> 0 <= y < n -> 0 <= x < n ->
  h5_at ds [i; j; y; x] = pixel_of frames (j * sw + i) (y * n + x).
Proof.
  intros (Hd & HL & H) Hi Hj Hy Hx. unfold h5_at. rewrite Hd. cbn [flat_index prod fold_right].
  replace (i * (sh * (n * (n * 1))) + (j * (n * (n * 1)) + (y * (n * 1) + (x * 1 + 0))))
    with ((i * sh + j) * (n * n) + (y * n + x)) by ring.
  assert (Hk : 0 <= y * n + x < n * n) by nia.
  assert (Hq : 0 <= i * sh + j < sw * sh) by nia.
  rewrite H by (generalize dependent (i * sh + j); generalize dependent (sw * sh); intros; nia).
  destruct (div_mod_unique_row (n * n) (y * n + x) (i * sh + j) Hk) as [-> ->].
  unfold slot_pos. destruct (div_mod_unique_row sh j i Hj) as [-> ->]. reflexivity.
Qed.
End Export.

Lemma pixel_of_unique frames f k :
  NoDup (map fst frames) -> In f frames -> pixel_of frames (fst f) k = zat (snd f) k.
Proof.
  intros HN Hin. unfold pixel_of.
  assert (HN' : NoDup (map fst (rev frames))) by (rewrite map_rev; now apply NoDup_rev).
  apply in_rev in Hin. revert HN' Hin. generalize (rev frames) as l. clear.
  induction l as [|a l IH]; simpl; intros HN Hin; [destruct Hin|].
  inversion HN as [|? ? Hna HN']; subst.
  destruct (Z.eqb_spec (fst a) (fst f)) as [E|E].
  - destruct Hin as [->|Hin]; auto. exfalso. apply Hna. rewrite E. now apply in_map.
  - destruct Hin as [->|Hin]; [congruence|auto].
Qed.

Lemma pixel_of_none frames p k : ~ In p (map fst frames) -> pixel_of frames p k = 0.
Proof.
  intros H. unfold pixel_of. assert (H' : ~ In p (map fst (rev frames))).
  { rewrite map_rev. rewrite <- in_rev. exact H. }
  revert H'. generalize (rev frames) as l. clear. induction l as [|a l IH]; simpl; intros H; auto.
  destruct (Z.eqb_spec (fst a) p); [exfalso; auto|auto].
Qed.

(** ** Theorems *)

(** Exporting any sequence of frames of one scan, with positions inside it:
    element [p; y; x] of the "frames" data set is pixel (y, x) of the frame
    written (last) for position p, zero if there is none. *)
Theorem h5_frames_correct g n sw sh bs frames :
  g_w g = n /\ g_h g = n -> 0 < n < 2 ^ 15 -> 0 < sw /\ 0 < sh /\ sw * sh < 2 ^ 31 ->
  bs <> [] ->
  Forall2 (fun b f => frame_at n sw sh (fst f) (snd f) b /\ 0 <= fst f < sw * sh) bs frames ->
  exists ds, h5_export g Frame bs = Ok (Some ds) /\ ds_dims ds = [sw * sh; n; n] /\
    forall p y x, 0 <= p < sw * sh -> 0 <= y < n -> 0 <= x < n ->
      h5_at ds [p; y; x] = pixel_of frames p (y * n + x).
Proof.
  intros Hg Hn Hs Hne HF.
  destruct (export_ok g n sw sh Hg Hn Hs Frame bs frames Hne HF) as (ds & E & Hds).
  exists ds. split; [exact E|]. split; [apply Hds|]. intros. eapply frames_at; eauto.
Qed.

(** The same for the "datacube" data set: element [i; j; y; x] belongs to the
    scan position of column i and row j. *)
Theorem h5_cube_correct g n sw sh bs frames :
  g_w g = n /\ g_h g = n -> 0 < n < 2 ^ 15 -> 0 < sw /\ 0 < sh /\ sw * sh < 2 ^ 31 ->
  bs <> [] ->
  Forall2 (fun b f => frame_at n sw sh (fst f) (snd f) b /\ 0 <= fst f < sw * sh) bs frames ->
  exists ds, h5_export g DataCube bs = Ok (Some ds) /\ ds_dims ds = [sw; sh; n; n] /\
    forall i j y x, 0 <= i < sw -> 0 <= j < sh -> 0 <= y < n -> 0 <= x < n ->
      h5_at ds [i; j; y; x] = pixel_of frames (j * sw + i) (y * n + x).
Proof.
  intros Hg Hn Hs Hne HF.
  destruct (export_ok g n sw sh Hg Hn Hs DataCube bs frames Hne HF) as (ds & E & Hds).
  exists ds. split; [exact E|]. split; [apply Hds|]. intros. eapply cube_at; eauto.
Qed.

(** Distinct positions never overwrite each other. *)
Theorem h5_distinct_positions frames f k :
  NoDup (map fst frames) -> In f frames -> pixel_of frames (fst f) k = zat (snd f) k.
Proof. apply pixel_of_unique. Qed.

(** A position outside the scan is reported, in both formats. *)
Theorem h5_outside_scan_reported g n sw sh fmt b p px :
  g_w g = n /\ g_h g = n -> 0 < n < 2 ^ 15 -> 0 < sw /\ 0 < sh /\ sw * sh < 2 ^ 31 ->
  frame_at n sw sh p px b -> sw * sh <= p ->
  h5_export g fmt [b] = Throw "Unable to update HDF5."%string.
Proof.
  intros [Eg1 Eg2] Hn Hs (Hd & Hf & Hi & Him & Hpx & Hlen) Hp.
  assert (Hw31 : sw < 2 ^ 31 /\ sh < 2 ^ 31) by (destruct Hs as (? & ? & ?); split; nia).
  unfold h5_export. cbn [for_each].
  destruct fmt; [unfold h5_frame_block|unfold h5_cube_block];
    rewrite Hd, Hf, Hi, Him; unfold block_data; rewrite Hpx; cbn [fst snd];
    rewrite !i32_pos by lia.
  - unfold mul_i32. replace (sw * sh <? 2 ^ 31) with true by (symmetry; apply Z.ltb_lt; lia).
    cbn [bind]. unfold for_loop. change (Z.to_nat 1) with 1%nat. cbn [for_from].
    change (rd [p] 0) with (Ok p). cbn [bind]. unfold h5_update, h5_create. cbn [ds_dims box_inside].
    replace (p + 1 <=? sw * sh) with false by (symmetry; apply Z.leb_gt; lia). reflexivity.
  - cbn [bind]. unfold for_loop. change (Z.to_nat 1) with 1%nat. cbn [for_from].
    change (rd [p] 0) with (Ok p). cbn [bind].
    replace (sw =? 0) with false by (symmetry; apply Z.eqb_neq; lia).
    unfold h5_update, h5_create. cbn [ds_dims box_inside].
    assert (sh <= p / sw) by (apply Z.div_le_lower_bound; lia).
    replace (p / sw + 1 <=? sh) with false by (symmetry; apply Z.leb_gt; lia).
    now rewrite andb_false_r.
Qed.

(** ** From sector files to the HDF5 file *)

Lemma iterate_reads g bs : forall s,
  (forall b, In b bs -> data b <> None) ->
  fst (sector_reads g (S (List.length bs)) s) = map Ok bs ++ [Ok empty_block] ->
  sector_iterate g (S (List.length bs)) s = Ok bs.
Proof.
  induction bs as [|b bs IH]; intros s Hb H.
  - cbn [List.length] in *. rewrite reads_S in H. cbn [map app sector_reads fst] in H.
    assert (H1 : fst (sector_read g s) = Ok empty_block) by congruence.
    cbn [sector_iterate]. destruct (sector_read g s) as [r s1]. cbn [fst] in H1. rewrite H1.
    reflexivity.
  - cbn [List.length] in *. rewrite reads_S in H. cbn [map app] in H.
    assert (H1 : fst (sector_read g s) = Ok b) by congruence.
    assert (H2 : fst (sector_reads g (S (List.length bs)) (snd (sector_read g s))) =
                 map Ok bs ++ [Ok empty_block]) by congruence.
    clear H. remember (S (List.length bs)) as m. cbn [sector_iterate].
    destruct (sector_read g s) as [r s1]. cbn [fst snd] in *. rewrite H1. cbn [bind].
    destruct (data b) eqn:Ed; [|exfalso; apply (Hb b); simpl; auto].
    rewrite IH; auto. intros b' Hb'. apply Hb. simpl; auto.
Qed.

(** What the reader delivers to the export. *)
Lemma files_deliver g n v fs sw sh :
  wf_geom g -> g_w g = n /\ g_h g = n -> n < 2 ^ 15 -> v = 4 \/ v = 5 ->
  wf_sfiles g fs -> same_scan fs -> all_records fs <> [] ->
  0 < sw /\ 0 < sh /\ sw * sh < 2 ^ 31 ->
  (forall e, In e (all_records fs) ->
     s_sw (snd e) = sw /\ s_sh (snd e) = sh /\ s_pos (snd e) < sw * sh) ->
  exists s fuel bs frames,
    sector_reader (map encode_sfile fs) v = Ok s /\ sector_iterate g fuel s = Ok bs /\
    0 < n < 2 ^ 15 /\ bs <> [] /\
    Forall2 (fun b f => frame_at n sw sh (fst f) (snd f) b /\ 0 <= fst f < sw * sh) bs frames /\
    forall p k, 0 <= p < sw * sh -> 0 <= k < n * n ->
      pixel_of frames p k = zat (assembled g v (records_at p (all_records fs))) k.
Proof.
  intros Hg Hgn Hn15 Hv Hwf Hss Hne Hs Hin.
  assert (Hfne : fs <> []) by (intros ->; apply Hne; reflexivity).
  destruct (sector_reader_exactly_once g v fs Hg Hv Hfne Hwf Hss)
    as (s & full & part & E & HN & _ & Hps & _ & Hr).
  set (ps := full ++ part) in *.
  set (bs := map (fun p => frame_block g v p (records_at p (all_records fs))) ps).
  assert (Hn : 0 < n < 2 ^ 15) by (destruct Hg as (? & _); lia).
  assert (Hit : sector_iterate g (S (List.length bs)) s = Ok bs).
  { apply iterate_reads.
    - intros b Hb. apply in_map_iff in Hb as (p & <- & _). discriminate.
    - rewrite Hr. unfold bs. rewrite map_length, map_map. cbn [repeat].
      rewrite firstn_app. rewrite firstn_all2 by (rewrite map_length; lia).
      rewrite map_length. replace (S (List.length ps) - List.length ps)%nat with 1%nat by lia.
      reflexivity. }
  assert (HF : Forall2 (fun b f => frame_at n sw sh (fst f) (snd f) b /\ 0 <= fst f < sw * sh)
     bs (map (fun p => (p, assembled g v (records_at p (all_records fs)))) ps)).
  { unfold bs. assert (Hall : forall p, In p ps -> exists e,
                       In e (all_records fs) /\ s_pos (snd e) = p) by (intros p; apply Hps).
    clear - Hall Hin Hgn Hn Hg Hwf. induction ps as [|p ps IH]; cbn [map]; constructor.
    - cbn [fst snd]. destruct (Hall p) as (e & He & Hpe); [simpl; auto|].
      assert (Hr : exists e0 rs, records_at p (all_records fs) = e0 :: rs /\ In e0 (all_records fs)).
      { assert (Hi : In e (records_at p (all_records fs))) by (apply in_records_at; auto).
        destruct (records_at p (all_records fs)) as [|e0 rs] eqn:Er; [destruct Hi|].
        exists e0, rs. split; auto. assert (Hi0 : In e0 (records_at p (all_records fs))) by (rewrite Er; simpl; auto).
        now apply in_records_at in Hi0. }
      destruct Hr as (e0 & rs & Er & He0). destruct (Hin e0 He0) as (E1 & E2 & _).
      destruct (Hin e He) as (_ & _ & E3). destruct (proj1 Hwf e He) as [We _].
      destruct (s_pos_u32 g _ We) as [[P0 _] _].
      split; [|rewrite <- Hpe; lia].
      unfold frame_at, frame_block. cbn [hdr scan_dims frame_dims images_in_block image_numbers data].
      rewrite Er. rewrite <- Er. destruct Hgn as [G1 G2].
      split; [rewrite E1, E2; reflexivity|]. split; [rewrite G1, G2; reflexivity|].
      split; [reflexivity|]. split; [reflexivity|]. split; [reflexivity|].
      rewrite assembled_length by auto. now rewrite G1, G2.
    - apply IH. intros q Hq. apply Hall. simpl; auto. }
  assert (Hbne : bs <> []).
  { unfold bs. destruct ps eqn:Eps; [|discriminate]. exfalso.
    destruct (all_records fs) as [|e l] eqn:Ea; [congruence|].
    assert (Hi : In (s_pos (snd e)) []) by (apply Hps; exists e; simpl; auto). destruct Hi. }
  set (frames := map (fun p => (p, assembled g v (records_at p (all_records fs)))) ps) in *.
  assert (Hpix : forall p k, 0 <= p < sw * sh -> 0 <= k < n * n ->
            pixel_of frames p k = zat (assembled g v (records_at p (all_records fs))) k).
  { intros p k Hp Hk. destruct (in_dec Z.eq_dec p ps) as [Hi|Hni].
    - apply (pixel_of_unique frames (p, assembled g v (records_at p (all_records fs)))).
      + unfold frames. rewrite map_map. cbn [fst]. now rewrite map_id.
      + unfold frames. apply in_map_iff. exists p. auto.
    - rewrite pixel_of_none.
      2:{ unfold frames. rewrite map_map. cbn [fst]. now rewrite map_id. }
      assert (Er : records_at p (all_records fs) = []).
      { destruct (records_at p (all_records fs)) as [|e l] eqn:Er; auto. exfalso. apply Hni.
        apply Hps. exists e. apply in_records_at. rewrite Er. simpl; auto. }
      rewrite Er, assembled_nil by auto. now rewrite zat_repeat0. }
  exists s, (S (List.length bs)), bs, frames. auto 10.
Qed.

(** Exporting sector files: for every position of the scan, the data set holds
    the frame assembled from the sectors that the files contain for it. *)
Theorem to_hdf5_correct g n v fs sw sh fmt :
  wf_geom g -> g_w g = n /\ g_h g = n -> n < 2 ^ 15 -> v = 4 \/ v = 5 ->
  wf_sfiles g fs -> same_scan fs -> all_records fs <> [] ->
  0 < sw /\ 0 < sh /\ sw * sh < 2 ^ 31 ->
  (forall e, In e (all_records fs) ->
     s_sw (snd e) = sw /\ s_sh (snd e) = sh /\ s_pos (snd e) < sw * sh) ->
  exists s fuel ds,
    sector_reader (map encode_sfile fs) v = Ok s /\
    to_hdf5 g fmt fuel s = Ok (Some ds) /\
    forall p y x, 0 <= p < sw * sh -> 0 <= y < n -> 0 <= x < n ->
      h5_at ds (match fmt with Frame => [p; y; x] | DataCube => [p mod sw; p / sw; y; x] end) =
      zat (assembled g v (records_at p (all_records fs))) (y * n + x).
Proof.
  intros Hg Hgn Hn15 Hv Hwf Hss Hne Hs Hin.
  destruct (files_deliver g n v fs sw sh Hg Hgn Hn15 Hv Hwf Hss Hne Hs Hin)
    as (s & fuel & bs & frames & E & Hit & Hn & Hbne & HF & Hpix).
  exists s, fuel.
  unfold to_hdf5. rewrite Hit. cbn [bind].
  destruct fmt.
  - destruct (h5_frames_correct g n sw sh bs frames Hgn Hn Hs Hbne HF) as (ds & Ed & _ & Hds).
    exists ds. split; [exact E|]. split; [exact Ed|]. intros p y x Hp Hy Hx.
    rewrite Hds by auto. apply Hpix; auto. nia.
  - destruct (h5_cube_correct g n sw sh bs frames Hgn Hn Hs Hbne HF) as (ds & Ed & _ & Hds).
    exists ds. split; [exact E|]. split; [exact Ed|]. intros p y x Hp Hy Hx.
    pose proof (Z.mod_pos_bound p sw ltac:(lia)) as Hpm.
    assert (Hpd : 0 <= p / sw < sh)
      by (split; [apply Z.div_pos; lia|apply Z.div_lt_upper_bound; lia]).
    rewrite Hds by auto.
    replace (p / sw * sw + p mod sw) with p by (pose proof (Z.div_mod p sw ltac:(lia)); lia).
    apply Hpix; auto. nia.
Qed.

(** The number of positions is computed as an int: from 2^31 positions on it
    overflows. *)
Theorem h5_frames_large_scan_undefined g b sw sh :
  scan_dims (hdr b) = (sw, sh) -> 0 <= sw < 2 ^ 31 -> 0 <= sh < 2 ^ 31 -> 2 ^ 31 <= sw * sh ->
  h5_export g Frame [b] = UB "signed integer overflow"%string.
Proof.
  intros Hd Hw Hh Hbig. unfold h5_export. cbn [for_each]. unfold h5_frame_block.
  rewrite Hd. cbn [fst snd]. rewrite !i32_pos by lia. unfold mul_i32.
  replace (sw * sh <? 2 ^ 31) with false by (symmetry; apply Z.ltb_ge; lia). reflexivity.
Qed.

(** Witness: the files of SectorProps meet the hypotheses. *)
Example to_hdf5_files44 :
  (forall e, In e (all_records files44) ->
     s_sw (snd e) = 3 /\ s_sh (snd e) = 1 /\ s_pos (snd e) < 3 * 1) /\
  match sector_reader (map encode_sfile files44) 5 with
  | Ok s => match to_hdf5 g44 DataCube 5 s with
            | Ok (Some ds) => h5_at ds [1; 0; 3; 2] = 82 /\ h5_at ds [2; 0; 0; 3] = 73 /\
                              h5_at ds [2; 0; 1; 0] = 0
            | _ => False
            end
  | _ => False
  end.
Proof.
  split.
  - intros e He. cbn in He. repeat destruct He as [<-|He]; try contradiction;
      (split; [reflexivity|]); (split; [reflexivity|]); unfold s_pos; simpl; lia.
  - vm_compute. auto.
Qed.

Print Assumptions h5_frames_correct.
Print Assumptions h5_cube_correct.
Print Assumptions h5_distinct_positions.
Print Assumptions h5_outside_scan_reported.
Print Assumptions to_hdf5_correct.
Print Assumptions h5_frames_large_scan_undefined.
