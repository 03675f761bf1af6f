(** Proofs about SectorStreamReader. *)
From Coq Require Import String ZArith List Lia Bool Permutation Sorting.Sorted.
From Verif Require Import Base BaseFacts PermFacts BlockModel StreamModel StreamSpec StreamProofs
  SectorModel SectorSpec.
Import ListNotations.
Open Scope Z_scope.
Local Arguments skipn : simpl never.
Local Arguments firstn : simpl never.
Local Arguments Z.mul : simpl never.
Local Arguments Z.add : simpl never.

(** ** Placement (C14) *)

Section Geometry.
Variable g : geom.
Hypothesis Hg : wf_geom g.

Lemma geom_split : exists a b, 0 < a /\ 0 < b /\ g_w g = 4 * a /\ g_h g = 4 * b /\
  g_w g / 4 = a /\ g_h g / 4 = b /\ 16 * (a * b) < 2 ^ 31.
Proof.
  destruct Hg as (H1 & H2 & H3 & H4 & H5).
  pose proof (Z.div_mod (g_w g) 4). pose proof (Z.div_mod (g_h g) 4).
  exists (g_w g / 4), (g_h g / 4). repeat split; try lia; nia.
Qed.

Definition npix_sector : Z := g_w g * g_h g / 4.

Lemma npix_sector_4 : 4 * npix_sector = g_w g * g_h g.
Proof.
  destruct geom_split as (a & b & Ha & Hb & Ew & Eh & _ & _ & _).
  unfold npix_sector. rewrite Ew, Eh.
  replace (4 * a * (4 * b)) with (4 * a * b * 4) by ring. rewrite Z.div_mul by lia. ring.
Qed.

Lemma sector_size_eq v : v = 4 \/ v = 5 -> sector_size g v = npix_sector.
Proof.
  intros Hv. destruct geom_split as (a & b & Ha & Hb & Ew & Eh & Ew4 & Eh4 & Hlt).
  unfold sector_size, sector_dims, npix_sector.
  assert (E : g_w g * g_h g / 4 = 4 * a * b).
  { rewrite Ew, Eh. replace (4 * a * (4 * b)) with (4 * a * b * 4) by ring.
    now rewrite Z.div_mul by lia. }
  rewrite E. destruct Hv as [-> | ->]; cbn [Z.eqb Pos.eqb fst snd].
  - rewrite Ew4, Eh. rewrite u32_id; [ring|split; nia].
  - rewrite Eh4, Ew. rewrite u32_id; [ring|split; nia].
Qed.

(** The address written for pixel [k] of sector [sec]; [pixel_source] is its
    inverse. *)
Lemma sector_address_ok v sec k :
  v = 4 \/ v = 5 -> 0 <= sec < 4 -> 0 <= k < npix_sector ->
  0 <= sector_address g v sec k < g_w g * g_h g /\
  pixel_source g v (sector_address g v sec k) = (sec, k).
Proof.
  intros Hv Hs Hk. destruct geom_split as (a & b & Ha & Hb & Ew & Eh & Ew4 & Eh4 & Hlt).
  assert (En : npix_sector = 4 * a * b).
  { pose proof npix_sector_4. nia. }
  rewrite En in Hk.
  unfold sector_address, pixel_source, sector_dims.
  destruct Hv as [-> | ->]; cbn [Z.eqb Pos.eqb fst snd]; rewrite ?Ew4, ?Eh4.
  - set (q := k / a). set (m := k mod a).
    pose proof (Z.div_mod k a ltac:(lia)) as Ek. fold q m in Ek.
    pose proof (Z.mod_pos_bound k a ltac:(lia)) as Hm. fold m in Hm.
    assert (Hq : 0 <= q < 4 * b) by (unfold q; split;
      [apply Z.div_pos; lia | apply Z.div_lt_upper_bound; nia]).
    rewrite (u32_id (sec * a)) by (split; nia).
    rewrite (u32_id (g_w g * q)) by (rewrite Ew; split; nia).
    rewrite (u32_id (g_w g * q + sec * a)) by (rewrite Ew; split; nia).
    assert (Hr : 0 <= sec * a + m < 4 * a) by nia.
    replace (g_w g * q + sec * a + m) with (q * (4 * a) + (sec * a + m)) by (rewrite Ew; ring).
    split; [rewrite Ew, Eh; nia|].
    rewrite Ew.
    destruct (div_mod_unique_row (4 * a) (sec * a + m) q Hr) as [-> ->].
    destruct (div_mod_unique_row a m sec Hm) as [-> ->].
    f_equal. lia.
  - rewrite (u32_id (sec * b)) by (split; nia).
    rewrite (u32_id (sec * b * g_w g)) by (rewrite Ew; split; nia).
    split; [rewrite Ew, Eh; nia|].
    replace (sec * b * g_w g + k) with (sec * (g_w g * b) + k) by ring.
    assert (Hr : 0 <= k < g_w g * b) by (rewrite Ew; nia).
    destruct (div_mod_unique_row (g_w g * b) k sec Hr) as [-> ->]. reflexivity.
Qed.

Lemma pixel_source_range v i :
  v = 4 \/ v = 5 -> 0 <= i < g_w g * g_h g ->
  0 <= fst (pixel_source g v i) < 4 /\ 0 <= snd (pixel_source g v i) < npix_sector /\
  sector_address g v (fst (pixel_source g v i)) (snd (pixel_source g v i)) = i.
Proof.
  intros Hv Hi. destruct geom_split as (a & b & Ha & Hb & Ew & Eh & Ew4 & Eh4 & Hlt).
  assert (En : npix_sector = 4 * a * b) by (pose proof npix_sector_4; nia).
  rewrite En. unfold pixel_source, sector_address, sector_dims.
  destruct Hv as [-> | ->]; cbn [Z.eqb Pos.eqb fst snd]; rewrite ?Ew4, ?Eh4.
  - set (y := i / g_w g). set (x := i mod g_w g).
    pose proof (Z.div_mod i (g_w g) ltac:(lia)) as Ei. fold x y in Ei.
    pose proof (Z.mod_pos_bound i (g_w g) ltac:(lia)) as Hx. fold x in Hx.
    assert (Hy : 0 <= y < 4 * b) by (unfold y; split;
      [apply Z.div_pos; lia | apply Z.div_lt_upper_bound; lia]).
    set (q := x / a). set (m := x mod a).
    pose proof (Z.div_mod x a ltac:(lia)) as Ex. fold q m in Ex.
    pose proof (Z.mod_pos_bound x a ltac:(lia)) as Hm. fold m in Hm.
    assert (Hq : 0 <= q < 4) by (unfold q; split;
      [apply Z.div_pos; lia | apply Z.div_lt_upper_bound; lia]).
    split; [lia|]. split; [nia|].
    destruct (div_mod_unique_row a m y Hm) as [-> ->].
    rewrite (u32_id (q * a)) by (split; nia).
    rewrite (u32_id (g_w g * y)) by (rewrite Ew; split; nia).
    rewrite (u32_id (g_w g * y + q * a)) by (rewrite Ew; split; nia).
    lia.
  - assert (Hp : 0 < g_w g * b) by (rewrite Ew; nia).
    set (q := i / (g_w g * b)). set (m := i mod (g_w g * b)).
    pose proof (Z.div_mod i (g_w g * b) ltac:(lia)) as Ei. fold q m in Ei.
    pose proof (Z.mod_pos_bound i (g_w g * b) ltac:(lia)) as Hm. fold m in Hm.
    assert (Hq : 0 <= q < 4) by (unfold q; split;
      [apply Z.div_pos; lia | apply Z.div_lt_upper_bound; rewrite ?Eh in *; nia]).
    split; [lia|]. split; [rewrite Ew in Hm; nia|].
    rewrite (u32_id (q * b)) by (split; nia).
    rewrite (u32_id (q * b * g_w g)) by (rewrite Ew; split; nia).
    rewrite Ei. ring.
Qed.

(** Placing a sector changes exactly its pixels. *)
Lemma place_sector_ok v sec px fr :
  v = 4 \/ v = 5 -> 0 <= sec < 4 -> Zlen px = npix_sector -> Zlen fr = g_w g * g_h g ->
  exists fr', place_sector g v sec px fr = Ok fr' /\ Zlen fr' = g_w g * g_h g /\
    forall i, 0 <= i < g_w g * g_h g ->
      zat fr' i = if fst (pixel_source g v i) =? sec
                  then zat px (snd (pixel_source g v i)) else zat fr i.
Proof.
  intros Hv Hs Hpx Hfr. unfold place_sector.
  destruct (for_loop_inv
    (fun k f => Zlen f = g_w g * g_h g /\
       forall i, 0 <= i < g_w g * g_h g ->
         zat f i = if (fst (pixel_source g v i) =? sec) && (snd (pixel_source g v i) <? k)
                   then zat px (snd (pixel_source g v i)) else zat fr i)
    (Zlen px)
    (fun k fr => let* p := rd px k in wr fr (sector_address g v sec k) p) fr)
    as (fr' & E & L & H).
  - apply Zlen_nonneg.
  - split; auto. intros i Hi.
    destruct (pixel_source_range v i Hv Hi) as (_ & Hk & _).
    replace (snd (pixel_source g v i) <? 0) with false by (symmetry; apply Z.ltb_ge; lia).
    now rewrite andb_false_r.
  - intros k f Hk [L H]. rewrite rd_zat by lia. cbn [bind].
    destruct (sector_address_ok v sec k Hv Hs ltac:(lia)) as [Ha Hsrc].
    rewrite wr_ok by lia. eexists; split; [reflexivity|].
    split; [now rewrite Zlen_upd|].
    intros i Hi. rewrite zat_upd by lia.
    destruct (Z.eqb_spec i (sector_address g v sec k)) as [->|Hne].
    + rewrite Hsrc. cbn [fst snd]. rewrite Z.eqb_refl.
      replace (k <? k + 1) with true by (symmetry; apply Z.ltb_lt; lia). reflexivity.
    + rewrite H by auto.
      destruct (pixel_source_range v i Hv Hi) as (_ & _ & Hinv).
      destruct (Z.eqb_spec (fst (pixel_source g v i)) sec) as [Hes|]; cbn [andb]; auto.
      destruct (Z.ltb_spec (snd (pixel_source g v i)) k);
        destruct (Z.ltb_spec (snd (pixel_source g v i)) (k + 1)); try lia; auto.
      exfalso. apply Hne. rewrite <- Hinv, Hes. f_equal. lia.
  - exists fr'. split; auto. split; auto. intros i Hi. rewrite H by auto.
    destruct (pixel_source_range v i Hv Hi) as (_ & Hk & _).
    replace (snd (pixel_source g v i) <? Zlen px) with true by (symmetry; apply Z.ltb_lt; lia).
    now rewrite andb_true_r.
Qed.
End Geometry.

(** ** Assembling frames *)

Lemma assembled_length g v rs : wf_geom g -> Zlen (assembled g v rs) = g_w g * g_h g.
Proof.
  intros (H1 & H2 & _). unfold assembled, Zlen. rewrite map_length.
  change (Z.of_nat (List.length (zseq (g_w g * g_h g)))) with (Zlen (zseq (g_w g * g_h g))).
  apply Zlen_zseq. nia.
Qed.

Lemma assembled_nil g v : wf_geom g ->
  assembled g v [] = repeat 0 (Z.to_nat (g_w g * g_h g)).
Proof.
  intros Hg. apply list_eq_zat.
  - rewrite assembled_length by auto. rewrite Zlen_repeat.
    destruct Hg as (H1 & H2 & _). rewrite Z2Nat.id; nia.
  - intros i Hi. rewrite assembled_length in Hi by auto.
    unfold assembled. rewrite zat_map_zseq by lia. cbn [find].
    now rewrite zat_repeat0.
Qed.

Lemma find_app {A} (f : A -> bool) l l' :
  find f (l ++ l') = match find f l with Some x => Some x | None => find f l' end.
Proof. induction l as [|a l IH]; simpl; auto. destruct (f a); auto. Qed.

Lemma find_none_sector sec (rs : list (Z * srec)) :
  ~ In sec (map fst rs) -> find (fun e => fst e =? sec) rs = None.
Proof.
  induction rs as [|[s r] rs IH]; simpl; auto. intros H.
  destruct (Z.eqb_spec s sec); [exfalso; auto|auto].
Qed.

(** Placing one more sector. *)
Lemma place_assembled g v rs sec r :
  wf_geom g -> v = 4 \/ v = 5 -> 0 <= sec < 4 ->
  4 * Zlen (s_px r) = g_w g * g_h g -> ~ In sec (map fst rs) ->
  place_sector g v sec (s_px r) (assembled g v rs) = Ok (assembled g v (rs ++ [(sec, r)])).
Proof.
  intros Hg Hv Hs Hpx Hnin.
  destruct (place_sector_ok g Hg v sec (s_px r) (assembled g v rs)) as (fr & E & L & H); auto.
  { pose proof (npix_sector_4 g Hg). lia. }
  { now apply assembled_length. }
  rewrite E. f_equal. apply list_eq_zat.
  - now rewrite assembled_length.
  - intros i Hi. rewrite L in Hi. rewrite H by auto.
    unfold assembled. rewrite !zat_map_zseq by auto. rewrite find_app.
    destruct (Z.eqb_spec (fst (pixel_source g v i)) sec) as [->|Hne].
    + rewrite find_none_sector by auto. cbn [find fst]. now rewrite Z.eqb_refl.
    + destruct (find _ rs) as [e|]; auto. cbn [find fst].
      destruct (Z.eqb_spec sec (fst (pixel_source g v i))); [congruence|auto].
Qed.

Lemma find_sector_perm sec (rs rs' : list (Z * srec)) :
  Permutation rs rs' -> NoDup (map fst rs) ->
  find (fun e => fst e =? sec) rs = find (fun e => fst e =? sec) rs'.
Proof.
  induction 1 as [|e l l' HP IH|a b l|l1 l2 l3 H12 IH12 H23 IH23]; intros HN; cbn [find]; auto.
  - inversion HN; subst. rewrite IH by auto. reflexivity.
  - destruct (Z.eqb_spec (fst b) sec); destruct (Z.eqb_spec (fst a) sec); auto.
    inversion HN as [|? ? Hn ?]; subst. exfalso. apply Hn. simpl. left. congruence.
  - rewrite IH12 by auto. apply IH23.
    eapply Permutation_NoDup; [apply Permutation_map; exact H12|auto].
Qed.

Lemma assembled_perm g v rs rs' :
  Permutation rs rs' -> NoDup (map fst rs) -> assembled g v rs = assembled g v rs'.
Proof.
  intros HP HN. unfold assembled. apply map_ext. intros i.
  now rewrite (find_sector_perm _ rs rs').
Qed.

(** ** Reading one record *)

Lemma words_app_more n k l rest :
  (n * k <= List.length l)%nat -> words n k (l ++ rest) = words n k l.
Proof.
  revert l; induction n as [|n IH]; intros l H; cbn [words]; auto.
  simpl in H.
  rewrite firstn_app, skipn_app.
  replace (k - List.length l)%nat with 0%nat by lia.
  rewrite firstn_O, app_nil_r. f_equal.
  rewrite skipn_O. apply IH. rewrite skipn_length. lia.
Qed.

Lemma s_pos_u32 g r : wf_srec g r -> is_u32 (s_pos r) /\ is_u32 (s_y r * s_sw r).
Proof.
  intros (_ & _ & [? H1] & _ & [? H2] & [? H3] & _). unfold s_pos, is_u32.
  change (2 ^ 16) with 65536 in *. change (2 ^ 32) with 4294967296.
  assert (s_y r * s_sw r <= 65535 * 65535) by (apply Z.mul_le_mono_nonneg; lia).
  split; split; try lia; nia.
Qed.

Lemma sector_header_ok g r rest :
  wf_srec g r ->
  sector_header (encode_srec r ++ rest) =
  Ok (mkShdr (s_scan r) (s_frame r) (s_sw r, s_sh r) (s_pos r),
      flat_map (le_bytes 2) (s_px r) ++ rest).
Proof.
  intros Hwf. destruct (s_pos_u32 g r Hwf) as [Hp Hm].
  destruct Hwf as (H1 & H2 & H3 & H4 & H5 & H6 & _ & _).
  unfold encode_srec, sector_header. rewrite <- !app_assoc.
  set (A := flat_map (le_bytes 4) [s_scan r; s_frame r]).
  set (B := flat_map (le_bytes 2) [s_sw r; s_sh r; s_x r; s_y r]).
  set (C := flat_map (le_bytes 2) (s_px r) ++ rest).
  assert (LA : List.length A = 8%nat) by reflexivity.
  assert (LB : List.length B = 8%nat) by reflexivity.
  replace (Zlen (A ++ B ++ C) <? 16) with false.
  2:{ symmetry. apply Z.ltb_ge. unfold Zlen. rewrite !app_length. lia. }
  assert (EA : words 2 4 (A ++ B ++ C) = [s_scan r; s_frame r]).
  { apply (words_flat 4 [s_scan r; s_frame r]). apply forall_u32_256. repeat constructor; apply H1 || apply H2. }
  rewrite EA.
  assert (ES : skipn 8 (A ++ B ++ C) = B ++ C).
  { rewrite skipn_app, LA, Nat.sub_diag, skipn_O. rewrite <- LA at 1. now rewrite skipn_all. }
  rewrite ES.
  assert (EB : words 4 2 (B ++ C) = [s_sw r; s_sh r; s_x r; s_y r]).
  { apply (words_flat 2 [s_sw r; s_sh r; s_x r; s_y r]). apply forall_u16_256.
    repeat constructor; apply H3 || apply H4 || apply H5 || apply H6. }
  rewrite EB.
  replace (skipn 16 (A ++ B ++ C)) with C.
  2:{ rewrite app_assoc, skipn_app, app_length, LA, LB.
      replace (16 - (8 + 8))%nat with 0%nat by lia. rewrite skipn_O.
      rewrite skipn_all2; [reflexivity|]. rewrite app_length; lia. }
  rewrite !rd_zat by (unfold Zlen; simpl; lia). cbn [bind].
  change (zat [s_scan r; s_frame r] 0) with (s_scan r).
  change (zat [s_scan r; s_frame r] 1) with (s_frame r).
  change (zat [s_sw r; s_sh r; s_x r; s_y r] 0) with (s_sw r).
  change (zat [s_sw r; s_sh r; s_x r; s_y r] 1) with (s_sh r).
  change (zat [s_sw r; s_sh r; s_x r; s_y r] 2) with (s_x r).
  change (zat [s_sw r; s_sh r; s_x r; s_y r] 3) with (s_y r).
  rewrite (u32_id (s_y r * s_sw r)) by auto.
  change (s_y r * s_sw r + s_x r) with (s_pos r). now rewrite u32_id.
Qed.

Lemma read_sector_data_ok g v sec r rs rest :
  wf_geom g -> v = 4 \/ v = 5 -> 0 <= sec < 4 -> wf_srec g r -> ~ In sec (map fst rs) ->
  read_sector_data g v sec (flat_map (le_bytes 2) (s_px r) ++ rest) (assembled g v rs) =
  Ok (assembled g v (rs ++ [(sec, r)]), rest).
Proof.
  intros Hg Hv Hs Hwf Hnin. unfold read_sector_data.
  destruct Hwf as (_ & _ & _ & _ & _ & _ & Hlen & Hu).
  rewrite sector_size_eq by auto.
  assert (En : npix_sector g = Zlen (s_px r)) by (pose proof (npix_sector_4 g Hg); lia).
  rewrite En.
  assert (EL : List.length (flat_map (le_bytes 2) (s_px r)) = Z.to_nat (Zlen (s_px r) * 2)).
  { rewrite flat_le_length. unfold Zlen. lia. }
  replace (_ <=? _) with true.
  2:{ symmetry; apply Z.leb_le. unfold Zlen at 2. rewrite app_length, EL. lia. }
  replace (Z.to_nat (Zlen (s_px r))) with (List.length (s_px r)) by (unfold Zlen; lia).
  rewrite words_flat by (now apply forall_u16_256).
  rewrite place_assembled by auto. cbn [bind].
  do 2 f_equal. rewrite <- EL, skipn_app, Nat.sub_diag, skipn_O, skipn_all. reflexivity.
Qed.

(** ** The map *)

Section MapFacts.
Context {A : Type}.
Implicit Type m : list (Z * A).

Definition ordered m := StronglySorted Z.lt (map fst m).

Lemma map_get_in k m a : ordered m -> (map_get k m = Some a <-> In (k, a) m).
Proof.
  unfold ordered. induction m as [|[k' a'] m IH]; simpl; intros Ho.
  - split; [discriminate|tauto].
  - apply StronglySorted_inv in Ho as [Ho Hf].
    destruct (Z.eqb_spec k' k) as [->|Hne].
    + split; [intros [= ->]; auto|]. intros [[= ->]|Hin]; auto.
      exfalso. rewrite Forall_forall in Hf. specialize (Hf k (in_map fst _ _ Hin)). lia.
    + rewrite IH by auto. split; [auto|]. intros [[= ? ?]|?]; auto. congruence.
Qed.

Lemma map_get_none k m : map_get k m = None <-> ~ In k (map fst m).
Proof.
  induction m as [|[k' a'] m IH]; simpl; [tauto|].
  destruct (Z.eqb_spec k' k); [split; [discriminate|tauto]|rewrite IH; tauto].
Qed.

Lemma map_put_keys k a m x : In x (map fst (map_put k a m)) <-> x = k \/ In x (map fst m).
Proof.
  induction m as [|[k' a'] m IH]; simpl; [intuition|].
  destruct (Z.ltb_spec k k'); simpl; [intuition|].
  destruct (Z.eqb_spec k k'); simpl; [subst; intuition|]. rewrite IH. intuition.
Qed.

Lemma map_put_ordered k a m : ordered m -> ordered (map_put k a m).
Proof.
  unfold ordered. induction m as [|[k' a'] m IH]; simpl; intros Ho.
  - repeat constructor.
  - apply StronglySorted_inv in Ho as [Ho Hf].
    destruct (Z.ltb_spec k k').
    + simpl. constructor; [constructor; auto|]. constructor; auto.
      eapply Forall_impl; [|exact Hf]. simpl; intros; lia.
    + destruct (Z.eqb_spec k k') as [->|Hne]; simpl.
      * constructor; auto.
      * constructor; auto. apply Forall_forall. intros x Hx.
        apply map_put_keys in Hx as [->|Hx]; [lia|].
        rewrite Forall_forall in Hf; auto.
Qed.

Lemma map_get_put k a m k' :
  ordered m -> map_get k' (map_put k a m) = if k =? k' then Some a else map_get k' m.
Proof.
  unfold ordered. induction m as [|[x b] m IH]; simpl; intros Ho; auto.
  apply StronglySorted_inv in Ho as [Ho Hf].
  destruct (Z.ltb_spec k x); simpl; auto.
  destruct (Z.eqb_spec k x) as [->|Hne]; simpl.
  - destruct (Z.eqb_spec x k'); auto.
  - rewrite IH by auto. destruct (Z.eqb_spec x k'), (Z.eqb_spec k k'); auto; congruence.
Qed.

Lemma map_erase_keys k m x :
  ordered m -> (In x (map fst (map_erase k m)) <-> x <> k /\ In x (map fst m)).
Proof.
  unfold ordered. induction m as [|[k' a'] m IH]; simpl; intros Ho; [tauto|].
  apply StronglySorted_inv in Ho as [Ho Hf]. rewrite Forall_forall in Hf.
  destruct (Z.eqb_spec k' k) as [->|Hne]; simpl.
  - split; [intros Hx; specialize (Hf x Hx); lia || (split; [lia|auto])|].
    intros [? [?|?]]; auto; congruence.
  - rewrite IH by auto. intuition.
Qed.

Lemma map_erase_ordered k m : ordered m -> ordered (map_erase k m).
Proof.
  unfold ordered. induction m as [|[k' a'] m IH]; simpl; intros Ho; auto.
  apply StronglySorted_inv in Ho as [Ho Hf].
  destruct (Z.eqb_spec k' k); auto. simpl. constructor; auto.
  rewrite Forall_forall in *. intros x Hx. apply Hf.
  apply map_erase_keys in Hx; tauto.
Qed.

Lemma map_get_erase k m k' :
  ordered m -> map_get k' (map_erase k m) = if k =? k' then None else map_get k' m.
Proof.
  unfold ordered. induction m as [|[x b] m IH]; simpl; intros Ho.
  - now destruct (k =? k').
  - apply StronglySorted_inv in Ho as [Ho Hf].
    destruct (Z.eqb_spec x k) as [->|Hne]; simpl.
    + destruct (Z.eqb_spec k k') as [->|]; auto.
      apply map_get_none. intros Hin. rewrite Forall_forall in Hf. specialize (Hf _ Hin). lia.
    + rewrite IH by auto. destruct (Z.eqb_spec x k'), (Z.eqb_spec k k'); auto; congruence.
Qed.
End MapFacts.

(** ** The cache after consuming [done] *)

Definition nrec (p : Z) (l : list (Z * srec)) : Z := Zlen (records_at p l).

Definition cache_ok (g : geom) (v : Z) (done : list (Z * srec)) (cache : list (Z * frame)) : Prop :=
  ordered cache /\
  forall p, map_get p cache =
    if (0 <? nrec p done) && (nrec p done <? 4)
    then Some (mkFrame (frame_block g v p (records_at p done)) (nrec p done))
    else None.

Definition rec_key (e : Z * srec) : Z * Z := (s_pos (snd e), fst e).
Definition recs_ok (g : geom) (l : list (Z * srec)) : Prop :=
  (forall e, In e l -> wf_srec g (snd e) /\ 0 <= fst e < 4) /\ NoDup (map rec_key l).

Lemma recs_ok_perm g l l' : Permutation l l' -> recs_ok g l -> recs_ok g l'.
Proof.
  intros HP [H1 H2]. split.
  - intros e He. apply H1. eapply Permutation_in; [symmetry|]; eauto.
  - eapply Permutation_NoDup; [apply Permutation_map|]; eauto.
Qed.

Lemma recs_ok_app_l g l l' : recs_ok g (l ++ l') -> recs_ok g l.
Proof.
  intros [H1 H2]. split.
  - intros e He. apply H1. apply in_or_app; auto.
  - rewrite map_app in H2. clear H1. induction (map rec_key l) as [|a t IH]; [constructor|].
    simpl in H2. inversion H2; subst. constructor; auto.
    intros Hin; apply H1. apply in_or_app; auto.
Qed.

Lemma records_at_app p l l' : records_at p (l ++ l') = records_at p l ++ records_at p l'.
Proof. apply filter_app. Qed.

Lemma in_records_at p e l : In e (records_at p l) <-> In e l /\ s_pos (snd e) = p.
Proof.
  unfold records_at. rewrite filter_In. now rewrite Z.eqb_eq.
Qed.

Lemma sectors_nodup p l : NoDup (map rec_key l) -> NoDup (map fst (records_at p l)).
Proof.
  induction l as [|e l IH]; simpl; intros H; [constructor|].
  inversion H as [|? ? Hn Hr]; subst.
  destruct (Z.eqb_spec (s_pos (snd e)) p) as [E|]; auto.
  simpl. constructor; auto. intros Hin. apply in_map_iff in Hin as (e' & Hf & He').
  apply in_records_at in He' as [He' Hp]. apply Hn. apply in_map_iff.
  exists e'. split; auto. unfold rec_key. congruence.
Qed.

Lemma nrec_le_4 g p l : recs_ok g l -> 0 <= nrec p l <= 4.
Proof.
  intros [H1 H2]. pose proof (sectors_nodup p l H2) as HN.
  unfold nrec, Zlen. split; [apply Nat2Z.is_nonneg|].
  rewrite <- (map_length (@fst Z srec) (records_at p l)).
  assert ((List.length (map fst (records_at p l)) <= List.length [0; 1; 2; 3]%Z)%nat).
  { apply NoDup_incl_length; auto. intros s Hs.
    apply in_map_iff in Hs as (e & <- & He). apply in_records_at in He as [He _].
    destruct (H1 e He) as [_ Hr]. simpl. lia. }
  simpl in H. lia.
Qed.

Lemma nrec_snoc p l e :
  nrec p (l ++ [e]) = nrec p l + (if s_pos (snd e) =? p then 1 else 0).
Proof.
  unfold nrec, Zlen. rewrite records_at_app, app_length. cbn [records_at filter].
  destruct (_ =? _); simpl; lia.
Qed.

Lemma nrec_app p l l' : nrec p (l ++ l') = nrec p l + nrec p l'.
Proof. unfold nrec, Zlen. rewrite records_at_app, app_length. lia. Qed.

Lemma nrec_nonneg p l : 0 <= nrec p l.
Proof. apply Zlen_nonneg. Qed.

Lemma frame_block_snoc g v p rs e :
  rs <> [] ->
  frame_block g v p (rs ++ [e]) =
  mkBlock (hdr (frame_block g v p rs)) (Some (assembled g v (rs ++ [e]))).
Proof. destruct rs as [|a rs]; [congruence|]. reflexivity. Qed.

Lemma absorb_ok g v done cache sec r rest :
  wf_geom g -> v = 4 \/ v = 5 -> cache_ok g v done cache -> recs_ok g (done ++ [(sec, r)]) ->
  exists cache',
    cache_ok g v (done ++ [(sec, r)]) cache' /\
    absorb g v sec (encode_srec r ++ rest) cache =
    Ok (if nrec (s_pos r) (done ++ [(sec, r)]) =? 4
        then Some (frame_block g v (s_pos r) (records_at (s_pos r) (done ++ [(sec, r)])))
        else None, cache', rest).
Proof.
  intros Hg Hv [Ho Hc] Hok.
  assert (Hwf : wf_srec g r /\ 0 <= sec < 4).
  { apply (proj1 Hok (sec, r)). apply in_or_app; simpl; auto. }
  destruct Hwf as [Hwf Hsec].
  set (p := s_pos r). set (rs := records_at p done).
  assert (Hnin : ~ In sec (map fst rs)).
  { intros Hin. apply in_map_iff in Hin as ([s' r'] & Hf & He). simpl in Hf; subst s'.
    apply in_records_at in He as [He Hp]. simpl in Hp.
    destruct Hok as [_ HN]. rewrite map_app in HN. simpl in HN.
    apply NoDup_remove_2 in HN. apply HN. rewrite app_nil_r.
    apply in_map_iff. exists (sec, r'). split; auto. unfold rec_key; simpl. fold p; congruence. }
  assert (Hrs' : records_at p (done ++ [(sec, r)]) = rs ++ [(sec, r)]).
  { rewrite records_at_app. unfold rs. f_equal. cbn [records_at filter snd].
    unfold p. now rewrite Z.eqb_refl. }
  pose proof (nrec_le_4 g p _ Hok) as H4.
  rewrite nrec_snoc in *. cbn [snd] in *. fold p in H4 |- *. rewrite Z.eqb_refl in *.
  unfold absorb. rewrite (sector_header_ok g) by auto. cbn [bind sh_pos]. fold p.
  assert (Hfr : match map_get p cache with
     | Some f => if version (hdr (f_block f)) =? 0 then new_frame g v
          (mkShdr (s_scan r) (s_frame r) (s_sw r, s_sh r) p) else f
     | None => new_frame g v (mkShdr (s_scan r) (s_frame r) (s_sw r, s_sh r) p)
     end = mkFrame (mkBlock (hdr (frame_block g v p (rs ++ [(sec, r)])))
                            (Some (assembled g v rs))) (nrec p done)).
  { rewrite Hc. pose proof (nrec_nonneg p done).
    destruct (Z.ltb_spec 0 (nrec p done)); cbn [andb].
    - replace (nrec p done <? 4) with true by (symmetry; apply Z.ltb_lt; lia).
      cbn [f_block frame_block hdr version].
      replace (v =? 0) with false by (destruct Hv as [-> | ->]; reflexivity).
      fold rs. assert (rs <> []).
      { intros E. unfold nrec in H0. fold rs in H0. rewrite E in H0. unfold Zlen in H0; simpl in H0; lia. }
      destruct rs as [|e0 rs0]; [congruence|]. reflexivity.
    - assert (rs = []).
      { unfold nrec in *. fold rs in H, H0. destruct rs; auto. unfold Zlen in H0; simpl in H0; lia. }
      replace (nrec p done) with 0 by lia.
      unfold new_frame. rewrite H1. cbn [frame_block app hdr snd sh_dims sh_scan sh_pos].
      rewrite assembled_nil by auto. rewrite u32_id; [reflexivity|].
      destruct Hg as (? & ? & _ & _ & ?). split; nia. }
  rewrite Hfr. clear Hfr. cbn [f_block hdr block_data data f_count bind].
  rewrite read_sector_data_ok by auto. cbn [bind].
  exists (if nrec p done + 1 =? 4 then map_erase p cache
          else map_put p (mkFrame (mkBlock (hdr (frame_block g v p (rs ++ [(sec, r)])))
                 (Some (assembled g v (rs ++ [(sec, r)])))) (nrec p done + 1)) cache).
  split.
  - assert (Hoth : forall q, q <> p -> nrec q (done ++ [(sec, r)]) = nrec q done /\
               records_at q (done ++ [(sec, r)]) = records_at q done).
    { intros q Hq. rewrite nrec_snoc, records_at_app. cbn [snd records_at filter].
      fold p. destruct (Z.eqb_spec p q); [congruence|]. rewrite app_nil_r. split; [lia|auto]. }
    split.
    + destruct (_ =? 4); [now apply map_erase_ordered|now apply map_put_ordered].
    + intros q. pose proof (nrec_nonneg p done).
      destruct (Z.eqb_spec (nrec p done + 1) 4) as [E|E].
      * rewrite map_get_erase by auto. destruct (Z.eqb_spec p q) as [<-|Hne].
        -- rewrite nrec_snoc. cbn [snd]. fold p. rewrite Z.eqb_refl.
           replace (nrec p done + 1 <? 4) with false by (symmetry; apply Z.ltb_ge; lia).
           now rewrite andb_false_r.
        -- rewrite Hc. destruct (Hoth q) as [-> ->]; auto.
      * rewrite map_get_put by auto. destruct (Z.eqb_spec p q) as [<-|Hne].
        -- rewrite nrec_snoc. cbn [snd]. fold p. rewrite Z.eqb_refl.
           replace (0 <? nrec p done + 1) with true by (symmetry; apply Z.ltb_lt; lia).
           replace (nrec p done + 1 <? 4) with true by (symmetry; apply Z.ltb_lt; lia).
           cbn [andb]. now rewrite Hrs'.
        -- rewrite Hc. destruct (Hoth q) as [-> ->]; auto.
  - rewrite Hrs'. destruct (_ =? 4); reflexivity.
Qed.

(** ** The read loop *)

(** [out]: the positions whose four sectors are in [done]. *)
Definition comp (done : list (Z * srec)) (out : list Z) : Prop :=
  NoDup out /\ forall p, In p out <-> nrec p done = 4.

Lemma comp_snoc g done out e :
  recs_ok g (done ++ [e]) -> comp done out ->
  comp (done ++ [e]) (if nrec (s_pos (snd e)) (done ++ [e]) =? 4
                      then out ++ [s_pos (snd e)] else out).
Proof.
  intros Hok [HN Hin]. set (p := s_pos (snd e)).
  pose proof (nrec_le_4 g p _ Hok) as H4. rewrite nrec_snoc in *. fold p in H4 |- *.
  rewrite Z.eqb_refl in *.
  destruct (Z.eqb_spec (nrec p done + 1) 4) as [E|E].
  - split.
    + apply NoDup_Add with (a := p) (l := out).
      * apply Add_app with (l1 := out) (l2 := []) || (rewrite <- (app_nil_r out) at 1; apply Add_app).
      * split; auto. intros Hp. apply Hin in Hp. lia.
    + intros q. rewrite in_app_iff, nrec_snoc. fold p. simpl.
      destruct (Z.eqb_spec p q) as [<-|Hne].
      * split; [lia|auto].
      * rewrite Hin, Z.add_0_r. split; [intros [?|[?|[]]]; auto; congruence|auto].
  - split; auto. intros q. rewrite nrec_snoc. fold p.
    destruct (Z.eqb_spec p q) as [<-|Hne]; rewrite Hin; lia.
Qed.

Definition mu (s : ssr) : nat :=
  (2 * (List.length (ss_streams s) + List.length (flat_map snd (ss_streams s))) +
   if Nat.leb (List.length (ss_streams s)) (ss_it s) then 1 else 0)%nat.

Lemma mu_fuel s : (mu s < sector_fuel s)%nat.
Proof. unfold mu, sector_fuel. destruct (Nat.leb _ _); lia. Qed.

Lemma encode_srec_length r : (16 <= List.length (encode_srec r))%nat.
Proof. unfold encode_srec. rewrite !app_length, !flat_le_length. simpl. lia. Qed.

Lemma all_records_app a b : all_records (a ++ b) = all_records a ++ all_records b.
Proof. apply flat_map_app. Qed.
Lemma all_records_cons f t : all_records (f :: t) = map (pair (fst f)) (snd f) ++ all_records t.
Proof. reflexivity. Qed.

Lemma upd_mid {A} (l1 l2 : list A) x y : upd (l1 ++ x :: l2) (List.length l1) y = l1 ++ y :: l2.
Proof. induction l1; simpl; auto. now rewrite IHl1. Qed.
Lemma remove_mid {A} (l1 l2 : list A) x : remove_nth (List.length l1) (l1 ++ x :: l2) = l1 ++ l2.
Proof.
  unfold remove_nth. rewrite firstn_app, Nat.sub_diag, firstn_O, app_nil_r, firstn_all.
  f_equal. replace (S (List.length l1)) with (List.length l1 + 1)%nat by lia.
  rewrite skipn_app. replace (List.length l1 + 1 - List.length l1)%nat with 1%nat by lia.
  rewrite skipn_all2 by lia. reflexivity.
Qed.

Lemma map_app_inv {A B} (f : A -> B) l x l1 l2 :
  map f l = l1 ++ x :: l2 ->
  exists a1 a a2, l = a1 ++ a :: a2 /\ map f a1 = l1 /\ f a = x /\ map f a2 = l2.
Proof.
  revert l1; induction l as [|a l IH]; intros l1 H.
  - destruct l1; discriminate.
  - destruct l1 as [|b l1]; simpl in H; inversion H; subst.
    + exists [], a, l. auto.
    + destruct (IH l1) as (a1 & a' & a2 & -> & <- & <- & <-); auto.
      exists (a :: a1), a', a2. auto.
Qed.

Section Loop.
Variables (g : geom) (v : Z).
Hypothesis Hg : wf_geom g.
Hypothesis Hv : v = 4 \/ v = 5.

Definition same_files (s s' : ssr) : Prop :=
  ss_files s' = ss_files s /\ ss_version s' = ss_version s.

Lemma read_f_ok fuel : forall s fs done out,
  ss_streams s = map encode_sfile fs -> ss_version s = v ->
  cache_ok g v done (ss_cache s) -> recs_ok g (done ++ all_records fs) -> comp done out ->
  (mu s < fuel)%nat ->
  exists tr s', same_files s s' /\
    ((exists p fs', Permutation (all_records fs) (tr ++ all_records fs') /\ tr <> [] /\
        ss_streams s' = map encode_sfile fs' /\
        cache_ok g v (done ++ tr) (ss_cache s') /\ comp (done ++ tr) (out ++ [p]) /\
        sector_read_f g fuel s =
          (Ok (frame_block g v p (records_at p (done ++ tr))), s')) \/
     (exists c, Permutation (all_records fs) tr /\ comp (done ++ tr) out /\
        cache_ok g v (done ++ tr) c /\ ss_streams s' = [] /\ ss_cache s' = tl c /\
        sector_read_f g fuel s =
          (Ok (match c with (_, fr) :: _ => f_block fr | [] => empty_block end), s'))).
Proof.
  induction fuel as [|fuel IH]; intros s fs done out Hst Hver Hc Hok Hcomp Hmu; [lia|].
  cbn [sector_read_f].
  destruct (ss_streams s) as [|s0 ss] eqn:Estr.
  - (* no streams left *)
    destruct fs as [|f fs]; [|discriminate].
    destruct (ss_cache s) as [|[k fr] c] eqn:Ec.
    + exists [], s. split; [split; reflexivity|]. right. exists [].
      rewrite app_nil_r. simpl. rewrite Ec, Estr.
      repeat (split; [auto|]). reflexivity.
    + exists [], (mkSSR (ss_files s) [] (ss_it s) c (ss_version s)).
      split; [split; reflexivity|]. right. exists ((k, fr) :: c).
      rewrite app_nil_r. simpl. repeat (split; [auto|]). reflexivity.
  - assert (Hne : ss_streams s <> []) by (rewrite Estr; discriminate).
    rewrite <- Estr in Hst |- *. clear Estr s0 ss.
    destruct (nth_error (ss_streams s) (ss_it s)) as [[sector rem]|] eqn:En.
    + apply nth_error_split in En as (l1 & l2 & El & Hit).
      rewrite Hst in El.
      apply map_app_inv in El as (f1 & [sec recs] & f2 & -> & E1 & E0 & E2).
      unfold encode_sfile in E0. cbn [fst snd] in E0. injection E0 as <- <-.
      assert (Hlen : List.length l1 = List.length f1) by (rewrite <- E1; apply map_length).
      destruct recs as [|r recs]; cbn [flat_map].
      * (* end of this file *)
        specialize (IH (mkSSR (ss_files s) (remove_nth (ss_it s) (ss_streams s)) (ss_it s)
                              (ss_cache s) (ss_version s)) (f1 ++ f2) done out).
        assert (Er : remove_nth (ss_it s) (ss_streams s) = map encode_sfile (f1 ++ f2)).
        { rewrite Hst, map_app, <- Hit. cbn [map]. rewrite Hlen, <- (map_length encode_sfile f1).
          rewrite remove_mid. now rewrite map_app. }
        rewrite Er in *.
        assert (Ea : all_records (f1 ++ (sec, []) :: f2) = all_records (f1 ++ f2)).
        { rewrite !all_records_app, all_records_cons. reflexivity. }
        match type of Hok with recs_ok g (done ++ ?X) => change X with
          (all_records (f1 ++ (sec, []) :: f2)) in * end.
        match type of Ea with ?X = _ => set (X0 := X) in * end. rewrite Ea in Hok |- *.
        destruct IH as (tr & s' & Hsame & IH); auto.
        { unfold mu in *. cbn [ss_streams ss_it]. rewrite Hst in Hmu.
          rewrite !map_length, !app_length in *. rewrite !map_app, !flat_map_app in *.
          cbn [map flat_map encode_sfile snd app List.length] in Hmu.
          rewrite !app_length in *. repeat destruct (Nat.leb _ _); lia. }
        exists tr, s'. auto.
      * (* one record *)
        destruct (encode_srec r ++ flat_map encode_srec recs) as [|b0 bs] eqn:Eb.
        { exfalso. pose proof (encode_srec_length r) as HL.
          apply (f_equal (@List.length Z)) in Eb. rewrite app_length in Eb. simpl in Eb. lia. }
        rewrite <- Eb. clear Eb b0 bs.
        assert (HP : Permutation (all_records (f1 ++ (sec, r :: recs) :: f2))
                       ((sec, r) :: all_records (f1 ++ (sec, recs) :: f2))).
        { rewrite !all_records_app, !all_records_cons. cbn [fst snd map app].
          symmetry. apply Permutation_middle. }
        set (e := (sec, r)).
        set (fs1 := f1 ++ (sec, recs) :: f2) in *.
        assert (Hok' : recs_ok g ((done ++ [e]) ++ all_records fs1)).
        { rewrite <- app_assoc. eapply recs_ok_perm; [|exact Hok].
          apply Permutation_app_head. exact HP. }
        pose proof (recs_ok_app_l _ _ _ Hok') as Hok1.
        destruct (absorb_ok g v done (ss_cache s) sec r (flat_map encode_srec recs) Hg Hv Hc Hok1)
          as (cache' & Hc' & Ha).
        rewrite Hver, Ha. clear Ha.
        pose proof (comp_snoc g done out e Hok1 Hcomp) as Hcomp'.
        assert (Es : upd (ss_streams s) (ss_it s) (sec, flat_map encode_srec recs) =
                     map encode_sfile fs1).
        { rewrite Hst, map_app, <- Hit. cbn [map]. rewrite Hlen, <- (map_length encode_sfile f1).
          rewrite upd_mid. unfold fs1. now rewrite map_app. }
        match goal with |- context [upd ?a ?b ?c] =>
          change (upd a b c) with (upd (ss_streams s) (ss_it s) (sec, flat_map encode_srec recs))
        end.
        rewrite Es. cbn [e snd] in Hcomp'. fold e in Hcomp', Hc' |- *.
        destruct (Z.eqb_spec (nrec (s_pos r) (done ++ [e])) 4) as [E4|E4].
        -- exists [e], (mkSSR (ss_files s) (map encode_sfile fs1) (S (ss_it s)) cache' v).
           split; [split; [reflexivity|symmetry; exact Hver]|]. left.
           exists (s_pos r), fs1. split; [exact HP|]. split; [discriminate|].
           repeat (split; [auto|]). reflexivity.
        -- specialize (IH (mkSSR (ss_files s) (map encode_sfile fs1) (S (ss_it s)) cache' v)
                          fs1 (done ++ [e]) out).
           destruct IH as (tr & s' & [Hs1 Hs2] & IH); auto.
           { unfold mu in *. cbn [ss_streams ss_it]. rewrite Hst in Hmu. unfold fs1.
             pose proof (encode_srec_length r).
             rewrite !map_length, !app_length in *. rewrite !map_app, !flat_map_app in *.
             cbn [map flat_map encode_sfile snd app List.length] in *.
             rewrite !app_length in *. repeat destruct (Nat.leb _ _); lia. }
           exists (e :: tr), s'. split; [split; [exact Hs1|rewrite Hver; exact Hs2]|].
           replace (done ++ e :: tr) with ((done ++ [e]) ++ tr) by (now rewrite <- app_assoc).
           destruct IH as [(p & fs' & H1 & H2 & H3)|(c & H1 & H3)]; [left|right].
           ++ exists p, fs'. split; [|split; [discriminate|exact H3]].
              rewrite HP. simpl. now apply perm_skip.
           ++ exists c. split; [|exact H3]. rewrite HP. now apply perm_skip.
    + (* start again from the first stream *)
      specialize (IH (mkSSR (ss_files s) (ss_streams s) 0 (ss_cache s) (ss_version s))
                     fs done out).
      destruct IH as (tr & s' & Hsame & IH); auto.
      { apply nth_error_None in En. unfold mu in *. cbn [ss_streams ss_it].
        destruct (ss_streams s) as [|a t]; [congruence|].
        replace (Nat.leb (List.length (a :: t)) 0) with false by reflexivity.
        apply Nat.leb_le in En. rewrite En in Hmu. lia. }
      exists tr, s'. auto.
Qed.
End Loop.

(** ** Sequences of reads *)

Lemma firstn_cons_S {A} n (x : A) l : firstn (S n) (x :: l) = x :: firstn n l.
Proof. reflexivity. Qed.

Lemma repeat_snoc {A} (x : A) n : repeat x n ++ [x] = x :: repeat x n.
Proof. induction n; simpl; auto. now rewrite IHn. Qed.

Lemma firstn_pad {A} (x : A) l n m :
  (n <= m)%nat -> firstn n (l ++ repeat x m) = firstn n (l ++ repeat x n).
Proof.
  intros H. rewrite !firstn_app. f_equal.
  assert (H' : forall k j, (k <= j)%nat -> firstn k (repeat x j) = repeat x k).
  { intros k j Hk. replace j with (k + (j - k))%nat by lia.
    rewrite repeat_app, firstn_app, repeat_length, Nat.sub_diag, firstn_O, app_nil_r.
    rewrite <- (repeat_length x k) at 1. apply firstn_all. }
  rewrite !H' by lia. reflexivity.
Qed.

Lemma reads_S g n s :
  fst (sector_reads g (S n) s) = fst (sector_read g s) :: fst (sector_reads g n (snd (sector_read g s))).
Proof.
  cbn [sector_reads]. destruct (sector_read g s) as [r s1]. cbn [fst snd].
  destruct (sector_reads g n s1). reflexivity.
Qed.

Lemma read_flush g s : ss_streams s = [] ->
  fst (sector_read g s) =
    Ok (match ss_cache s with (_, fr) :: _ => f_block fr | [] => empty_block end) /\
  ss_streams (snd (sector_read g s)) = [] /\
  ss_cache (snd (sector_read g s)) = tl (ss_cache s) /\
  same_files s (snd (sector_read g s)).
Proof.
  intros Hs. unfold sector_read, sector_fuel. rewrite Hs. cbn [List.length flat_map Nat.add Nat.mul].
  cbn [sector_read_f]. rewrite Hs. destruct (ss_cache s) as [|[k fr] c] eqn:Ec; cbn [fst snd];
    rewrite ?Hs, ?Ec; repeat split; reflexivity.
Qed.

Lemma reads_flush g n : forall s, ss_streams s = [] ->
  fst (sector_reads g n s) =
  firstn n (map (fun e => Ok (f_block (snd e))) (ss_cache s) ++ repeat (Ok empty_block) n).
Proof.
  induction n as [|n IH]; intros s Hs; [reflexivity|].
  rewrite reads_S. destruct (read_flush g s Hs) as (-> & Hs1 & Hc1 & _).
  rewrite IH by auto. rewrite Hc1.
  destruct (ss_cache s) as [|[k fr] c]; cbn [map app tl].
  - cbn [repeat]. now rewrite firstn_cons_S.
  - rewrite firstn_cons_S. cbn [snd]. f_equal.
    rewrite (firstn_pad _ _ n (S n)) by lia. reflexivity.
Qed.

Lemma comp_mono g a b out p :
  recs_ok g (a ++ b) -> nrec p a = 4 -> comp a out -> In p out /\ records_at p (a ++ b) = records_at p a.
Proof.
  intros Hok H4 [_ Hin]. split; [now apply Hin|].
  pose proof (nrec_le_4 g p _ Hok) as HL. rewrite nrec_app in HL.
  rewrite records_at_app. assert (E : nrec p b = 0) by (pose proof (nrec_nonneg p b); lia).
  unfold nrec in E. destruct (records_at p b); [now rewrite app_nil_r|].
  unfold Zlen in E; simpl in E; lia.
Qed.

Section Reads.
Variables (g : geom) (v : Z).
Hypothesis Hg : wf_geom g.
Hypothesis Hv : v = 4 \/ v = 5.

Lemma reads_ok k : forall s fs done out,
  (List.length (all_records fs) <= k)%nat ->
  ss_streams s = map encode_sfile fs -> ss_version s = v ->
  cache_ok g v done (ss_cache s) -> recs_ok g (done ++ all_records fs) -> comp done out ->
  exists tr pc c, Permutation (all_records fs) tr /\
    comp (done ++ tr) (out ++ pc) /\ cache_ok g v (done ++ tr) c /\
    forall n, fst (sector_reads g n s) =
      firstn n (map (fun p => Ok (frame_block g v p (records_at p (done ++ tr)))) pc ++
                map (fun e => Ok (f_block (snd e))) c ++ repeat (Ok empty_block) n).
Proof.
  induction k as [k IH] using lt_wf_ind. intros s fs done out Hk Hst Hver Hc Hok Hcomp.
  destruct (read_f_ok g v Hg Hv (sector_fuel s) s fs done out Hst Hver Hc Hok Hcomp (mu_fuel s))
    as (tr1 & s1 & [Hf1 Hv1] & [(p & fs' & HP & Hne & Hst1 & Hc1 & Hcomp1 & E)|
                                (c & HP & Hcomp1 & Hc1 & Hst1 & Hcache & E)]).
  - assert (Hok1 : recs_ok g ((done ++ tr1) ++ all_records fs')).
    { rewrite <- app_assoc. eapply recs_ok_perm; [|exact Hok]. now apply Permutation_app_head. }
    assert (Hlt : (List.length (all_records fs') < List.length (all_records fs))%nat).
    { apply Permutation_length in HP. rewrite app_length in HP.
      destruct tr1; [congruence|]. simpl in HP. lia. }
    destruct (IH (List.length (all_records fs')) ltac:(lia) s1 fs' (done ++ tr1) (out ++ [p]))
      as (tr2 & pc & c & HP2 & Hcomp2 & Hc2 & Hreads); auto.
    { congruence. }
    exists (tr1 ++ tr2), (p :: pc), c.
    rewrite <- !app_assoc in *. cbn [app] in Hcomp2.
    split; [rewrite HP; now apply Permutation_app_head|].
    split; [exact Hcomp2|]. split; [exact Hc2|].
    intros n. destruct n as [|n]; [reflexivity|].
    rewrite reads_S. unfold sector_read. rewrite E. cbn [fst snd map app].
    rewrite firstn_cons_S. f_equal.
    + do 2 f_equal. rewrite (app_assoc done).
      destruct (comp_mono g (done ++ tr1) tr2 (out ++ [p]) p) as [_ ->]; auto.
      * rewrite <- app_assoc. eapply recs_ok_perm; [|exact Hok].
        apply Permutation_app_head. rewrite HP. now apply Permutation_app_head.
      * apply Hcomp1. apply in_or_app; simpl; auto.
    + rewrite Hreads. rewrite !app_assoc. symmetry. apply firstn_pad. lia.
  - exists tr1, [], c. rewrite app_nil_r. split; [auto|]. split; [auto|]. split; [auto|].
    intros n. destruct n as [|n]; [reflexivity|].
    rewrite reads_S. unfold sector_read at 1 2. rewrite E. cbn [fst snd map app].
    rewrite reads_flush by auto. rewrite Hcache.
    destruct c as [|[q fr] c]; cbn [map app tl].
    + cbn [repeat]. now rewrite firstn_cons_S.
    + rewrite firstn_cons_S. cbn [snd]. f_equal.
      symmetry. apply firstn_pad. lia.
Qed.

Lemma cache_blocks done c : cache_ok g v done c ->
  map (fun e => Ok (f_block (snd e))) c =
  map (fun p => Ok (frame_block g v p (records_at p done))) (map fst c).
Proof.
  intros [Ho Hc]. rewrite map_map. apply map_ext_in. intros [p fr] Hin. cbn [fst snd].
  apply map_get_in in Hin; auto. rewrite Hc in Hin.
  destruct (_ && _); [|discriminate]. injection Hin as <-. reflexivity.
Qed.

Lemma cache_keys done c p : cache_ok g v done c ->
  (In p (map fst c) <-> 0 < nrec p done < 4).
Proof.
  intros [Ho Hc]. specialize (Hc p).
  destruct (Z.ltb_spec 0 (nrec p done)); destruct (Z.ltb_spec (nrec p done) 4); cbn [andb] in Hc.
  - split; [lia|]. intros _. apply map_get_in in Hc; auto. now apply (in_map fst) in Hc.
  - apply map_get_none in Hc. split; [tauto|lia].
  - apply map_get_none in Hc. split; [tauto|lia].
  - apply map_get_none in Hc. split; [tauto|lia].
Qed.

Lemma frame_block_perm fs p l :
  same_scan fs -> recs_ok g (all_records fs) -> Permutation (all_records fs) l ->
  frame_block g v p (records_at p l) = frame_block g v p (records_at p (all_records fs)).
Proof.
  intros Hss [_ HN] HP.
  assert (HPr : Permutation (records_at p (all_records fs)) (records_at p l))
    by (now apply Permutation_filter).
  pose proof (sectors_nodup p _ HN) as HNs.
  unfold frame_block. rewrite <- (assembled_perm g v _ _ HPr HNs).
  destruct (records_at p l) as [|e l'] eqn:El.
  - apply Permutation_sym, Permutation_nil in HPr. rewrite HPr. reflexivity.
  - destruct (records_at p (all_records fs)) as [|e0 l0] eqn:E0.
    + apply Permutation_nil in HPr. discriminate.
    + assert (He0 : In e0 (records_at p (all_records fs))) by (rewrite E0; simpl; auto).
      assert (He : In e (records_at p (all_records fs))).
      { rewrite E0. eapply Permutation_in; [symmetry; exact HPr|simpl; auto]. }
      apply in_records_at in He0 as [H0 P0]. apply in_records_at in He as [H1 P1].
      destruct (Hss e e0 H1 H0) as (-> & -> & ->); [congruence|]. reflexivity.
Qed.

(** The main result for a fresh reader. *)
Lemma sector_reader_ok fs :
  fs <> [] -> wf_sfiles g fs -> same_scan fs ->
  exists s full part,
    sector_reader (map encode_sfile fs) v = Ok s /\
    NoDup (full ++ part) /\ StronglySorted Z.lt part /\
    (forall p, In p full <-> nrec p (all_records fs) = 4) /\
    (forall p, In p part <-> 0 < nrec p (all_records fs) < 4) /\
    forall n, fst (sector_reads g n s) =
      firstn n (map (fun p => Ok (frame_block g v p (records_at p (all_records fs))))
                    (full ++ part) ++ repeat (Ok empty_block) n).
Proof.
  intros Hne Hwf Hss. assert (Hok : recs_ok g (all_records fs)) by exact Hwf.
  exists (mkSSR (map encode_sfile fs) (map encode_sfile fs) 0 [] v).
  destruct (reads_ok (List.length (all_records fs))
              (mkSSR (map encode_sfile fs) (map encode_sfile fs) 0 [] v) fs [] [])
    as (tr & pc & c & HP & Hcomp & Hc & Hreads); auto.
  { split; [constructor|]. intros p. reflexivity. }
  { split; [constructor|]. intros p. simpl. split; [tauto|]. unfold nrec, Zlen; simpl; lia. }
  cbn [app] in *.
  assert (Hn : forall p, nrec p tr = nrec p (all_records fs)).
  { intros p. unfold nrec, Zlen. f_equal. apply Permutation_length. symmetry.
    now apply Permutation_filter. }
  exists pc, (map fst c).
  split.
  { unfold sector_reader. replace (negb _) with false by (destruct Hv as [-> | ->]; reflexivity).
    destruct fs; [congruence|]. reflexivity. }
  assert (Hfull : forall p, In p pc <-> nrec p (all_records fs) = 4).
  { intros p. rewrite <- Hn. apply Hcomp. }
  assert (Hpart : forall p, In p (map fst c) <-> 0 < nrec p (all_records fs) < 4).
  { intros p. rewrite <- Hn. now apply cache_keys. }
  assert (Hsort : StronglySorted Z.lt (map fst c)) by apply Hc.
  split.
  { assert (HNc : NoDup (map fst c)).
    { clear - Hsort. induction Hsort as [|a l Hs IH Hf]; constructor; auto.
      rewrite Forall_forall in Hf. intros Hin. specialize (Hf a Hin). lia. }
    destruct Hcomp as [HNp _]. clear - HNc HNp Hfull Hpart. revert HNp Hfull.
    assert (Hd : forall p, In p pc -> nrec p (all_records fs) = 4 -> ~ In p (map fst c)).
    { intros p _ H4 Hin. apply Hpart in Hin. lia. }
    intros HNp Hfull. assert (Hd' : forall p, In p pc -> ~ In p (map fst c)).
    { intros p Hp. apply Hd; auto. now apply Hfull. }
    clear Hd Hfull Hpart. induction pc as [|a l IH]; simpl; auto.
    inversion HNp; subst. constructor.
    - rewrite in_app_iff. intros [?|?]; auto. apply (Hd' a); simpl; auto.
    - apply IH; auto. intros p Hp. apply Hd'. simpl; auto. }
  split; [exact Hsort|]. split; [exact Hfull|]. split; [exact Hpart|].
  intros n. rewrite Hreads. rewrite (cache_blocks tr c Hc), app_assoc, <- map_app.
  do 2 f_equal. apply map_ext. intros p. f_equal. now apply frame_block_perm.
Qed.

(** Phases of a reader: still reading, or handing out the partial frames. *)
Definition phase (s : ssr) : Prop :=
  ss_version s = v /\
  ((exists fs done out, ss_streams s = map encode_sfile fs /\
      cache_ok g v done (ss_cache s) /\ recs_ok g (done ++ all_records fs) /\ comp done out) \/
   (ss_streams s = [] /\ Forall (fun e => version (hdr (f_block (snd e))) = v) (ss_cache s))).

Lemma cache_versions done c : cache_ok g v done c ->
  Forall (fun e => version (hdr (f_block (snd e))) = v) c.
Proof.
  intros [Ho Hc]. apply Forall_forall. intros [p fr] Hin. apply map_get_in in Hin; auto.
  rewrite Hc in Hin. destruct (_ && _); [|discriminate]. injection Hin as <-. reflexivity.
Qed.

Lemma read_phase s : phase s ->
  phase (snd (sector_read g s)) /\ same_files s (snd (sector_read g s)) /\
  exists b, fst (sector_read g s) = Ok b /\
    (b = empty_block -> ss_cache (snd (sector_read g s)) = []).
Proof.
  intros [Hver Hp].
  assert (Hv0 : v <> 0) by (destruct Hv; lia).
  destruct Hp as [(fs & done & out & Hst & Hc & Hok & Hcomp)|[Hst Hf]].
  - destruct (read_f_ok g v Hg Hv (sector_fuel s) s fs done out Hst Hver Hc Hok Hcomp (mu_fuel s))
      as (tr1 & s1 & [Hf1 Hv1] & [(p & fs' & HP & Hne & Hst1 & Hc1 & Hcomp1 & E)|
                                (c & HP & Hcomp1 & Hc1 & Hst1 & Hcache & E)]);
      unfold sector_read; rewrite E; cbn [fst snd].
    + split; [split; [congruence|]|split; [split; congruence|]].
      * left. exists fs', (done ++ tr1), (out ++ [p]). split; [auto|]. split; [auto|].
        split; [|auto]. rewrite <- app_assoc.
        eapply recs_ok_perm; [|exact Hok]. now apply Permutation_app_head.
      * eexists; split; [reflexivity|]. intros Hb. exfalso. apply Hv0.
        apply (f_equal (fun b => version (hdr b))) in Hb. exact Hb.
    + pose proof (cache_versions _ _ Hc1) as HF.
      split; [split; [congruence|]|split; [split; congruence|]].
      * right. split; auto. rewrite Hcache. destruct c; simpl; auto. now inversion HF.
      * eexists; split; [reflexivity|]. rewrite Hcache. destruct c as [|[q fr] c]; auto.
        intros Hb. exfalso. apply Hv0. inversion HF as [|? ? Hq _]; subst. cbn [snd] in Hq.
        rewrite <- Hq. now rewrite Hb.
  - destruct (read_flush g s Hst) as (-> & Hs1 & Hc1 & [H1 H2]).
    split; [split; [congruence|]|split; [split; congruence|]].
    + right. split; auto. rewrite Hc1. destruct (ss_cache s); simpl; auto. now inversion Hf.
    + eexists; split; [reflexivity|]. rewrite Hc1. destruct (ss_cache s) as [|[q fr] c]; auto.
      intros Hb. exfalso. apply Hv0. inversion Hf as [|? ? Hq _]; subst. cbn [snd] in Hq.
      rewrite <- Hq. now rewrite Hb.
Qed.

Lemma reads_phase n : forall s, phase s ->
  phase (snd (sector_reads g n s)) /\ same_files s (snd (sector_reads g n s)).
Proof.
  induction n as [|n IH]; intros s Hs; cbn [sector_reads].
  - split; [auto|split; reflexivity].
  - destruct (read_phase s Hs) as (Hp & [H1 H2] & _).
    destruct (sector_read g s) as [r s1]. cbn [snd] in *.
    destruct (IH s1 Hp) as (Hp2 & [H3 H4]). destruct (sector_reads g n s1). cbn [snd] in *.
    split; [auto|]. split; congruence.
Qed.

Lemma fresh_phase fs : wf_sfiles g fs ->
  phase (mkSSR (map encode_sfile fs) (map encode_sfile fs) 0 [] v).
Proof.
  intros Hwf. split; [reflexivity|]. left. exists fs, [], [].
  split; [reflexivity|]. split; [split; [constructor|reflexivity]|].
  split; [exact Hwf|]. split; [constructor|]. intros p. unfold nrec, Zlen. simpl. split; [tauto|lia].
Qed.

Lemma sector_reads_snoc n : forall s,
  sector_reads g (S n) s =
  (fst (sector_reads g n s) ++ [fst (sector_read g (snd (sector_reads g n s)))],
   snd (sector_read g (snd (sector_reads g n s)))).
Proof.
  induction n as [|n IH]; intros s.
  - cbn [sector_reads fst snd]. destruct (sector_read g s). reflexivity.
  - change (sector_reads g (S (S n)) s) with
      (let '(r, s1) := sector_read g s in
       let '(rs, s2) := sector_reads g (S n) s1 in (r :: rs, s2)).
    destruct (sector_read g s) as [r s1] eqn:Er. rewrite IH.
    cbn [sector_reads]. rewrite Er. destruct (sector_reads g n s1). reflexivity.
Qed.
End Reads.

(** ** The order of delivery depends on the positions only *)

Record acache := mkA { a_files : list (list Z); a_it : nat; a_cnt : list (Z * Z) }.

Definition a_absorb (p : Z) (c : list (Z * Z)) : option Z * list (Z * Z) :=
  let n := match map_get p c with Some n => n + 1 | None => 1 end in
  if n =? 4 then (Some p, map_erase p c) else (None, map_put p n c).

Fixpoint a_read (fuel : nat) (s : acache) : option Z * acache :=
  match fuel with
  | O => (None, s)
  | S f =>
    match a_files s with
    | [] => match a_cnt s with
            | (p, _) :: t => (Some p, mkA [] (a_it s) t)
            | [] => (None, s)
            end
    | _ => match nth_error (a_files s) (a_it s) with
           | None => a_read f (mkA (a_files s) 0 (a_cnt s))
           | Some [] => a_read f (mkA (remove_nth (a_it s) (a_files s)) (a_it s) (a_cnt s))
           | Some (p :: ps) =>
               let (r, c) := a_absorb p (a_cnt s) in
               let s' := mkA (upd (a_files s) (a_it s) ps) (S (a_it s)) c in
               match r with Some _ => (r, s') | None => a_read f s' end
           end
    end
  end.

Lemma map_remove_nth {A B} (f : A -> B) i l : map f (remove_nth i l) = remove_nth i (map f l).
Proof. unfold remove_nth. now rewrite map_app, firstn_map, skipn_map. Qed.
Lemma map_upd {A B} (f : A -> B) l i x : map f (upd l i x) = upd (map f l) i (f x).
Proof. revert i; induction l as [|a l IH]; intros [|i]; simpl; auto. now rewrite IH. Qed.
Lemma nth_error_map' {A B} (f : A -> B) l i : nth_error (map f l) i = option_map f (nth_error l i).
Proof. revert i; induction l as [|a l IH]; intros [|i]; simpl; auto. Qed.

Definition counts (c : list (Z * frame)) : list (Z * Z) := map (fun e => (fst e, f_count (snd e))) c.

Lemma counts_get k c : map_get k (counts c) = option_map f_count (map_get k c).
Proof. induction c as [|[q f] c IH]; simpl; auto. destruct (q =? k); auto. Qed.
Lemma counts_put k f c : counts (map_put k f c) = map_put k (f_count f) (counts c).
Proof.
  induction c as [|[q f'] c IH]; simpl; auto.
  destruct (k <? q); auto. destruct (k =? q); auto. simpl. now rewrite IH.
Qed.
Lemma counts_erase k c : counts (map_erase k c) = map_erase k (counts c).
Proof. induction c as [|[q f'] c IH]; simpl; auto. destruct (q =? k); auto. simpl. now rewrite IH. Qed.

Definition good_frame (g : geom) (v : Z) (e : Z * frame) : Prop :=
  version (hdr (f_block (snd e))) = v /\ image_numbers (hdr (f_block (snd e))) = [fst e] /\
  exists d, data (f_block (snd e)) = Some d /\ Zlen d = g_w g * g_h g.

Lemma map_put_forall {A} (P : Z * A -> Prop) k a (m : list (Z * A)) :
  P (k, a) -> Forall P m -> Forall P (map_put k a m).
Proof.
  intros Ha. induction 1 as [|[q b] m Hq Hm IH]; simpl; [auto|].
  destruct (k <? q); auto. destruct (k =? q); auto.
Qed.
Lemma map_erase_forall {A} (P : Z * A -> Prop) k (m : list (Z * A)) :
  Forall P m -> Forall P (map_erase k m).
Proof. induction 1 as [|[q b] m Hq Hm IH]; simpl; [auto|]. destruct (q =? k); auto. Qed.
Lemma map_get_forall {A} (P : Z * A -> Prop) k a (m : list (Z * A)) :
  Forall P m -> map_get k m = Some a -> P (k, a).
Proof.
  induction 1 as [|[q b] m Hq Hm IH]; simpl; [discriminate|].
  destruct (Z.eqb_spec q k) as [->|]; [intros [= ->]; auto|auto].
Qed.

Lemma absorb_any g v cache sec r rest :
  wf_geom g -> v = 4 \/ v = 5 -> Forall (good_frame g v) cache -> wf_srec g r -> 0 <= sec < 4 ->
  exists o cache',
    absorb g v sec (encode_srec r ++ rest) cache = Ok (o, cache', rest) /\
    Forall (good_frame g v) cache' /\
    a_absorb (s_pos r) (counts cache) =
      (match o with Some _ => Some (s_pos r) | None => None end, counts cache') /\
    (forall b, o = Some b -> image_numbers (hdr b) = [s_pos r]).
Proof.
  intros Hg Hv Hc Hwf Hs.
  assert (Hv0 : (v =? 0) = false) by (destruct Hv as [-> | ->]; reflexivity).
  unfold absorb. rewrite (sector_header_ok g) by auto. cbn [bind sh_pos].
  set (h := mkShdr _ _ _ _).
  assert (Hnew : good_frame g v (s_pos r, new_frame g v h)).
  { unfold good_frame, new_frame. cbn [fst snd f_block hdr version image_numbers data sh_pos h].
    split; [auto|]. split; [auto|]. eexists; split; [reflexivity|].
    destruct Hg as (? & ? & _ & _ & ?). rewrite u32_id by (split; nia).
    rewrite Zlen_repeat, Z2Nat.id; nia. }
  set (fr := match map_get (s_pos r) cache with
             | Some f => if version (hdr (f_block f)) =? 0 then new_frame g v h else f
             | None => new_frame g v h end).
  assert (Hfr : good_frame g v (s_pos r, fr) /\
                f_count fr + 1 = match map_get (s_pos r) (counts cache) with
                                 | Some n => n + 1 | None => 1 end).
  { unfold fr. rewrite counts_get. destruct (map_get (s_pos r) cache) as [f|] eqn:E; cbn [option_map].
    - pose proof (map_get_forall _ _ _ _ Hc E) as Hf. destruct Hf as (E1 & E2). cbn [snd] in E1.
      rewrite E1, Hv0. split; [split; auto|auto].
    - auto. }
  destruct Hfr as [(Hver & Him & d & Hd & Hdl) Hcnt]. cbn [fst snd] in *.
  unfold block_data. rewrite Hd. cbn [bind].
  assert (Hplace : exists d', read_sector_data g v sec (flat_map (le_bytes 2) (s_px r) ++ rest) d
                     = Ok (d', rest) /\ Zlen d' = g_w g * g_h g).
  { unfold read_sector_data. destruct Hwf as (_ & _ & _ & _ & _ & _ & Hlen & Hu).
    rewrite sector_size_eq by auto.
    assert (En : npix_sector g = Zlen (s_px r)) by (pose proof (npix_sector_4 g Hg); lia).
    rewrite En.
    assert (EL : List.length (flat_map (le_bytes 2) (s_px r)) = Z.to_nat (Zlen (s_px r) * 2)).
    { rewrite flat_le_length. unfold Zlen. lia. }
    replace (_ <=? _) with true.
    2:{ symmetry; apply Z.leb_le. unfold Zlen at 2. rewrite app_length, EL. lia. }
    replace (Z.to_nat (Zlen (s_px r))) with (List.length (s_px r)) by (unfold Zlen; lia).
    rewrite words_flat by (now apply forall_u16_256).
    destruct (place_sector_ok g Hg v sec (s_px r) d Hv Hs) as (d' & E & L & _); auto.
    rewrite E. cbn [bind]. exists d'. split; [|auto].
    do 2 f_equal. rewrite <- EL, skipn_app, Nat.sub_diag, skipn_O, skipn_all. reflexivity. }
  destruct Hplace as (d' & -> & Hl'). cbn [bind f_count].
  unfold a_absorb. rewrite <- Hcnt.
  destruct (f_count fr + 1 =? 4).
  - eexists _, _. split; [reflexivity|]. split; [now apply map_erase_forall|].
    split; [now rewrite counts_erase|]. intros b [= <-]. exact Him.
  - eexists _, _. split; [reflexivity|]. split.
    + apply map_put_forall; auto. split; [exact Hver|]. split; [exact Him|].
      exists d'. auto.
    + split; [now rewrite counts_put|]. discriminate.
Qed.

Definition a_of (fs : list sfile) (s : ssr) : acache :=
  mkA (map (fun f => map s_pos (snd f)) fs) (ss_it s) (counts (ss_cache s)).

Definition block_pos (b : block) : option Z :=
  match image_numbers (hdr b) with [p] => Some p | _ => None end.

Definition files_ok (g : geom) (fs : list sfile) : Prop :=
  forall e, In e (all_records fs) -> wf_srec g (snd e) /\ 0 <= fst e < 4.

Lemma read_positions g v fuel : wf_geom g -> v = 4 \/ v = 5 -> forall s fs,
  ss_streams s = map encode_sfile fs -> ss_version s = v -> files_ok g fs ->
  Forall (good_frame g v) (ss_cache s) -> (mu s < fuel)%nat ->
  exists b s' fs',
    sector_read_f g fuel s = (Ok b, s') /\ ss_streams s' = map encode_sfile fs' /\
    same_files s s' /\ files_ok g fs' /\ Forall (good_frame g v) (ss_cache s') /\
    (forall k, a_read (fuel + k) (a_of fs s) = (block_pos b, a_of fs' s')).
Proof.
  intros Hg Hv. induction fuel as [|fuel IH]; intros s fs Hst Hver Hf Hc Hmu; [lia|].
  cbn [sector_read_f].
  destruct (ss_streams s) as [|s0 ss] eqn:Estr.
  - destruct fs as [|f fs]; [|discriminate].
    destruct (ss_cache s) as [|[q fr] c] eqn:Ec.
    + exists empty_block, s, []. rewrite Estr, Ec. repeat (split; [auto; split; reflexivity|]).
      intros k. cbn. unfold a_of. rewrite Ec. reflexivity.
    + inversion Hc as [|? ? (Hq1 & Hq2 & _) Hc']; subst.
      eexists _, _, []. split; [reflexivity|]. cbn [ss_streams ss_cache ss_files ss_version].
      split; [reflexivity|]. split; [split; reflexivity|]. split; [auto|]. split; [auto|].
      intros k. cbn. unfold a_of. rewrite Ec. cbn [counts map fst snd ss_it ss_cache].
      unfold block_pos. cbn [fst snd] in Hq2. rewrite Hq2. reflexivity.
  - assert (Hne : ss_streams s <> []) by (rewrite Estr; discriminate).
    rewrite <- Estr in Hst |- *. clear Estr s0 ss.
    assert (Hfne : a_files (a_of fs s) <> []).
    { unfold a_of. cbn [a_files]. intros E. apply map_eq_nil in E. subst fs. apply Hne. exact Hst. }
    assert (Hun : forall k, a_read (S fuel + k) (a_of fs s) =
       match nth_error (a_files (a_of fs s)) (a_it (a_of fs s)) with
           | None => a_read (fuel + k) (mkA (a_files (a_of fs s)) 0 (a_cnt (a_of fs s)))
           | Some [] => a_read (fuel + k) (mkA (remove_nth (a_it (a_of fs s)) (a_files (a_of fs s))) (a_it (a_of fs s)) (a_cnt (a_of fs s)))
           | Some (p :: ps) =>
               let (r, c) := a_absorb p (a_cnt (a_of fs s)) in
               let s' := mkA (upd (a_files (a_of fs s)) (a_it (a_of fs s)) ps) (S (a_it (a_of fs s))) c in
               match r with Some _ => (r, s') | None => a_read (fuel + k) s' end
           end).
    { intros k. cbn [Nat.add a_read]. destruct (a_files (a_of fs s)); [congruence|]. reflexivity. }
    assert (Enth' : nth_error (a_files (a_of fs s)) (a_it (a_of fs s)) =
              option_map (fun f : sfile => map s_pos (snd f)) (nth_error fs (ss_it s)))
      by apply nth_error_map'.
    assert (Enth : nth_error (ss_streams s) (ss_it s) = option_map encode_sfile (nth_error fs (ss_it s)))
      by (rewrite Hst; apply nth_error_map').
    destruct (nth_error fs (ss_it s)) as [[sec recs]|] eqn:En; cbn [option_map] in Enth, Enth' |- *;
      rewrite Enth; rewrite Enth' in Hun; clear Enth'.
    + unfold encode_sfile. cbn [fst snd].
      assert (Hin : In (sec, recs) fs) by (eapply nth_error_In; eauto).
      cbn [snd] in Hun. destruct recs as [|r recs]; cbn [flat_map map]; cbn [map] in Hun.
      * destruct (IH (mkSSR (ss_files s) (remove_nth (ss_it s) (ss_streams s)) (ss_it s)
                              (ss_cache s) (ss_version s)) (remove_nth (ss_it s) fs))
          as (b & s' & fs' & E & H1 & H2 & H3 & H4 & H5); auto.
        { cbn [ss_streams]. rewrite Hst. symmetry. apply map_remove_nth. }
        { intros e He. apply Hf. unfold all_records in *.
          apply in_flat_map in He as (x & Hx & He). apply in_flat_map. exists x. split; auto.
          unfold remove_nth in Hx. apply in_app_or in Hx as [Hx|Hx].
          - rewrite <- (firstn_skipn (ss_it s) fs); apply in_or_app; auto.
          - rewrite <- (firstn_skipn (S (ss_it s)) fs). apply in_or_app; auto. }
        { apply nth_error_split in En as (f1 & f2 & -> & Hit).
          unfold mu in *. cbn [ss_streams ss_it]. rewrite Hst in *. rewrite <- Hit in *.
          rewrite map_app in *. cbn [map] in *.
          rewrite <- (map_length encode_sfile f1) in *. rewrite remove_mid.
          rewrite !app_length, !flat_map_app in *.
          cbn [flat_map encode_sfile snd app List.length] in *.
          rewrite !app_length in *. unfold bytes in *. repeat destruct (Nat.leb _ _); lia. }
        exists b, s', fs'. rewrite E. repeat (split; [auto|]).
        intros k. rewrite Hun, <- H5 with (k := k). unfold a_of. cbn [ss_it ss_cache].
        rewrite (map_remove_nth (fun f : sfile => map s_pos (snd f))); reflexivity.
      * destruct (encode_srec r ++ flat_map encode_srec recs) as [|b0 bs] eqn:Eb.
        { exfalso. pose proof (encode_srec_length r) as HL.
          apply (f_equal (@List.length Z)) in Eb. rewrite app_length in Eb. simpl in Eb. lia. }
        rewrite <- Eb. clear Eb b0 bs.
        assert (Hr : wf_srec g r /\ 0 <= sec < 4).
        { apply (Hf (sec, r)). apply in_flat_map. exists (sec, r :: recs). simpl; auto. }
        destruct Hr as [Hr Hsec].
        destruct (absorb_any g v (ss_cache s) sec r (flat_map encode_srec recs) Hg Hv Hc Hr Hsec)
          as (o & cache' & Ea & Hc' & Hcnt & Hpos).
        rewrite Hver, Ea. clear Ea. cbn [a_of a_cnt] in Hun. rewrite Hcnt in Hun.
        assert (Es : upd (map encode_sfile fs) (ss_it s) (encode_sfile (sec, recs)) =
                     map encode_sfile (upd fs (ss_it s) (sec, recs)))
          by (symmetry; apply map_upd).
        assert (Hf' : files_ok g (upd fs (ss_it s) (sec, recs))).
        { apply nth_error_split in En as (f1 & f2 & -> & Hit). rewrite <- Hit, upd_mid.
          intros e He. apply Hf. rewrite all_records_app, all_records_cons in *.
          apply in_app_or in He as [He|He]; apply in_or_app; auto. right.
          apply in_app_or in He as [He|He]; apply in_or_app; auto. left. simpl. auto. }
        assert (Em : map (fun f : sfile => map s_pos (snd f)) (upd fs (ss_it s) (sec, recs)) =
                     upd (map (fun f : sfile => map s_pos (snd f)) fs) (ss_it s) (map s_pos recs))
          by (apply (map_upd (fun f : sfile => map s_pos (snd f)))).
        destruct o as [b|].
        -- eexists b, _, (upd fs (ss_it s) (sec, recs)). split; [reflexivity|].
           cbn [ss_streams ss_files ss_version ss_cache].
           split; [rewrite Hst; exact Es|].
           split; [split; [reflexivity|cbn [ss_version]; congruence]|].
           split; [auto|]. split; [auto|]. intros k. rewrite Hun. unfold a_of. cbn [ss_it ss_cache]. rewrite Em. unfold block_pos.
           now rewrite (Hpos b eq_refl).
        -- destruct (IH (mkSSR (ss_files s) (map encode_sfile (upd fs (ss_it s) (sec, recs)))
                            (S (ss_it s)) cache' v) (upd fs (ss_it s) (sec, recs)))
             as (b & s' & fs' & E & H1 & [H2 H2'] & H3 & H4 & H5); auto.
           { unfold mu; cbn [ss_streams ss_it]. etransitivity; [apply Nat.eq_le_incl; f_equal; rewrite <- Es; reflexivity|]. apply nth_error_split in En as (f1 & f2 & -> & Hit).
             unfold mu in *. cbn [ss_streams ss_it]. rewrite Hst in *. rewrite <- Hit in *.
             rewrite map_app in *. cbn [map] in *.
             rewrite <- (map_length encode_sfile f1) in *. rewrite upd_mid.
             pose proof (encode_srec_length r).
             rewrite !app_length, !flat_map_app in *.
             cbn [flat_map encode_sfile snd app List.length] in *.
             rewrite !app_length in *. unfold bytes in *. repeat destruct (Nat.leb _ _); lia. }
           exists b, s', fs'.
           match goal with |- context [upd (ss_streams s) (ss_it s) ?c] =>
             replace (upd (ss_streams s) (ss_it s) c) with
               (map encode_sfile (upd fs (ss_it s) (sec, recs)))
               by (rewrite Hst; symmetry; exact Es)
           end.
           split; [exact E|]. split; [auto|]. split; [split; [exact H2|rewrite Hver; exact H2']|].
           split; [auto|]. split; [auto|]. intros k.
           rewrite Hun, <- H5 with (k := k). unfold a_of. cbn [ss_it ss_cache]. now rewrite Em.
    + destruct (IH (mkSSR (ss_files s) (ss_streams s) 0 (ss_cache s) (ss_version s)) fs)
        as (b & s' & fs' & E & H1 & H2 & H3 & H4 & H5); auto.
      { unfold mu in *. cbn [ss_streams ss_it].
        destruct (ss_streams s) as [|a t] eqn:Est; [congruence|].
        replace (Nat.leb (List.length (a :: t)) 0) with false by reflexivity.
        assert (HN : (List.length (a :: t) <= ss_it s)%nat).
        { apply nth_error_None. exact Enth. }
        apply Nat.leb_le in HN. rewrite HN in Hmu. lia. }
      exists b, s', fs'. rewrite E. repeat (split; [auto|]). intros k. rewrite Hun. apply H5.
Qed.

Definition amu (s : acache) : nat :=
  (2 * (List.length (a_files s) + List.length (concat (a_files s))) +
   if Nat.leb (List.length (a_files s)) (a_it s) then 1 else 0)%nat.

Lemma concat_length_upd_nth (l : list (list Z)) i p ps :
  nth_error l i = Some (p :: ps) ->
  List.length (concat l) = S (List.length (concat (upd l i ps))) /\
  List.length (upd l i ps) = List.length l.
Proof.
  intros H. apply nth_error_split in H as (l1 & l2 & -> & <-).
  rewrite upd_mid, !concat_app, !app_length. cbn [concat app List.length].
  rewrite app_length. split; lia.
Qed.

Lemma concat_length_remove (l : list (list Z)) i :
  nth_error l i = Some [] ->
  concat (remove_nth i l) = concat l /\ S (List.length (remove_nth i l)) = List.length l.
Proof.
  intros H. apply nth_error_split in H as (l1 & l2 & -> & <-).
  rewrite remove_mid, !concat_app, !app_length. cbn [concat app List.length].
  split; [reflexivity|lia].
Qed.

Lemma a_read_fuel f1 : forall f2 s, (amu s < f1)%nat -> (amu s < f2)%nat -> a_read f1 s = a_read f2 s.
Proof.
  induction f1 as [|f1 IH]; intros f2 s H1 H2; [lia|].
  destruct f2 as [|f2]; [lia|]. cbn [a_read].
  destruct (a_files s) as [|x l] eqn:E; [reflexivity|]. rewrite <- E.
  assert (Hne : (0 < List.length (a_files s))%nat) by (rewrite E; simpl; lia).
  destruct (nth_error (a_files s) (a_it s)) as [[|p ps]|] eqn:En.
  - destruct (concat_length_remove _ _ En) as [Ec El].
    apply IH; unfold amu in *; cbn [a_files a_it]; rewrite Ec; repeat destruct (Nat.leb _ _); lia.
  - destruct (concat_length_upd_nth _ _ _ _ En) as [Ec El].
    destruct (a_absorb p (a_cnt s)) as [[q|] c]; [reflexivity|].
    apply IH; unfold amu in *; cbn [a_files a_it]; repeat destruct (Nat.leb _ _); lia.
  - apply nth_error_None in En.
    assert (Hf : Nat.leb (List.length (a_files s)) 0 = false) by (apply Nat.leb_gt; lia).
    apply Nat.leb_le in En.
    apply IH; unfold amu in *; cbn [a_files a_it]; rewrite Hf, En in *; lia.
Qed.

Fixpoint a_reads (n : nat) (s : acache) : list (option Z) * acache :=
  match n with
  | O => ([], s)
  | S m => let '(r, s1) := a_read (S (amu s)) s in
           let '(rs, s2) := a_reads m s1 in (r :: rs, s2)
  end.

Definition ok_pos (o : outcome block) : option Z :=
  match o with Ok b => block_pos b | _ => None end.

Lemma reads_positions g v n : wf_geom g -> v = 4 \/ v = 5 -> forall s fs,
  ss_streams s = map encode_sfile fs -> ss_version s = v -> files_ok g fs ->
  Forall (good_frame g v) (ss_cache s) ->
  exists s' fs',
    snd (sector_reads g n s) = s' /\ ss_streams s' = map encode_sfile fs' /\
    same_files s s' /\ files_ok g fs' /\ Forall (good_frame g v) (ss_cache s') /\
    a_reads n (a_of fs s) = (map ok_pos (fst (sector_reads g n s)), a_of fs' s').
Proof.
  intros Hg Hv. induction n as [|n IH]; intros s fs Hst Hver Hf Hc.
  - exists s, fs. cbn. repeat (split; [auto; split; reflexivity|]). reflexivity.
  - destruct (read_positions g v (sector_fuel s) Hg Hv s fs Hst Hver Hf Hc (mu_fuel s))
      as (b & s1 & fs1 & E & Hst1 & [Hf1 Hv1] & Hok1 & Hc1 & Ha).
    destruct (IH s1 fs1) as (s2 & fs2 & E2 & Hst2 & [Hf2 Hv2] & Hok2 & Hc2 & Ha2); auto.
    { congruence. }
    exists s2, fs2. cbn [sector_reads]. unfold sector_read. rewrite E.
    destruct (sector_reads g n s1) as [rs s3] eqn:E3. cbn [fst snd] in *. subst s3.
    split; [reflexivity|]. split; [auto|]. split; [split; congruence|]. split; [auto|].
    split; [auto|]. cbn [a_reads map ok_pos].
    rewrite (a_read_fuel _ (sector_fuel s + S (amu (a_of fs s)))%nat) by lia.
    rewrite Ha, Ha2. reflexivity.
Qed.
