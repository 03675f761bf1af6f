(** Lemmas about masks and STEM images. *)
From Coq Require Import String ZArith List Lia Permutation Bool.
From Verif Require Import Base BaseFacts BlockModel PoolModel PoolFacts StemModel StemSpec.
Import ListNotations.
Open Scope Z_scope.

Lemma to_int_ok z : - 2 ^ 31 <= z < 2 ^ 31 -> to_int z = Ok z.
Proof.
  intros H. unfold to_int.
  destruct (Z.leb_spec (- 2 ^ 31) z); destruct (Z.ltb_spec z (2 ^ 31)); try lia; auto.
Qed.

Lemma to_int_square r : -46340 <= r <= 46340 -> to_int (r ^ 2) = Ok (r * r).
Proof. intros. rewrite Z.pow_2_r. apply to_int_ok. nia. Qed.

Lemma to_int_square_big r : r < -46340 \/ 46340 < r -> exists s, to_int (r ^ 2) = UB s.
Proof.
  intros. unfold to_int. rewrite Z.pow_2_r.
  destruct (Z.ltb_spec (r * r) (2 ^ 31)); [nia|].
  rewrite andb_false_r; eauto.
Qed.

Lemma default_center_ok w h cx cy :
  0 <= w < 2 ^ 31 -> 0 <= h < 2 ^ 31 ->
  default_center (w, h) (cx, cy) = Ok (axis_center w cx, axis_center h cy).
Proof.
  intros Hw Hh. unfold default_center, axis_center, round_half; cbn [fst snd].
  rewrite !to_int_ok; [destruct (cx <? 0), (cy <? 0); reflexivity| |].
  - split; [apply Z.le_trans with 0; [lia|apply Z.div_pos; lia]|].
    apply Z.div_lt_upper_bound; lia.
  - split; [apply Z.le_trans with 0; [lia|apply Z.div_pos; lia]|].
    apply Z.div_lt_upper_bound; lia.
Qed.

Definition mask_value (w cx cy inner outer i : Z) : Z :=
  if in_annulusb cx cy inner outer (i mod w) (i / w) then 65535 else 0.

Lemma i32_small z : 0 <= z < 2 ^ 31 -> i32_of_u32 z = z.
Proof. intros. unfold i32_of_u32. destruct (Z.ltb_spec z (2 ^ 31)); lia. Qed.

Lemma createAnnularMask_ok w h inner outer cx cy :
  0 <= w < 2 ^ 31 -> 0 <= h < 2 ^ 31 -> w * h < 2 ^ 32 ->
  -46340 <= inner <= 46340 -> -46340 <= outer <= 46340 ->
  createAnnularMask (w, h) inner outer (cx, cy) =
  Ok (map (mask_value w (axis_center w cx) (axis_center h cy) inner outer) (zseq (w * h))).
Proof.
  intros Hw Hh Hn Hi Ho. unfold createAnnularMask; cbn [fst snd].
  rewrite u32_id by (unfold is_u32; nia).
  rewrite default_center_ok by auto. cbn [bind].
  rewrite !to_int_square by auto. cbn [bind].
  apply for_loop_fill; try nia.
  - rewrite Zlen_repeat. nia.
  - intros i l Hi' Hl. f_equal. unfold mask_value, in_annulusb; cbn [fst snd].
    assert (0 < w) by nia.
    assert (0 <= i mod w < w) by (apply Z.mod_pos_bound; lia).
    assert (0 <= i / w < h).
    { split; [apply Z.div_pos; lia|apply Z.div_lt_upper_bound; lia]. }
    rewrite !i32_small by lia. rewrite !Z.pow_2_r. reflexivity.
Qed.

Lemma Zlen_map {A B} (f : A -> B) l : Zlen (map f l) = Zlen l.
Proof. unfold Zlen; rewrite map_length; auto. Qed.

Lemma in_annulusb_spec cx cy inner outer x y :
  in_annulusb cx cy inner outer x y = true <-> in_annulus cx cy inner outer x y.
Proof.
  unfold in_annulusb, in_annulus. rewrite andb_true_iff, Z.leb_le, Z.ltb_lt. reflexivity.
Qed.

Lemma row_index w h x y :
  0 <= x < w -> 0 <= y < h -> 0 <= y * w + x < w * h.
Proof. nia. Qed.

Lemma calculateSTEMValues_ok dat offset n mask :
  0 <= n -> 0 <= offset -> offset + n <= Zlen dat -> n <= Zlen mask ->
  calculateSTEMValues dat offset n mask =
  Ok (u64 (zsum (map (fun i => Z.land (zat dat (offset + i)) (zat mask i)) (zseq n)))).
Proof.
  intros Hn Ho Hd Hm. unfold calculateSTEMValues.
  rewrite (for_loop_sum n _ (fun i => Z.land (zat dat (offset + i)) (zat mask i)) 0);
    auto.
  - unfold is_u64; lia.
  - intros i a Hi. rewrite !rd_zat by lia. reflexivity.
Qed.

Lemma land_ffff v : is_u16 v -> Z.land v 65535 = v.
Proof.
  intros H. change 65535 with (Z.ones 16). rewrite Z.land_ones by lia.
  apply Z.mod_small, H.
Qed.

(** Value of a frame: the annulus sum, exactly. *)
Lemma stem_value_ok d w h i cx cy inner outer :
  0 <= w < 2 ^ 31 -> 0 <= h < 2 ^ 31 -> w * h < 2 ^ 32 ->
  0 <= i -> (i + 1) * (w * h) <= Zlen d -> Forall is_u16 d ->
  calculateSTEMValues d (i * (w * h)) (w * h)
    (map (mask_value w cx cy inner outer) (zseq (w * h))) =
  Ok (annulus_sum w h (frame_pixel d w h i) cx cy inner outer).
Proof.
  intros Hw Hh Hn Hi Hd Hpix.
  rewrite calculateSTEMValues_ok; try nia.
  2:{ rewrite Zlen_map, Zlen_zseq; nia. }
  f_equal.
  assert (E : zsum (map (fun j => Z.land (zat d (i * (w * h) + j))
               (zat (map (mask_value w cx cy inner outer) (zseq (w * h))) j)) (zseq (w * h)))
            = annulus_sum w h (frame_pixel d w h i) cx cy inner outer).
  { rewrite zsum_grid by nia. unfold annulus_sum.
    apply zsum_map_ext; intros y Hy. apply zsum_map_ext; intros x Hx.
    apply in_zseq in Hy. apply in_zseq in Hx.
    pose proof (row_index w h x y Hx Hy).
    rewrite zat_map_zseq by lia. unfold mask_value, frame_pixel.
    destruct (div_mod_unique_row w x y Hx) as (-> & ->).
    rewrite <- Z.add_assoc.
    destruct (in_annulusb cx cy inner outer x y).
    - apply land_ffff. rewrite Forall_forall in Hpix. apply Hpix, zat_in. nia.
    - apply Z.land_0_r. }
  rewrite <- E. apply u64_id.
  match goal with |- is_u64 (zsum (map ?f ?l)) => set (F := f) end.
  assert (HB : forall x, In x (map F (zseq (w * h))) -> 0 <= x <= 65535).
  { intros x Hx. apply in_map_iff in Hx. destruct Hx as (j & <- & Hj).
    apply in_zseq in Hj. unfold F. rewrite zat_map_zseq by lia.
    assert (is_u16 (zat d (i * (w * h) + j))).
    { rewrite Forall_forall in Hpix. apply Hpix, zat_in. nia. }
    unfold mask_value. destruct (in_annulusb _ _ _ _ _ _).
    - rewrite land_ffff by auto. unfold is_u16 in *. lia.
    - rewrite Z.land_0_r. lia. }
  split.
  - apply zsum_nonneg. intros; apply HB; auto.
  - apply Z.le_lt_trans with (65535 * Zlen (map F (zseq (w * h)))).
    + apply zsum_bound. intros; apply HB; auto.
    + rewrite Zlen_map, Zlen_zseq by nia. lia.
Qed.

(** create_masks *)
Lemma create_masks_ok w h inner outer cx cy :
  0 <= w < 2 ^ 31 -> 0 <= h < 2 ^ 31 -> w * h < 2 ^ 32 ->
  List.length inner = List.length outer ->
  Forall (fun r => -46340 <= r <= 46340) inner ->
  Forall (fun r => -46340 <= r <= 46340) outer ->
  create_masks (w, h) inner outer (cx, cy) =
  Ok (map (fun io => map (mask_value w (axis_center w cx) (axis_center h cy)
                             (fst io) (snd io)) (zseq (w * h)))
          (combine inner outer)).
Proof.
  intros Hw Hh Hn. revert outer. induction inner as [|i it IH]; intros [|o ot] HL Fi Fo;
    simpl in *; try discriminate; auto.
  inversion Fi; inversion Fo; subst.
  rewrite createAnnularMask_ok by auto. cbn [bind].
  rewrite IH by (auto; lia). reflexivity.
Qed.

(** ---- writes of all tasks ---- *)

Lemma rd_nth_error {A} (l : list A) n v :
  nth_error l n = Some v -> rd l (Z.of_nat n) = Ok v.
Proof.
  intros H. unfold rd. destruct (Z.ltb_spec (Z.of_nat n) 0); try lia.
  rewrite Nat2Z.id, H. auto.
Qed.

Section Writes.
Variables (w h P cx cy : Z) (radii : list (Z * Z)).
Hypothesis (Hw : 0 <= w < 2 ^ 31) (Hh : 0 <= h < 2 ^ 31) (Hn : w * h < 2 ^ 32).

Definition block_ok (b : block) : Prop :=
  exists d, data b = Some d /\
    w * h * Zlen (image_numbers (hdr b)) <= Zlen d /\
    Zlen d < 2 ^ 64 /\
    Forall is_u16 d /\
    Forall (fun p => 0 <= p < P) (image_numbers (hdr b)).

Let masks := map (fun io => map (mask_value w cx cy (fst io) (snd io)) (zseq (w * h))) radii.

Definition okey (o : stem_op) : nat * Z :=
  (op_mask o, zat (image_numbers (hdr (op_block o))) (op_index o)).
Definition oval (o : stem_op) : Z :=
  let io := nth (op_mask o) radii (0, 0) in
  annulus_sum w h
    (frame_pixel (match data (op_block o) with Some d => d | None => [] end) w h (op_index o))
    cx cy (fst io) (snd io).

Definition op_ok (o : stem_op) : Prop :=
  block_ok (op_block o) /\ (op_mask o < List.length radii)%nat /\
  0 <= op_index o < Zlen (image_numbers (hdr (op_block o))).

Definition shape_ok (imgs : images) : Prop :=
  List.length imgs = List.length radii /\ Forall (fun im => Zlen im = P) imgs.

Lemma stem_exec_ok o imgs :
  op_ok o -> shape_ok imgs ->
  stem_exec masks (w * h) o imgs =
  Ok (upd imgs (op_mask o)
       (upd (nth (op_mask o) imgs []) (Z.to_nat (snd (okey o))) (oval o))).
Proof.
  intros ((d & Ed & HL & H64 & Hpix & Hpos) & Hk & Hi) (SL & SP).
  unfold stem_exec, block_data. rewrite Ed; cbn [bind].
  assert (Em : nth_error masks (op_mask o) =
    Some (map (mask_value w cx cy (fst (nth (op_mask o) radii (0,0)))
                                  (snd (nth (op_mask o) radii (0,0)))) (zseq (w * h)))).
  { unfold masks. apply map_nth_error with (d := nth (op_mask o) radii (0,0)).
    apply nth_error_nth'; auto. }
  rewrite (rd_nth_error _ _ _ Em); cbn [bind].
  set (ims := image_numbers (hdr (op_block o))) in *.
  assert (Hoff : u64 (op_index o * (w * h)) = op_index o * (w * h)).
  { apply u64_id. unfold is_u64. nia. }
  rewrite Hoff. rewrite stem_value_ok; auto; try nia.
  cbn [bind].
  assert (Hki : (op_mask o < List.length imgs)%nat) by lia.
  rewrite (rd_nth_error imgs (op_mask o) (nth (op_mask o) imgs [])) by
    (apply nth_error_nth'; lia).
  cbn [bind]. rewrite rd_zat by lia. cbn [bind].
  assert (HP : Zlen (nth (op_mask o) imgs []) = P).
  { rewrite Forall_forall in SP. apply SP, nth_In; lia. }
  assert (Hp : 0 <= zat ims (op_index o) < P).
  { rewrite Forall_forall in Hpos. apply Hpos, zat_in; auto. }
  rewrite wr_ok by lia. cbn [bind].
  rewrite wr_ok by (unfold Zlen; lia). rewrite Nat2Z.id.
  unfold oval, okey. rewrite Ed. reflexivity.
Qed.

Definition written (ops : list stem_op) (imgs : images) : Prop :=
  shape_ok imgs /\
  forall k p, (k < List.length radii)%nat -> 0 <= p < P ->
    (forall o, In o ops -> okey o = (k, p) -> zat (nth k imgs []) p = oval o) /\
    ((forall o, In o ops -> okey o <> (k, p)) -> zat (nth k imgs []) p = 0).

Lemma run_ops ops imgs0 :
  Forall op_ok ops -> NoDup (map okey ops) ->
  0 <= P -> imgs0 = repeat (repeat 0 (Z.to_nat P)) (List.length radii) ->
  exists imgs, for_each ops (stem_exec masks (w * h)) imgs0 = Ok imgs /\ written ops imgs.
Proof.
  intros Hok Hnd HP0 E0. apply for_each_inv.
  - split; [split|].
    + subst. apply repeat_length.
    + subst. apply Forall_forall. intros im Him. apply repeat_spec in Him. subst.
      rewrite Zlen_repeat. lia.
    + intros k p Hk Hp. split; [intros o []|intros _].
      subst. rewrite nth_indep with (d' := repeat 0 (Z.to_nat P)) by (rewrite repeat_length; auto).
      rewrite nth_repeat. apply zat_repeat0.
  - intros pre x post imgs El (Hsh & Hval).
    assert (Hx : op_ok x).
    { rewrite Forall_forall in Hok. apply Hok. subst. apply in_or_app; right; left; auto. }
    assert (Hfresh : forall o, In o pre -> okey o <> okey x).
    { intros o Ho Hc. subst. rewrite map_app in Hnd; simpl in Hnd.
      apply NoDup_remove_2 in Hnd. apply Hnd. rewrite <- Hc.
      apply in_or_app; left. apply in_map; auto. }
    rewrite stem_exec_ok by auto. eexists; split; [reflexivity|].
    destruct Hsh as (SL & SP). destruct Hx as (Hb & Hk & Hi).
    assert (HPx : Zlen (nth (op_mask x) imgs []) = P).
    { rewrite Forall_forall in SP. apply SP, nth_In; lia. }
    assert (Hpx : 0 <= snd (okey x) < P).
    { destruct Hb as (d & _ & _ & _ & _ & Hpos). unfold okey; simpl.
      rewrite Forall_forall in Hpos. apply Hpos, zat_in; auto. }
    split; [split|].
    + rewrite upd_length; auto.
    + apply Forall_forall. intros im Him. apply In_nth with (d := []) in Him.
      destruct Him as (n & Hn' & <-). rewrite upd_length in Hn'.
      destruct (Nat.eq_dec n (op_mask x)).
      * subst. rewrite nth_upd_eq by lia. rewrite Zlen_upd. auto.
      * rewrite nth_upd_neq by auto. rewrite Forall_forall in SP. apply SP, nth_In; auto.
    + intros k p Hk' Hp. destruct (Hval k p Hk' Hp) as (V1 & V2).
      destruct (Nat.eq_dec k (op_mask x)).
      * subst k. rewrite nth_upd_eq by lia. rewrite zat_upd by lia.
        destruct (Z.eqb_spec p (snd (okey x))).
        -- subst p. split.
           ++ intros o Ho Hko. apply in_app_or in Ho. destruct Ho as [Ho|[Ho|[]]]; subst; auto.
              exfalso. apply (Hfresh o Ho). rewrite Hko. reflexivity.
           ++ intros Hno. exfalso. apply (Hno x); [apply in_or_app; right; left; auto|].
              reflexivity.
        -- split.
           ++ intros o Ho Hko. apply in_app_or in Ho. destruct Ho as [Ho|[Ho|[]]]; auto.
              subst o. unfold okey in *. simpl in *. congruence.
           ++ intros Hno. apply V2. intros o Ho. apply Hno. apply in_or_app; auto.
      * rewrite nth_upd_neq by auto. split.
        -- intros o Ho Hko. apply in_app_or in Ho. destruct Ho as [Ho|[Ho|[]]]; auto.
           subst o. unfold okey in Hko. simpl in *. congruence.
        -- intros Hno. apply V2. intros o Ho. apply Hno. apply in_or_app; auto.
Qed.

End Writes.

Lemma NoDup_app_intro {A} (l l' : list A) :
  NoDup l -> NoDup l' -> (forall x, In x l -> In x l' -> False) -> NoDup (l ++ l').
Proof.
  induction l; simpl; intros H H' Hd; auto.
  inversion H; subst. constructor.
  - intros Hin. apply in_app_or in Hin. destruct Hin; eauto.
  - apply IHl; eauto.
Qed.

Lemma NoDup_app_inv {A} (l l' : list A) :
  NoDup (l ++ l') -> NoDup l /\ NoDup l' /\ (forall x, In x l -> In x l' -> False).
Proof.
  induction l; simpl; intros H.
  - repeat split; auto using NoDup_nil; intros ? [].
  - inversion H; subst. destruct (IHl H3) as (H4 & H5 & H6). repeat split; auto.
    + constructor; auto. intros Hin; apply H2, in_or_app; auto.
    + intros x [->|Hx] Hx'; eauto. apply H2, in_or_app; auto.
Qed.

Lemma concat_stem_tasks blocks nm :
  concat (stem_tasks blocks nm) =
  flat_map (fun b => flat_map (stem_task b) (seq 0 nm)) blocks.
Proof.
  unfold stem_tasks. induction blocks; simpl; auto.
  rewrite concat_app, IHblocks. f_equal. rewrite flat_map_concat_map. reflexivity.
Qed.

Lemma okey_task b k :
  map okey (stem_task b k) = map (fun p => (k, p)) (image_numbers (hdr b)).
Proof.
  unfold stem_task. rewrite map_map. unfold okey; simpl.
  rewrite <- (map_map (zat (image_numbers (hdr b))) (fun p => (k, p))).
  rewrite <- list_as_map_zat. reflexivity.
Qed.

Lemma in_tasks blocks nm o :
  In o (concat (stem_tasks blocks nm)) <->
  In (op_block o) blocks /\ (op_mask o < nm)%nat /\
  0 <= op_index o < Zlen (image_numbers (hdr (op_block o))).
Proof.
  rewrite concat_stem_tasks. rewrite in_flat_map. split.
  - intros (b & Hb & H). apply in_flat_map in H. destruct H as (k & Hk & H).
    unfold stem_task in H. apply in_map_iff in H. destruct H as (i & <- & Hi).
    simpl. apply in_zseq in Hi. apply in_seq in Hk. repeat split; auto; lia.
  - intros (Hb & Hk & Hi). exists (op_block o). split; auto.
    apply in_flat_map. exists (op_mask o). split; [apply in_seq; lia|].
    unfold stem_task. apply in_map_iff. exists (op_index o). split.
    + destruct o; auto.
    + apply in_zseq; auto.
Qed.

Lemma NoDup_keys blocks nm :
  NoDup (flat_map (fun b => image_numbers (hdr b)) blocks) ->
  NoDup (map okey (concat (stem_tasks blocks nm))).
Proof.
  rewrite concat_stem_tasks.
  induction blocks as [|b bs IH]; simpl; intros H; [constructor|].
  apply NoDup_app_inv in H. destruct H as (H1 & H2 & H3).
  rewrite map_app. apply NoDup_app_intro; auto.
  - assert (G : forall ks, NoDup ks -> NoDup (map okey (flat_map (stem_task b) ks))).
    { induction ks as [|k ks IHk]; simpl; intros Hk; [constructor|].
      inversion Hk; subst. rewrite map_app. apply NoDup_app_intro; auto.
      - rewrite okey_task. apply FinFun.Injective_map_NoDup; auto.
        intros p q E; inversion E; auto.
      - intros x Hx Hy. rewrite okey_task in Hx. apply in_map_iff in Hx.
        destruct Hx as (p & <- & _).
        rewrite in_map_iff in Hy. destruct Hy as (o & Eo & Ho).
        apply in_flat_map in Ho. destruct Ho as (k' & Hk' & Ho).
        unfold stem_task in Ho. apply in_map_iff in Ho. destruct Ho as (i & <- & _).
        unfold okey in Eo; simpl in Eo. inversion Eo; subst. auto. }
    apply G, seq_NoDup.
  - intros (k, p) Hx Hy.
    assert (Hp1 : In p (image_numbers (hdr b))).
    { apply in_map_iff in Hx. destruct Hx as (o & Eo & Ho).
      apply in_flat_map in Ho. destruct Ho as (k' & Hk' & Ho).
      unfold stem_task in Ho. apply in_map_iff in Ho. destruct Ho as (i & <- & Hi).
      unfold okey in Eo; simpl in Eo. inversion Eo; subst.
      apply zat_in. apply in_zseq in Hi; auto. }
    apply (H3 p Hp1).
    apply in_map_iff in Hy. destruct Hy as (o & Eo & Ho).
    apply in_flat_map in Ho. destruct Ho as (b' & Hb' & Ho).
    apply in_flat_map. exists b'. split; auto.
    apply in_flat_map in Ho. destruct Ho as (k' & Hk' & Ho).
    unfold stem_task in Ho. apply in_map_iff in Ho. destruct Ho as (i & <- & Hi).
    unfold okey in Eo; simpl in Eo. inversion Eo; subst.
    apply zat_in. apply in_zseq in Hi; auto.
Qed.
