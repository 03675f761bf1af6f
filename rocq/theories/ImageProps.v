(** Property theorems C10 and C11: average and maximum diffraction pattern. *)
From Coq Require Import String ZArith List Lia Permutation Bool Reals Lra.
From Flocq Require Import Core IEEE754.Binary.
From Verif Require Import Base BaseFacts BlockModel StemSpec StemProofs Double ImageModel ImageSpec ImageProofs.
Import ListNotations.
Open Scope Z_scope.

Lemma first_dims_input blocks w h : frames_input blocks w h -> first_dims blocks = (w, h).
Proof.
  intros [Hne HB _]. destruct blocks as [|b bs]; [congruence|].
  inversion HB as [|? ? Hb]; subst. destruct Hb as (E & _). exact E.
Qed.

(** ** C10: pixel (x,y) of the average is the correctly rounded quotient of the
    exact sum over all frames and the number of frames. *)
Theorem average_correct :
  forall blocks w h, frames_input blocks w h ->
    let N := Zlen (all_frames blocks) in
    0 < N -> 65535 * N <= 2 ^ 53 ->
    exists img, calculateAverage blocks = Ok ((w, h), img) /\ Zlen img = w * h /\
      forall x y, 0 <= x < w -> 0 <= y < h ->
        dval (dat img (y * w + x))
             (d_rnd (IZR (zsum (map (pixel_of w h x y) (all_frames blocks))) / IZR N)).
Proof.
  intros blocks w h Hin N HN0 HN. pose proof (first_dims_input _ _ _ Hin) as Hfd.
  destruct Hin as [Hne HB (Hw & Hh & Hwh)]. unfold calculateAverage. rewrite Hfd. cbn [fst snd].
  rewrite (u32_id (w * h)) by (unfold is_u32; nia).
  assert (U : forall img, is_u64 (snd (img : list double, 0))) by (intros; unfold is_u64; simpl; lia).
  rewrite (avg_blocks_loop w h Hw Hh Hwh blocks HB _ (U _)). cbn [fst snd].
  destruct (add_frames_ok w h Hw Hh Hwh (all_frames blocks) (all_frames_ok w h blocks HB) HN
     (repeat (d_of_Z 0) (Z.to_nat (w * h)))) as (img1 & E1 & L1 & V1).
  { rewrite Zlen_repeat. nia. }
  { intros j Hj. rewrite dat_repeat0. apply (dval_of_int 0). lia. }
  rewrite E1. cbn [bind fst snd]. rewrite Z.add_0_l. fold N.
  rewrite (u64_id N) by (unfold is_u64; lia).
  destruct (for_loop_pointwise (w * h) (fun i img =>
      let* o := rd img i in wr img i (d_div o (d_of_Z N))) (fun _ o => d_div o (d_of_Z N)) (d_of_Z 0) img1)
    as (img2 & E2 & L2 & V2); auto.
  { nia. }
  { intros i l' Hi HL'. rewrite (rd_ok l' i (d_of_Z 0)) by lia. reflexivity. }
  rewrite E2. cbn [bind]. exists img2. split; auto. split; auto.
  intros x y Hx Hy. pose proof (row_index w h x y Hx Hy) as Hj.
  unfold dat. rewrite V2 by auto. fold (dat img1 (y * w + x)).
  specialize (V1 _ Hj).
  assert (ES : zsum (map (pixel_of w h x y) (all_frames blocks)) =
               zsum (map (fun f => fpix w h f (y * w + x)) (all_frames blocks))).
  { apply zsum_map_ext. intros f _. apply pixel_of_fpix; auto. }
  rewrite ES. set (S := zsum _) in *.
  assert (HS : 0 <= S <= 2 ^ 53).
  { unfold S. split.
    - apply zsum_nonneg. intros v Hv. apply in_map_iff in Hv. destruct Hv as (f & <- & Hf).
      pose proof (all_frames_ok w h blocks HB) as HF. rewrite Forall_forall in HF.
      destruct (fpix_read w h Hw Hh Hwh f _ (HF f Hf) Hj) as (_ & _ & _ & U1). unfold is_u16 in U1. lia.
    - etransitivity; [apply (zsum_bound _ 65535)|rewrite Zlen_map; exact HN].
      intros v Hv. apply in_map_iff in Hv. destruct Hv as (f & <- & Hf).
      pose proof (all_frames_ok w h blocks HB) as HF. rewrite Forall_forall in HF.
      destruct (fpix_read w h Hw Hh Hwh f _ (HF f Hf) Hj) as (_ & _ & _ & U1). unfold is_u16 in U1. lia. }
  assert (HNr : (1 <= IZR N)%R) by (apply IZR_le; lia).
  apply dval_div; auto.
  - apply dval_of_int. lia.
  - lra.
  - apply Rle_trans with (bpow radix2 53); [|apply bpow_le; lia].
    apply Rabs_le. change (bpow radix2 53) with (IZR (2 ^ 53)).
    assert (0 <= IZR S <= IZR (2 ^ 53))%R by (split; apply IZR_le; lia).
    assert (0 <= IZR S / IZR N)%R by (apply Rle_mult_inv_pos; lra).
    assert (IZR S / IZR N <= IZR S)%R.
    { rewrite <- (Rmult_1_r (IZR S)) at 2. apply Rmult_le_compat_l; [lra|].
      rewrite <- Rinv_1. apply Rinv_le; lra. }
    lra.
Qed.

(** Blocks without any image: every pixel of the result is a NaN (0/0). *)
Theorem average_of_nothing :
  forall blocks w h, frames_input blocks w h -> Zlen (all_frames blocks) = 0 ->
    exists img, calculateAverage blocks = Ok ((w, h), img) /\ Zlen img = w * h /\
      forall j, 0 <= j < w * h -> is_nan 53 1024 (dat img j) = true.
Proof.
  intros blocks w h Hin HN. pose proof (first_dims_input _ _ _ Hin) as Hfd.
  destruct Hin as [Hne HB (Hw & Hh & Hwh)]. unfold calculateAverage. rewrite Hfd. cbn [fst snd].
  rewrite (u32_id (w * h)) by (unfold is_u32; nia).
  assert (U : forall img, is_u64 (snd (img : list double, 0))) by (intros; unfold is_u64; simpl; lia).
  rewrite (avg_blocks_loop w h Hw Hh Hwh blocks HB _ (U _)). cbn [fst snd]. rewrite HN.
  assert (EA : all_frames blocks = []) by (destruct (all_frames blocks); [auto|discriminate]).
  rewrite EA. cbn [for_each bind fst snd]. change (u64 (0 + 0)) with 0.
  destruct (for_loop_pointwise (w * h) (fun i img =>
      let* o := rd img i in wr img i (d_div o (d_of_Z 0))) (fun _ o => d_div o (d_of_Z 0)) (d_of_Z 0)
      (repeat (d_of_Z 0) (Z.to_nat (w * h))))
    as (img2 & E2 & L2 & V2); auto.
  { nia. }
  { rewrite Zlen_repeat. nia. }
  { intros i l' Hi HL'. rewrite (rd_ok l' i (d_of_Z 0)) by lia. reflexivity. }
  rewrite E2. cbn [bind]. exists img2. split; auto. split; auto.
  intros j Hj. unfold dat. rewrite V2 by auto.
  fold (dat (repeat (d_of_Z 0) (Z.to_nat (w * h))) j). rewrite dat_repeat0. reflexivity.
Qed.

(** The average does not depend on the order of the blocks. *)
Theorem average_order_independent :
  forall blocks blocks' w h, frames_input blocks w h -> Permutation blocks blocks' ->
    0 < Zlen (all_frames blocks) -> 65535 * Zlen (all_frames blocks) <= 2 ^ 53 ->
    exists img img', calculateAverage blocks = Ok ((w, h), img) /\
      calculateAverage blocks' = Ok ((w, h), img') /\
      forall x y, 0 <= x < w -> 0 <= y < h ->
        B2R 53 1024 (dat img (y * w + x)) = B2R 53 1024 (dat img' (y * w + x)).
Proof.
  intros blocks blocks' w h Hin HP H0 HN.
  assert (Hin' : frames_input blocks' w h).
  { destruct Hin as [Hne HB HF]. constructor; auto.
    - intros ->. apply Permutation_sym, Permutation_nil in HP. auto.
    - eapply Permutation_Forall; eauto. }
  assert (HA : Permutation (all_frames blocks) (all_frames blocks')) by (apply Permutation_flat_map; auto).
  assert (HL : Zlen (all_frames blocks') = Zlen (all_frames blocks))
    by (unfold Zlen; rewrite (Permutation_length HA); auto).
  destruct (average_correct _ _ _ Hin H0 HN) as (img & E & _ & V).
  destruct (average_correct _ _ _ Hin') as (img' & E' & _ & V'); [lia|lia|].
  exists img, img'. split; auto. split; auto. intros x y Hx Hy.
  destruct (V x y Hx Hy) as (_ & ->). destruct (V' x y Hx Hy) as (_ & ->).
  rewrite HL. do 3 f_equal. apply zsum_perm, Permutation_map; auto.
Qed.

(** ** C11: pixel (x,y) of the maximum pattern is exactly the largest value of
    that pixel over all frames (0 if there is none). *)
Theorem maximum_pattern_correct :
  forall blocks w h, frames_input blocks w h ->
    exists img, maximumDiffractionPattern_nodark blocks = Ok ((w, h), img) /\ Zlen img = w * h /\
      forall x y, 0 <= x < w -> 0 <= y < h ->
        exists m, is_max0 (map (pixel_of w h x y) (all_frames blocks)) m /\
                  dval (dat img (y * w + x)) (IZR m).
Proof.
  intros blocks w h Hin. pose proof (first_dims_input _ _ _ Hin) as Hfd.
  destruct Hin as [Hne HB (Hw & Hh & Hwh)].
  unfold maximumDiffractionPattern_nodark, maximumDiffractionPattern. rewrite Hfd. cbn [fst snd].
  rewrite (u32_id (w * h)) by (unfold is_u32; nia).
  rewrite (max_blocks_loop w h Hw Hh Hwh blocks HB).
  destruct (max_frames_ok w h Hw Hh Hwh (all_frames blocks) (all_frames_ok w h blocks HB)
     (repeat (d_of_Z 0) (Z.to_nat (w * h)))) as (img & E & L & V).
  { rewrite Zlen_repeat. nia. }
  { intros j Hj. apply dat_repeat0. }
  rewrite E. cbn [bind]. exists img. split; auto. split; auto.
  intros x y Hx Hy. destruct (V _ (row_index w h x y Hx Hy)) as (m & Em & M & U). exists m.
  assert (EM : map (pixel_of w h x y) (all_frames blocks) =
               map (fun f => fpix w h f (y * w + x)) (all_frames blocks)).
  { apply map_ext. intros f. apply pixel_of_fpix; auto. }
  rewrite EM, Em. split; auto. apply dval_of_int. unfold is_u16 in U. lia.
Qed.

(** With a dark reference of the frame size, the dark value is subtracted. *)
Theorem maximum_pattern_dark_correct :
  forall blocks w h dark (g : Z -> R), frames_input blocks w h -> 0 < w ->
    Zlen dark = w * h ->
    (forall j, 0 <= j < w * h -> dval (dat dark j) (g j) /\ (Rabs (g j) <= bpow radix2 128)%R) ->
    exists img, maximumDiffractionPattern blocks ((w, h), dark) = Ok ((w, h), img) /\ Zlen img = w * h /\
      forall x y, 0 <= x < w -> 0 <= y < h ->
        exists m, is_max0 (map (pixel_of w h x y) (all_frames blocks)) m /\
                  dval (dat img (y * w + x)) (d_rnd (IZR m - g (y * w + x))).
Proof.
  intros blocks w h dark g Hin Hw0 HLd Hg. pose proof (first_dims_input _ _ _ Hin) as Hfd.
  destruct Hin as [Hne HB (Hw & Hh & Hwh)].
  unfold maximumDiffractionPattern. rewrite Hfd. cbn [fst snd].
  rewrite (u32_id (w * h)) by (unfold is_u32; nia).
  rewrite (max_blocks_loop w h Hw Hh Hwh blocks HB).
  destruct (max_frames_ok w h Hw Hh Hwh (all_frames blocks) (all_frames_ok w h blocks HB)
     (repeat (d_of_Z 0) (Z.to_nat (w * h)))) as (img & E & L & V).
  { rewrite Zlen_repeat. nia. }
  { intros j Hj. apply dat_repeat0. }
  rewrite E. cbn [bind]. destruct (Z.ltb_spec 0 w); [|lia].
  destruct (for_loop_pointwise (w * h) (fun i img =>
      let* o := rd img i in let* k := rd dark i in wr img i (d_sub o k))
      (fun i o => d_sub o (dat dark i)) (d_of_Z 0) img) as (img2 & E2 & L2 & V2); auto.
  { nia. }
  { intros i l' Hi HL'. rewrite (rd_ok l' i (d_of_Z 0)) by lia. cbn [bind].
    rewrite (rd_ok dark i (d_of_Z 0)) by lia. reflexivity. }
  rewrite E2. cbn [bind]. exists img2. split; auto. split; auto.
  intros x y Hx Hy. pose proof (row_index w h x y Hx Hy) as Hj.
  destruct (V _ Hj) as (m & Em & M & U). exists m.
  assert (EM : map (pixel_of w h x y) (all_frames blocks) =
               map (fun f => fpix w h f (y * w + x)) (all_frames blocks)).
  { apply map_ext. intros f. apply pixel_of_fpix; auto. }
  rewrite EM. split; auto. unfold dat. rewrite V2 by auto. fold (dat img (y * w + x)).
  rewrite Em. destruct (Hg _ Hj) as (Dg & Bg). unfold is_u16 in U. apply dval_sub; auto.
  - apply dval_of_int. lia.
  - unfold Rminus. eapply Rle_trans; [apply Rabs_triang|]. rewrite Rabs_Ropp.
    apply Rle_trans with (bpow radix2 128 + bpow radix2 128)%R.
    + apply Rplus_le_compat; auto. apply Rle_trans with (bpow radix2 53); [apply bpow_int_le; lia|apply bpow_le; lia].
    + replace (bpow radix2 128 + bpow radix2 128)%R with (bpow radix2 129); [apply bpow_le; lia|].
      change 129 with (128 + 1). rewrite bpow_plus_1. change (IZR radix2) with 2%R. lra.
Qed.

(** Insensitive to the order of the blocks. *)
Theorem maximum_pattern_order_independent :
  forall blocks blocks' w h, frames_input blocks w h -> Permutation blocks blocks' ->
    exists img img', maximumDiffractionPattern_nodark blocks = Ok ((w, h), img) /\
      maximumDiffractionPattern_nodark blocks' = Ok ((w, h), img') /\
      forall x y, 0 <= x < w -> 0 <= y < h ->
        B2R 53 1024 (dat img (y * w + x)) = B2R 53 1024 (dat img' (y * w + x)).
Proof.
  intros blocks blocks' w h Hin HP.
  assert (Hin' : frames_input blocks' w h).
  { destruct Hin as [Hne HB HF]. constructor; auto.
    - intros ->. apply Permutation_sym, Permutation_nil in HP. auto.
    - eapply Permutation_Forall; eauto. }
  assert (HA : Permutation (all_frames blocks) (all_frames blocks')) by (apply Permutation_flat_map; auto).
  destruct (maximum_pattern_correct _ _ _ Hin) as (img & E & _ & V).
  destruct (maximum_pattern_correct _ _ _ Hin') as (img' & E' & _ & V').
  exists img, img'. split; auto. split; auto. intros x y Hx Hy.
  destruct (V x y Hx Hy) as (m & (M1 & M2 & M3) & _ & ->).
  destruct (V' x y Hx Hy) as (m' & (M1' & M2' & M3') & _ & ->). f_equal.
  assert (P : Permutation (map (pixel_of w h x y) (all_frames blocks))
                          (map (pixel_of w h x y) (all_frames blocks')))
    by (apply Permutation_map; auto).
  assert (m <= m').
  { destruct M1 as [->|M1]; [lia|]. apply M3'. eapply Permutation_in; eauto. }
  assert (m' <= m).
  { destruct M1' as [->|M1']; [lia|]. apply M3. eapply Permutation_in; [symmetry; eauto|auto]. }
  lia.
Qed.

(** A dark reference smaller than the frame is read out of bounds; one of width
    0 is ignored. *)
Theorem maximum_pattern_small_dark_undefined :
  maximumDiffractionPattern
    [mkBlock (mkHeader (1, 1) (2, 1) 1 1 0 0 0 [0] []) (Some [7; 9])] ((1, 1), [d_of_Z 3]) =
  UB "index past the end".
Proof. vm_compute. reflexivity. Qed.

Definition ex_images : list block :=
  [ mkBlock (mkHeader (2, 1) (2, 2) 2 1 0 0 0 [0; 1] []) (Some [1; 2; 3; 4; 10; 20; 30; 40]);
    mkBlock (mkHeader (2, 1) (2, 2) 1 1 0 0 0 [1] []) (Some [100; 7; 300; 8]) ].

Example frames_input_example :
  frames_input ex_images 2 2 /\ Zlen (all_frames ex_images) = 3.
Proof.
  split; [|reflexivity]. constructor; try discriminate; try lia.
  repeat constructor; simpl; try lia; eexists; (split; [reflexivity|]); (split; [reflexivity|]);
    (split; [reflexivity|]); repeat constructor; simpl; lia.
Qed.

Example average_example :
  match calculateAverage ex_images with
  | Ok (d, img) => d = (2, 2) /\ map (fun x => d_eq x (d_of_Z 37)) img = [true; false; false; false]
  | _ => False
  end.
Proof. vm_compute. auto. Qed.

Example maximum_example :
  match maximumDiffractionPattern_nodark ex_images with
  | Ok (d, img) => d = (2, 2) /\ forallb (fun p => d_eq (fst p) (d_of_Z (snd p)))
                                   (combine img [100; 20; 300; 40]) = true
  | _ => False
  end.
Proof. vm_compute. auto. Qed.

Print Assumptions average_correct.
Print Assumptions average_of_nothing.
Print Assumptions average_order_independent.
Print Assumptions maximum_pattern_correct.
Print Assumptions maximum_pattern_dark_correct.
Print Assumptions maximum_pattern_order_independent.
Print Assumptions maximum_pattern_small_dark_undefined.
