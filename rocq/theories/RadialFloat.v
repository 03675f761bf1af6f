(** Why [ceil_sqrt] may stand for std::ceil(sqrt(.)) in binary64
    (image.cpp:374-376, 387, 524): rounding the square root to nearest never
    moves it across an integer for arguments below 2^50. *)
From Coq Require Import ZArith Reals Lia Lra.
From Flocq Require Import Core.
From Flocq Require Import IEEE754.BinarySingleNaN IEEE754.Binary IEEE754.Bits.
From Verif Require Import Base RadialModel RadialProofs.
Open Scope Z_scope.

Local Notation fexp := (FLT_exp (-1074) 53).
Local Notation rnd := (round radix2 fexp ZnearestE).

#[local] Instance valid_fexp : Valid_exp fexp.
Proof. apply FLT_exp_valid. reflexivity. Qed.

Lemma int_format k : Z.abs k <= 2 ^ 53 -> generic_format radix2 fexp (IZR k).
Proof.
  intros Hk. destruct (Z.eq_dec (Z.abs k) (2 ^ 53)) as [E|N].
  - assert (H : generic_format radix2 fexp (bpow radix2 53)).
    { apply generic_format_bpow. unfold FLT_exp. simpl. lia. }
    change (bpow radix2 53) with (IZR (2 ^ 53)) in H. rewrite <- E in H.
    destruct (Z.abs_eq_or_opp k) as [Ek|Ek]; rewrite Ek in H; auto.
    rewrite opp_IZR in H. apply generic_format_opp in H. rewrite Ropp_involutive in H. auto.
  - apply generic_format_FLT. exists (Float radix2 k 0); simpl; try lia.
    + unfold F2R. simpl. lra.
Qed.

(** A number strictly between k-1 and k that is at least 2^-27 above k-1 rounds
    to something above k-1 and at most k, for 0 < k <= 2^26. *)
Lemma rnd_between k x : 0 < k <= 2 ^ 26 ->
  (IZR (k - 1) + bpow radix2 (-27) <= x <= IZR k)%R -> (IZR (k - 1) < rnd x <= IZR k)%R.
Proof.
  intros Hk (Hl & Hu). split.
  - apply Rlt_le_trans with (IZR (k - 1) + bpow radix2 (-27))%R.
    + pose proof (bpow_gt_0 radix2 (-27)). lra.
    + rewrite <- (round_generic radix2 fexp ZnearestE (IZR (k - 1) + bpow radix2 (-27))).
      * apply round_le; auto with typeclass_instances.
      * apply generic_format_FLT.
        exists (Float radix2 ((k - 1) * 2 ^ 27 + 1) (-27)); simpl; try lia.
        unfold F2R. cbn [Fnum Fexp]. rewrite plus_IZR, mult_IZR, Rmult_plus_distr_r, Rmult_1_l.
        f_equal. simpl. lra.
  - rewrite <- (round_generic radix2 fexp ZnearestE (IZR k)).
    + apply round_le; auto with typeclass_instances.
    + apply int_format. lia.
Qed.

Lemma ceil_sqrt_range n : 0 <= n < 2 ^ 50 -> 0 <= ceil_sqrt n <= 2 ^ 25.
Proof.
  intros Hn. destruct (ceil_sqrt_spec n ltac:(lia)) as (A & B & C). split; auto.
  destruct C as [->|C]; [lia|].
  apply Z.nlt_ge. intros G.
  assert (2 ^ 25 * 2 ^ 25 <= (ceil_sqrt n - 1) * (ceil_sqrt n - 1))
    by (apply Z.mul_le_mono_nonneg; lia). lia.
Qed.

Lemma sqrt_lower k n : 0 < k <= 2 ^ 25 -> (k - 1) * (k - 1) < n ->
  (IZR (k - 1) + bpow radix2 (-27) <= sqrt (IZR n))%R.
Proof.
  intros Hk Hn.
  assert (H0 : (0 <= IZR (k - 1))%R) by (apply IZR_le; lia).
  assert (Hb : (0 < bpow radix2 (-27))%R) by apply bpow_gt_0.
  rewrite <- (sqrt_square (IZR (k - 1) + bpow radix2 (-27))) by lra.
  apply sqrt_le_1_alt.
  apply Rle_trans with (IZR ((k - 1) * (k - 1) + 1)); [|apply IZR_le; lia].
  rewrite plus_IZR, mult_IZR.
  assert (H1 : (IZR (k - 1) <= bpow radix2 25)%R)
    by (change (bpow radix2 25) with (IZR (2 ^ 25)); apply IZR_le; lia).
  assert (H2 : (IZR (k - 1) * bpow radix2 (-27) <= bpow radix2 (-2))%R).
  { apply Rle_trans with (bpow radix2 25 * bpow radix2 (-27))%R.
    - apply Rmult_le_compat_r; lra.
    - rewrite <- bpow_plus. apply Rle_refl. }
  assert (H3 : (bpow radix2 (-27) * bpow radix2 (-27) <= bpow radix2 (-2))%R).
  { rewrite <- bpow_plus. apply bpow_le. lia. }
  change (bpow radix2 (-2)) with (/ 4)%R in *. lra.
Qed.

Theorem ceil_sqrt_rounded n : 0 <= n < 2 ^ 50 ->
  Zceil (rnd (sqrt (IZR n))) = ceil_sqrt n.
Proof.
  intros Hn. destruct (ceil_sqrt_spec n ltac:(lia)) as (A & B & C).
  pose proof (ceil_sqrt_range n Hn) as Hr. set (k := ceil_sqrt n) in *.
  assert (Hle : (sqrt (IZR n) <= IZR k)%R).
  { rewrite <- (sqrt_square (IZR k)) by (apply IZR_le; lia).
    apply sqrt_le_1_alt. rewrite <- mult_IZR. apply IZR_le. lia. }
  destruct (Z.eq_dec k 0) as [E|N].
  - assert (n = 0) by (rewrite E in B; lia). subst n. rewrite sqrt_0, round_0 by auto with typeclass_instances.
    rewrite E. apply Zceil_IZR.
  - destruct C as [|C]; [lia|].
    destruct (rnd_between k (sqrt (IZR n))) as (L & U); [lia| |].
    + split; auto. apply sqrt_lower; auto; lia.
    + apply Zceil_imp. auto.
Qed.

(** The same about IEEE 754 binary64 numbers: if [x] is the binary64 number of
    integer value [n], the binary64 square root of [x] is finite and its ceiling
    is [ceil_sqrt n]. *)
Theorem binary64_ceil_sqrt :
  forall (x : binary64) (n : Z),
    is_finite 53 1024 x = true -> B2R 53 1024 x = IZR n -> 0 <= n < 2 ^ 50 ->
    Zceil (B2R 53 1024 (b64_sqrt mode_NE x)) = ceil_sqrt n.
Proof.
  intros x n Hf Hx Hn. unfold b64_sqrt.
  pose proof (Bsqrt_correct 53 1024 eq_refl eq_refl unop_nan_pl64 mode_NE x) as (H & _).
  rewrite H, Hx. apply ceil_sqrt_rounded. auto.
Qed.

(** Squares and sums of squares of ints below 2^24 are exact in binary64. *)
Theorem binary64_square_sum_exact :
  forall dx dy, Z.abs dx <= 2 ^ 24 -> Z.abs dy <= 2 ^ 24 ->
    rnd (rnd (IZR dx * IZR dx) + rnd (IZR dy * IZR dy)) = IZR (dx * dx + dy * dy) /\
    0 <= dx * dx + dy * dy < 2 ^ 50.
Proof.
  intros dx dy Hx Hy. rewrite <- !mult_IZR.
  assert (0 <= dx * dx <= 2 ^ 48) by nia. assert (0 <= dy * dy <= 2 ^ 48) by nia.
  rewrite !(round_generic radix2 fexp ZnearestE (IZR (_ * _))) by (apply int_format; lia).
  rewrite <- plus_IZR. split; [|lia].
  apply round_generic; auto with typeclass_instances. apply int_format. lia.
Qed.

(** Non-vacuity: the binary64 number 2 (bits 0x4000000000000000). *)
Example binary64_two : is_finite 53 1024 (b64_of_bits 4611686018427387904) = true /\
  B2R 53 1024 (b64_of_bits 4611686018427387904) = 2%R /\ ceil_sqrt 2 = 2.
Proof. split; [reflexivity|]. split; [|reflexivity]. unfold b64_of_bits. simpl. unfold F2R. simpl. lra. Qed.

Print Assumptions ceil_sqrt_rounded.
Print Assumptions binary64_ceil_sqrt.
Print Assumptions binary64_square_sum_exact.
