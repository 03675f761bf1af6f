(** C++ [float]: IEEE 754 binary32 with round to nearest even (Flocq).
    [fval x r]: the float [x] is finite and is the real [r]. *)
From Coq Require Import ZArith Reals Lia Lra Bool.
From Flocq Require Import Core.
From Flocq Require Import IEEE754.BinarySingleNaN IEEE754.Binary IEEE754.Bits.
Open Scope Z_scope.

Definition float32 := binary32.
Definition f_of_Z (z : Z) : float32 := binary_normalize 24 128 eq_refl eq_refl mode_NE z 0 false.
Definition f_div : float32 -> float32 -> float32 := b32_div mode_NE.
Definition f_eq (x y : float32) : bool :=
  match b32_compare x y with Some Eq => true | _ => false end.
Definition f_nan (x : float32) : bool := is_nan 24 128 x.

Notation f_exp := (FLT_exp (-149) 24).
Definition f_rnd (r : R) : R := round radix2 f_exp ZnearestE r.
Definition fval (x : float32) (r : R) : Prop :=
  is_finite 24 128 x = true /\ B2R 24 128 x = r.

#[global] Instance f_exp_valid : Valid_exp f_exp.
Proof. apply FLT_exp_valid. reflexivity. Qed.

Lemma f_rnd_le a b : (a <= b)%R -> (f_rnd a <= f_rnd b)%R.
Proof. apply round_le; auto with typeclass_instances. Qed.

Lemma f_rnd_id r : generic_format radix2 f_exp r -> f_rnd r = r.
Proof. apply round_generic; auto with typeclass_instances. Qed.

Lemma int_float k : Z.abs k <= 2 ^ 24 -> generic_format radix2 f_exp (IZR k).
Proof.
  intros Hk. destruct (Z.eq_dec (Z.abs k) (2 ^ 24)) as [E|N].
  - assert (H : generic_format radix2 f_exp (bpow radix2 24)).
    { apply generic_format_bpow. unfold FLT_exp. simpl. lia. }
    change (bpow radix2 24) with (IZR (2 ^ 24)) in H. rewrite <- E in H.
    destruct (Z.abs_eq_or_opp k) as [Ek|Ek]; rewrite Ek in H; auto.
    rewrite opp_IZR in H. apply generic_format_opp in H. rewrite Ropp_involutive in H. auto.
  - apply generic_format_FLT. exists (Float radix2 k 0); simpl; try lia.
    unfold F2R. simpl. lra.
Qed.

Lemma f_rnd_int k : Z.abs k <= 2 ^ 24 -> f_rnd (IZR k) = IZR k.
Proof. intros; apply f_rnd_id, int_float; auto. Qed.

Lemma f_no_overflow a : (Rabs a <= bpow radix2 100)%R ->
  Rlt_bool (Rabs (f_rnd a)) (bpow radix2 128) = true.
Proof.
  intros H. apply Rlt_bool_true. apply Rle_lt_trans with (bpow radix2 100).
  - apply abs_round_le_generic; auto with typeclass_instances.
    apply generic_format_bpow. unfold FLT_exp. lia.
  - apply bpow_lt. lia.
Qed.

Lemma fval_of_Z z : (Rabs (IZR z) <= bpow radix2 100)%R -> fval (f_of_Z z) (f_rnd (IZR z)).
Proof.
  intros H. unfold f_of_Z.
  pose proof (binary_normalize_correct 24 128 eq_refl eq_refl mode_NE z 0 false) as C.
  assert (E : F2R (Float radix2 z 0) = IZR z) by (unfold F2R; simpl; lra). rewrite E in C.
  change (round radix2 (SpecFloat.fexp 24 128) (round_mode mode_NE) (IZR z)) with (f_rnd (IZR z)) in C.
  rewrite f_no_overflow in C by auto. destruct C as (C1 & C2 & _). split; auto.
Qed.

Lemma fval_of_int z : 0 <= z < 2 ^ 64 -> fval (f_of_Z z) (f_rnd (IZR z)).
Proof.
  intros H. apply fval_of_Z. apply Rle_trans with (bpow radix2 64).
  - rewrite Rabs_pos_eq by (apply IZR_le; lia). rewrite <- IZR_Zpower by lia. apply IZR_le.
    change (radix2 ^ 64) with (2 ^ 64). lia.
  - apply bpow_le. lia.
Qed.

Lemma fval_div x y a b : fval x a -> fval y b -> b <> 0%R -> (Rabs (a / b) <= bpow radix2 100)%R ->
  fval (f_div x y) (f_rnd (a / b)).
Proof.
  intros (Fx & <-) (Fy & <-) Hb H. unfold f_div, b32_div.
  pose proof (Bdiv_correct 24 128 eq_refl eq_refl binop_nan_pl32 mode_NE x y Hb) as C.
  change (round radix2 (SpecFloat.fexp 24 128) (round_mode mode_NE)) with f_rnd in C.
  rewrite f_no_overflow in C by auto. destruct C as (C1 & C2 & _). split; auto.
  rewrite Fx in C2. exact C2.
Qed.

Lemma fval_eq x y a b : fval x a -> fval y b -> f_eq x y = Req_bool a b.
Proof.
  intros (Fx & <-) (Fy & <-). unfold f_eq.
  pose proof (Bcompare_correct 24 128 x y Fx Fy) as E.
  change (b32_compare x y) with (Bcompare 24 128 x y). rewrite E.
  destruct (Rcompare_spec (B2R 24 128 x) (B2R 24 128 y));
    [rewrite Req_bool_false|rewrite Req_bool_true|rewrite Req_bool_false]; auto; lra.
Qed.

(** A quotient of integers up to 2^24 is rounded to 1 only if it is 1. *)
Lemma f_rnd_quotient_one n m :
  0 <= n <= 2 ^ 24 -> 0 < m <= 2 ^ 24 -> f_rnd (IZR n / IZR m) = 1%R -> n = m.
Proof.
  intros Hn Hm E. change (2 ^ 24) with 16777216 in *.
  assert (Hmr : (0 < IZR m)%R) by (apply IZR_lt; lia).
  destruct (Z.lt_trichotomy n m) as [Hlt|[?|Hgt]]; auto; exfalso.
  - assert (G : generic_format radix2 f_exp (16777215 / 16777216)%R).
    { apply generic_format_FLT. exists (Float radix2 16777215 (-24)); simpl; try lia.
      unfold F2R. simpl. lra. }
    assert (H : (IZR n / IZR m <= 16777215 / 16777216)%R).
    { apply Rmult_le_reg_r with (IZR m); auto. unfold Rdiv at 1.
      rewrite Rmult_assoc, Rinv_l, Rmult_1_r by lra.
      assert (H1 : (IZR n <= IZR m - 1)%R) by (rewrite <- minus_IZR; apply IZR_le; lia).
      assert (H2 : (IZR m <= 16777216)%R) by (apply IZR_le; lia). lra. }
    apply f_rnd_le in H. rewrite (f_rnd_id _ G), E in H. lra.
  - assert (G0 : generic_format radix2 f_exp (8388609 / 8388608)%R).
    { apply generic_format_FLT. exists (Float radix2 8388609 (-23)); simpl; try lia.
      unfold F2R. simpl. lra. }
    assert (Hx : (1 + 1 / 16777215 <= IZR n / IZR m)%R).
    { apply Rmult_le_reg_r with (IZR m); auto. unfold Rdiv at 2.
      rewrite Rmult_assoc, Rinv_l, Rmult_1_r by lra.
      assert (H1 : (IZR m + 1 <= IZR n)%R) by (rewrite <- plus_IZR; apply IZR_le; lia).
      assert (H2 : (IZR m <= 16777215)%R) by (apply IZR_le; lia). lra. }
    assert (Hr : (8388609 / 8388608 <= f_rnd (1 + 1 / 16777215))%R).
    { apply round_N_ge_midp; auto with typeclass_instances.
      assert (Ep : pred radix2 f_exp (8388609 / 8388608) = 1%R).
      { assert (E1 : succ radix2 f_exp 1 = (8388609 / 8388608)%R).
        { rewrite succ_eq_pos by lra. rewrite ulp_neq_0 by lra.
          unfold cexp. rewrite (mag_unique radix2 1 1).
          - simpl. lra.
          - rewrite Rabs_pos_eq by lra. simpl. lra. }
        rewrite <- E1. apply pred_succ; auto with typeclass_instances.
        apply (int_float 1). simpl. lia. }
      rewrite Ep. lra. }
    apply f_rnd_le in Hx. rewrite E in Hx. lra.
Qed.
