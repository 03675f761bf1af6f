(** C++ [double]: IEEE 754 binary64 with round to nearest even, as formalised
    by Flocq.  [dval x r]: the double [x] is finite and is the real [r]. *)
From Coq Require Import ZArith Reals Lia Lra Bool.
From Flocq Require Import Core.
From Flocq Require Import IEEE754.BinarySingleNaN IEEE754.Binary IEEE754.Bits.
Open Scope Z_scope.

Definition double := binary64.
(** Conversion of an integer to double. *)
Definition d_of_Z (z : Z) : double := binary_normalize 53 1024 eq_refl eq_refl mode_NE z 0 false.
Definition d_add : double -> double -> double := b64_plus mode_NE.
Definition d_sub : double -> double -> double := b64_minus mode_NE.
Definition d_mul : double -> double -> double := b64_mult mode_NE.
Definition d_div : double -> double -> double := b64_div mode_NE.
Definition d_le (x y : double) : bool :=
  match b64_compare x y with Some Lt | Some Eq => true | _ => false end.
Definition d_lt (x y : double) : bool :=
  match b64_compare x y with Some Lt => true | _ => false end.
Definition d_eq (x y : double) : bool :=
  match b64_compare x y with Some Eq => true | _ => false end.

Notation d_exp := (FLT_exp (-1074) 53).
(** Rounding a real to the nearest double (unbounded exponent above). *)
Definition d_rnd (r : R) : R := round radix2 d_exp ZnearestE r.

Definition dval (x : double) (r : R) : Prop :=
  is_finite 53 1024 x = true /\ B2R 53 1024 x = r.

#[global] Instance d_exp_valid : Valid_exp d_exp.
Proof. apply FLT_exp_valid. reflexivity. Qed.

Lemma d_rnd_le a b : (a <= b)%R -> (d_rnd a <= d_rnd b)%R.
Proof. apply round_le; auto with typeclass_instances. Qed.

Lemma d_rnd_0 : d_rnd 0 = 0%R.
Proof. apply round_0; auto with typeclass_instances. Qed.

Lemma d_rnd_id r : generic_format radix2 d_exp r -> d_rnd r = r.
Proof. apply round_generic; auto with typeclass_instances. Qed.

Lemma d_rnd_nonneg a : (0 <= a)%R -> (0 <= d_rnd a)%R.
Proof. intros. rewrite <- d_rnd_0. apply d_rnd_le; auto. Qed.

Lemma d_rnd_rnd a : d_rnd (d_rnd a) = d_rnd a.
Proof. apply d_rnd_id. apply generic_format_round; auto with typeclass_instances. Qed.

Lemma int_double k : Z.abs k <= 2 ^ 53 -> generic_format radix2 d_exp (IZR k).
Proof.
  intros Hk. destruct (Z.eq_dec (Z.abs k) (2 ^ 53)) as [E|N].
  - assert (H : generic_format radix2 d_exp (bpow radix2 53)).
    { apply generic_format_bpow. unfold FLT_exp. simpl. lia. }
    change (bpow radix2 53) with (IZR (2 ^ 53)) in H. rewrite <- E in H.
    destruct (Z.abs_eq_or_opp k) as [Ek|Ek]; rewrite Ek in H; auto.
    rewrite opp_IZR in H. apply generic_format_opp in H. rewrite Ropp_involutive in H. auto.
  - apply generic_format_FLT. exists (Float radix2 k 0); simpl; try lia.
    unfold F2R. simpl. lra.
Qed.

Lemma d_rnd_int k : Z.abs k <= 2 ^ 53 -> d_rnd (IZR k) = IZR k.
Proof. intros; apply d_rnd_id, int_double; auto. Qed.

Lemma d_rnd_bpow_bound a e : (-1074 <= e)%Z -> (Rabs a <= bpow radix2 e)%R ->
  (Rabs (d_rnd a) <= bpow radix2 e)%R.
Proof.
  intros He Ha. apply abs_round_le_generic; auto with typeclass_instances.
  apply generic_format_bpow. unfold FLT_exp. lia.
Qed.

Lemma no_overflow a : (Rabs a <= bpow radix2 1000)%R ->
  Rlt_bool (Rabs (d_rnd a)) (bpow radix2 1024) = true.
Proof.
  intros H. apply Rlt_bool_true. apply Rle_lt_trans with (bpow radix2 1000).
  - apply d_rnd_bpow_bound; auto. lia.
  - apply bpow_lt. lia.
Qed.

Lemma dval_of_Z z : (Rabs (IZR z) <= bpow radix2 1000)%R -> dval (d_of_Z z) (d_rnd (IZR z)).
Proof.
  intros H. unfold d_of_Z.
  pose proof (binary_normalize_correct 53 1024 eq_refl eq_refl mode_NE z 0 false) as C.
  assert (E : F2R (Float radix2 z 0) = IZR z) by (unfold F2R; simpl; lra). rewrite E in C.
  change (round radix2 (SpecFloat.fexp 53 1024) (round_mode mode_NE) (IZR z)) with (d_rnd (IZR z)) in C.
  rewrite no_overflow in C by auto. destruct C as (C1 & C2 & _). split; auto.
Qed.

Lemma bpow_int_le z e : (0 <= e)%Z -> Z.abs z <= 2 ^ e -> (Rabs (IZR z) <= bpow radix2 e)%R.
Proof.
  intros He H. rewrite <- abs_IZR. rewrite <- IZR_Zpower by auto. apply IZR_le. exact H.
Qed.

Lemma dval_of_int z : Z.abs z <= 2 ^ 53 -> dval (d_of_Z z) (IZR z).
Proof.
  intros H. rewrite <- (d_rnd_int z) by auto. apply dval_of_Z.
  apply Rle_trans with (bpow radix2 53); [apply bpow_int_le; auto; lia|apply bpow_le; lia].
Qed.

Lemma dval_add x y a b : dval x a -> dval y b -> (Rabs (a + b) <= bpow radix2 1000)%R ->
  dval (d_add x y) (d_rnd (a + b)).
Proof.
  intros (Fx & <-) (Fy & <-) H. unfold d_add, b64_plus.
  pose proof (Bplus_correct 53 1024 eq_refl eq_refl binop_nan_pl64 mode_NE x y Fx Fy) as C.
  change (round radix2 (SpecFloat.fexp 53 1024) (round_mode mode_NE)) with d_rnd in C.
  rewrite no_overflow in C by auto. destruct C as (C1 & C2 & _). split; auto.
Qed.

Lemma dval_sub x y a b : dval x a -> dval y b -> (Rabs (a - b) <= bpow radix2 1000)%R ->
  dval (d_sub x y) (d_rnd (a - b)).
Proof.
  intros (Fx & <-) (Fy & <-) H. unfold d_sub, b64_minus.
  pose proof (Bminus_correct 53 1024 eq_refl eq_refl binop_nan_pl64 mode_NE x y Fx Fy) as C.
  change (round radix2 (SpecFloat.fexp 53 1024) (round_mode mode_NE)) with d_rnd in C.
  rewrite no_overflow in C by auto. destruct C as (C1 & C2 & _). split; auto.
Qed.

Lemma dval_mul x y a b : dval x a -> dval y b -> (Rabs (a * b) <= bpow radix2 1000)%R ->
  dval (d_mul x y) (d_rnd (a * b)).
Proof.
  intros (Fx & <-) (Fy & <-) H. unfold d_mul, b64_mult.
  pose proof (Bmult_correct 53 1024 eq_refl eq_refl binop_nan_pl64 mode_NE x y) as C.
  change (round radix2 (SpecFloat.fexp 53 1024) (round_mode mode_NE)) with d_rnd in C.
  rewrite no_overflow in C by auto. destruct C as (C1 & C2 & _). split; auto.
  rewrite Fx, Fy in C2. exact C2.
Qed.

Lemma dval_div x y a b : dval x a -> dval y b -> b <> 0%R -> (Rabs (a / b) <= bpow radix2 1000)%R ->
  dval (d_div x y) (d_rnd (a / b)).
Proof.
  intros (Fx & <-) (Fy & <-) Hb H. unfold d_div, b64_div.
  pose proof (Bdiv_correct 53 1024 eq_refl eq_refl binop_nan_pl64 mode_NE x y Hb) as C.
  change (round radix2 (SpecFloat.fexp 53 1024) (round_mode mode_NE)) with d_rnd in C.
  rewrite no_overflow in C by auto. destruct C as (C1 & C2 & _). split; auto.
  rewrite Fx in C2. exact C2.
Qed.

Lemma dval_compare x y a b : dval x a -> dval y b -> b64_compare x y = Some (Rcompare a b).
Proof. intros (Fx & <-) (Fy & <-). apply Bcompare_correct; auto. Qed.

Lemma dval_le x y a b : dval x a -> dval y b -> d_le x y = Rle_bool a b.
Proof.
  intros Hx Hy. unfold d_le. rewrite (dval_compare x y a b Hx Hy).
  destruct (Rcompare_spec a b); [rewrite Rle_bool_true|rewrite Rle_bool_true|rewrite Rle_bool_false]; auto; lra.
Qed.

Lemma dval_lt x y a b : dval x a -> dval y b -> d_lt x y = Rlt_bool a b.
Proof.
  intros Hx Hy. unfold d_lt. rewrite (dval_compare x y a b Hx Hy).
  destruct (Rcompare_spec a b); [rewrite Rlt_bool_true|rewrite Rlt_bool_false|rewrite Rlt_bool_false]; auto; lra.
Qed.

Lemma dval_eq x y a b : dval x a -> dval y b -> d_eq x y = Req_bool a b.
Proof.
  intros Hx Hy. unfold d_eq. rewrite (dval_compare x y a b Hx Hy).
  destruct (Rcompare_spec a b); [rewrite Req_bool_false|rewrite Req_bool_true|rewrite Req_bool_false]; auto; lra.
Qed.
