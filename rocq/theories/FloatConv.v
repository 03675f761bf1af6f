(** Conversions between binary32 and binary64 and square roots, as NumPy does
    them (round to nearest even), with their exactness facts. *)
From Coq Require Import ZArith Reals Lia Lra Bool.
From Flocq Require Import Core.
From Flocq Require Import IEEE754.BinarySingleNaN IEEE754.Binary IEEE754.Bits.
From Verif Require Import Double Float32.
Open Scope Z_scope.

Local Arguments Z.mul : simpl never.
Local Arguments Z.add : simpl never.
Local Arguments Z.pow : simpl never.

(** The NaN NumPy writes ([np.nan], and 0 / 0). *)
Definition d_NaN : double := B754_nan 53 1024 false 2251799813685248 eq_refl.
Definition f_NaN : float32 := B754_nan 24 128 false 4194304 eq_refl.

(** [astype(np.float64)] of a float32 and the other way round. *)
Definition d_of_f (x : float32) : double :=
  match x with
  | B754_zero _ _ s => B754_zero 53 1024 s
  | B754_infinity _ _ s => B754_infinity 53 1024 s
  | B754_nan _ _ _ _ _ => d_NaN
  | B754_finite _ _ s m e _ =>
      binary_normalize 53 1024 eq_refl eq_refl mode_NE (cond_Zopp s (Zpos m)) e s
  end.
Definition f_of_d (x : double) : float32 :=
  match x with
  | B754_zero _ _ s => B754_zero 24 128 s
  | B754_infinity _ _ s => B754_infinity 24 128 s
  | B754_nan _ _ _ _ _ => f_NaN
  | B754_finite _ _ s m e _ =>
      binary_normalize 24 128 eq_refl eq_refl mode_NE (cond_Zopp s (Zpos m)) e s
  end.

Definition d_sqrt : double -> double := b64_sqrt mode_NE.
Definition f_sqrt : float32 -> float32 := b32_sqrt mode_NE.
Definition f_sub : float32 -> float32 -> float32 := b32_minus mode_NE.
Definition f_mul : float32 -> float32 -> float32 := b32_mult mode_NE.
Definition f_le (x y : float32) : bool :=
  match b32_compare x y with Some Lt | Some Eq => true | _ => false end.

(** * Integers as doubles: equality of the representations *)
Definition dpos (x : double) (z : Z) : Prop :=
  is_finite 53 1024 x = true /\ B2R 53 1024 x = IZR z /\ Bsign 53 1024 x = false.

Lemma dpos_of_Z z : 0 <= z <= 2 ^ 53 -> dpos (d_of_Z z) z.
Proof.
  intros H. destruct (dval_of_int z) as [A B]; [lia|].
  split; [exact A|]. split; [exact B|].
  unfold d_of_Z in *.
  pose proof (binary_normalize_correct 53 1024 eq_refl eq_refl mode_NE z 0 false) as C.
  assert (E : F2R (Float radix2 z 0) = IZR z) by (unfold F2R; simpl; lra). rewrite E in C.
  change (round radix2 (SpecFloat.fexp 53 1024) (round_mode mode_NE) (IZR z)) with (d_rnd (IZR z)) in C.
  rewrite no_overflow in C.
  2:{ apply Rle_trans with (bpow radix2 53); [apply bpow_int_le; lia|apply bpow_le; lia]. }
  destruct C as (_ & _ & C3). rewrite C3.
  assert (0 <= IZR z)%R by (apply IZR_le; lia).
  destruct (Rcompare_spec (IZR z) 0); auto. lra.
Qed.

Lemma dpos_eq x z : 0 <= z <= 2 ^ 53 -> dpos x z -> x = d_of_Z z.
Proof.
  intros H (A & B & C). destruct (dpos_of_Z z H) as (A' & B' & C').
  apply B2R_Bsign_inj; auto; congruence.
Qed.

Lemma dpos_add x y a b : dpos x a -> dpos y b -> 0 <= a -> 0 <= b -> a + b <= 2 ^ 53 ->
  dpos (d_add x y) (a + b).
Proof.
  intros (Fx & Ex & Sx) (Fy & Ey & Sy) Ha Hb H.
  unfold d_add, b64_plus.
  pose proof (Bplus_correct 53 1024 eq_refl eq_refl binop_nan_pl64 mode_NE x y Fx Fy) as C.
  change (round radix2 (SpecFloat.fexp 53 1024) (round_mode mode_NE)) with d_rnd in C.
  rewrite Ex, Ey, <- plus_IZR in C. rewrite no_overflow in C.
  2:{ apply Rle_trans with (bpow radix2 53); [apply bpow_int_le; lia|apply bpow_le; lia]. }
  rewrite d_rnd_int in C by lia. destruct C as (C1 & C2 & C3).
  split; [exact C2|]. split; [exact C1|].
  rewrite C3, Sx, Sy. assert (0 <= IZR (a + b))%R by (apply IZR_le; lia).
  destruct (Rcompare_spec (IZR (a + b)) 0); auto. lra.
Qed.

(** * float32 integers widened *)
Lemma f_of_Z_sign z : 0 <= z <= 2 ^ 24 -> Bsign 24 128 (f_of_Z z) = false.
Proof.
  intros H. unfold f_of_Z.
  pose proof (binary_normalize_correct 24 128 eq_refl eq_refl mode_NE z 0 false) as C.
  assert (E : F2R (Float radix2 z 0) = IZR z) by (unfold F2R; simpl; lra). rewrite E in C.
  change (round radix2 (SpecFloat.fexp 24 128) (round_mode mode_NE) (IZR z)) with (f_rnd (IZR z)) in C.
  rewrite f_no_overflow in C.
  2:{ apply Rle_trans with (bpow radix2 24); [apply bpow_int_le; lia|apply bpow_le; lia]. }
  destruct C as (_ & _ & C3). rewrite C3.
  assert (0 <= IZR z)%R by (apply IZR_le; lia).
  destruct (Rcompare_spec (IZR z) 0); auto. lra.
Qed.

Lemma fval_exact z : Z.abs z <= 2 ^ 24 -> fval (f_of_Z z) (IZR z).
Proof.
  intros H. rewrite <- (f_rnd_int z H) at 1. apply fval_of_Z.
  apply Rle_trans with (bpow radix2 24); [apply bpow_int_le; lia|apply bpow_le; lia].
Qed.

Lemma d_of_f_int x z : fval x (IZR z) -> Bsign 24 128 x = false -> 0 <= z <= 2 ^ 53 ->
  d_of_f x = d_of_Z z.
Proof.
  intros (Fx & Ex) Sx H. apply dpos_eq; [exact H|].
  destruct x as [s|s|s p e|s m e Hm]; cbn in Fx; try discriminate; cbn in Sx; subst s.
  - cbn [d_of_f]. split; [reflexivity|]. split; [exact Ex|reflexivity].
  - cbn [d_of_f]. cbn [B2R] in Ex.
    pose proof (binary_normalize_correct 53 1024 eq_refl eq_refl mode_NE (cond_Zopp false (Zpos m)) e false) as C.
    rewrite Ex in C.
    change (round radix2 (SpecFloat.fexp 53 1024) (round_mode mode_NE) (IZR z)) with (d_rnd (IZR z)) in C.
    rewrite no_overflow in C.
    2:{ apply Rle_trans with (bpow radix2 53); [apply bpow_int_le; lia|apply bpow_le; lia]. }
    rewrite d_rnd_int in C by lia. destruct C as (C1 & C2 & C3).
    split; [exact C2|]. split; [exact C1|]. rewrite C3.
    assert (0 <= IZR z)%R by (apply IZR_le; lia).
    destruct (Rcompare_spec (IZR z) 0); auto. lra.
Qed.

Lemma widen_int z : 0 <= z <= 2 ^ 24 -> d_of_f (f_of_Z z) = d_of_Z z.
Proof.
  intros H. apply d_of_f_int.
  - apply fval_exact. lia.
  - now apply f_of_Z_sign.
  - assert (2 ^ 24 <= 2 ^ 53) by (apply Z.pow_le_mono_r; lia). lia.
Qed.

(** Narrowing rounds once more. *)
Lemma fval_of_d x a : dval x a -> (Rabs a <= bpow radix2 100)%R -> fval (f_of_d x) (f_rnd a).
Proof.
  intros (Fx & Ex) H.
  destruct x as [s|s|s p e|s m e Hm]; cbn in Fx; try discriminate.
  - cbn [f_of_d]. cbn in Ex. subst a. split; [reflexivity|].
    cbn [B2R]. symmetry. apply f_rnd_id. apply generic_format_0.
  - cbn [f_of_d]. cbn [B2R] in Ex.
    pose proof (binary_normalize_correct 24 128 eq_refl eq_refl mode_NE (cond_Zopp s (Zpos m)) e s) as C.
    rewrite Ex in C.
    change (round radix2 (SpecFloat.fexp 24 128) (round_mode mode_NE) a) with (f_rnd a) in C.
    rewrite f_no_overflow in C by exact H. destruct C as (C1 & C2 & _). split; assumption.
Qed.

(** * Square roots *)
Lemma dval_sqrt x a : dval x a -> (0 <= a)%R -> dval (d_sqrt x) (d_rnd (sqrt a)).
Proof.
  intros (Fx & Ex) H. unfold d_sqrt, b64_sqrt.
  pose proof (Bsqrt_correct 53 1024 eq_refl eq_refl unop_nan_pl64 mode_NE x) as C.
  change (round radix2 (SpecFloat.fexp 53 1024) (round_mode mode_NE)) with d_rnd in C.
  destruct C as (C1 & C2 & _). rewrite Ex in C1. split; [|exact C1].
  rewrite C2. destruct x as [s|s|s p e|s m e Hm]; cbn in Fx; try discriminate; auto.
  destruct s; auto. cbn [B2R] in Ex.
  assert (F2R (Float radix2 (cond_Zopp true (Zpos m)) e) < 0)%R by (apply F2R_lt_0; reflexivity).
  cbn [cond_Zopp] in *. lra.
Qed.

Lemma fval_sqrt x a : fval x a -> (0 <= a)%R -> fval (f_sqrt x) (f_rnd (sqrt a)).
Proof.
  intros (Fx & Ex) H. unfold f_sqrt, b32_sqrt.
  pose proof (Bsqrt_correct 24 128 eq_refl eq_refl unop_nan_pl32 mode_NE x) as C.
  change (round radix2 (SpecFloat.fexp 24 128) (round_mode mode_NE)) with f_rnd in C.
  destruct C as (C1 & C2 & _). rewrite Ex in C1. split; [|exact C1].
  rewrite C2. destruct x as [s|s|s p e|s m e Hm]; cbn in Fx; try discriminate; auto.
  destruct s; auto. cbn [B2R] in Ex.
  assert (F2R (Float radix2 (cond_Zopp true (Zpos m)) e) < 0)%R by (apply F2R_lt_0; reflexivity).
  cbn [cond_Zopp] in *. lra.
Qed.

(** Rounded square roots of integers against integers, for any binary rounding
    to nearest with [p] bits: c + 2^-t is a number of the format. *)
Section sqrt_cmp.
  Variable fexp : Z -> Z.
  Context {V : Valid_exp fexp}.
  Let rnd (x : R) : R := round radix2 fexp ZnearestE x.
  Variables (c k : Z) (d : R).
  Hypothesis Hc : generic_format radix2 fexp (IZR c).
  Hypothesis Hc0 : 0 <= c.

  Lemma rnd_mono x y : (x <= y)%R -> (rnd x <= rnd y)%R.
  Proof. apply round_le; auto with typeclass_instances. Qed.
  Lemma rnd_self x : generic_format radix2 fexp x -> rnd x = x.
  Proof. apply round_generic; auto with typeclass_instances. Qed.

  Lemma sqrt_le_int : k <= c * c -> (sqrt (IZR k) <= IZR c)%R.
  Proof.
    intros H. rewrite <- (sqrt_square (IZR c)) by (apply IZR_le; lia).
    apply sqrt_le_1_alt. rewrite <- mult_IZR. now apply IZR_le.
  Qed.

  Lemma sqrt_ge_int : c * c <= k -> (IZR c <= sqrt (IZR k))%R.
  Proof.
    intros H. rewrite <- (sqrt_square (IZR c)) at 1 by (apply IZR_le; lia).
    apply sqrt_le_1_alt. rewrite <- mult_IZR. now apply IZR_le.
  Qed.

  (** If c + d is a number of the format, 0 < d and 2 c d + d^2 <= 1, then
      roots of larger integers round to something larger than c. *)
  Lemma rnd_sqrt_le : (0 < d)%R -> (2 * IZR c * d + d * d <= 1)%R ->
    generic_format radix2 fexp (IZR c + d)%R ->
    ((rnd (sqrt (IZR k)) <= IZR c)%R <-> k <= c * c).
  Proof.
    intros Hd H1 Hf. split; intros H.
    - destruct (Z_lt_le_dec (c * c) k) as [L|L]; [|exact L]. exfalso.
      assert (A : (IZR c + d <= sqrt (IZR k))%R).
      { assert (0 <= IZR c)%R by (apply IZR_le; lia).
        rewrite <- (sqrt_square (IZR c + d)) by lra. apply sqrt_le_1_alt.
        apply Rle_trans with (IZR c * IZR c + 1)%R; [nra|].
        rewrite <- mult_IZR, <- plus_IZR. apply IZR_le. lia. }
      apply rnd_mono in A. rewrite (rnd_self _ Hf) in A. lra.
    - rewrite <- (rnd_self _ Hc). apply rnd_mono. now apply sqrt_le_int.
  Qed.

  Lemma rnd_sqrt_lt : (0 < d)%R -> (2 * IZR c * d <= 1)%R -> (d <= IZR c)%R ->
    generic_format radix2 fexp (IZR c - d)%R ->
    ((rnd (sqrt (IZR k)) < IZR c)%R <-> k < c * c).
  Proof.
    intros Hd H1 Hdc Hf. split; intros H.
    - destruct (Z_lt_le_dec k (c * c)) as [L|L]; [exact L|]. exfalso.
      pose proof (rnd_mono _ _ (sqrt_ge_int L)) as A. rewrite (rnd_self _ Hc) in A. lra.
    - assert (A : (sqrt (IZR k) <= IZR c - d)%R).
      { rewrite <- (sqrt_square (IZR c - d)) by lra. apply sqrt_le_1_alt.
        apply Rle_trans with (IZR c * IZR c - 1)%R; [|nra].
        rewrite <- mult_IZR, <- minus_IZR. apply IZR_le. lia. }
      apply rnd_mono in A. rewrite (rnd_self _ Hf) in A. lra.
  Qed.
End sqrt_cmp.

(** n 2^-t in a format with p bits. *)
Lemma scaled_format emin p n t : 0 < p -> Z.abs n < 2 ^ p -> emin <= - t ->
  generic_format radix2 (FLT_exp emin p) (IZR n * bpow radix2 (- t))%R.
Proof.
  intros Hp Hn He. apply generic_format_FLT. exists (Float radix2 n (- t)); auto.
Qed.

Lemma d_sqrt_bound c : 0 <= c <= 2 ^ 25 ->
  generic_format radix2 d_exp (IZR c + bpow radix2 (-27))%R /\
  generic_format radix2 d_exp (IZR c - bpow radix2 (-27))%R /\
  (2 * IZR c * bpow radix2 (-27) + bpow radix2 (-27) * bpow radix2 (-27) <= 1)%R.
Proof.
  intros H. change (2 ^ 25) with 33554432 in H.
  assert (B : bpow radix2 (-27) = (/ 134217728)%R) by reflexivity.
  assert (E : (IZR c = IZR (c * 134217728) * bpow radix2 (-27))%R).
  { rewrite mult_IZR, B. field. }
  split; [|split].
  - replace (IZR c + bpow radix2 (-27))%R with (IZR (c * 134217728 + 1) * bpow radix2 (-27))%R.
    + apply (scaled_format (-1074) 53 _ 27); [lia| |lia]. change (2 ^ 53) with 9007199254740992. lia.
    + rewrite plus_IZR, mult_IZR, B. field.
  - replace (IZR c - bpow radix2 (-27))%R with (IZR (c * 134217728 - 1) * bpow radix2 (-27))%R.
    + apply (scaled_format (-1074) 53 _ 27); [lia| |lia]. change (2 ^ 53) with 9007199254740992. lia.
    + rewrite minus_IZR, mult_IZR, B. field.
  - assert (IZR c <= 33554432)%R by (apply IZR_le; lia).
    assert (0 <= IZR c)%R by (apply IZR_le; lia). rewrite B. lra.
Qed.

(** Double precision square roots of integers compare with integers as the
    integers themselves do. *)
Lemma sqrt_dval k : 0 <= k <= 2 ^ 53 -> dval (d_sqrt (d_of_Z k)) (d_rnd (sqrt (IZR k))).
Proof.
  intros H. apply dval_sqrt; [apply dval_of_int; lia|]. apply IZR_le. lia.
Qed.

Lemma d_sqrt_le c k : 0 <= c <= 2 ^ 25 -> 0 <= k <= 2 ^ 53 ->
  d_le (d_sqrt (d_of_Z k)) (d_of_Z c) = (k <=? c * c).
Proof.
  intros Hc Hk.
  assert (Hc' : Z.abs c <= 2 ^ 53) by (change (2 ^ 53) with 9007199254740992; change (2 ^ 25) with 33554432 in Hc; lia).
  rewrite (dval_le _ _ _ _ (sqrt_dval k Hk) (dval_of_int c Hc')).
  destruct (d_sqrt_bound c Hc) as (F1 & _ & B).
  assert (D : (0 < bpow radix2 (-27))%R) by apply bpow_gt_0.
  pose proof (rnd_sqrt_le d_exp c k (bpow radix2 (-27)) (int_double c Hc') (proj1 Hc) D B F1) as X.
  cbv beta zeta in X. change (round radix2 d_exp ZnearestE (sqrt (IZR k))) with (d_rnd (sqrt (IZR k))) in X.
  destruct (Rle_bool_spec (d_rnd (sqrt (IZR k))) (IZR c)); symmetry.
  - apply Z.leb_le. now apply X.
  - apply Z.leb_gt. destruct (Z_lt_le_dec (c * c) k) as [L|L]; [exact L|]. apply X in L. exfalso. lra.
Qed.

Lemma d_sqrt_lt c k : 0 <= c <= 2 ^ 25 -> 0 <= k <= 2 ^ 53 ->
  d_lt (d_sqrt (d_of_Z k)) (d_of_Z c) = (k <? c * c).
Proof.
  intros Hc Hk.
  assert (Hc' : Z.abs c <= 2 ^ 53) by (change (2 ^ 53) with 9007199254740992; change (2 ^ 25) with 33554432 in Hc; lia).
  rewrite (dval_lt _ _ _ _ (sqrt_dval k Hk) (dval_of_int c Hc')).
  destruct (Z.eq_dec c 0) as [->|Hne].
  { rewrite Rlt_bool_false; [symmetry; apply Z.ltb_ge; lia|].
    apply d_rnd_nonneg, sqrt_pos. }
  destruct (d_sqrt_bound c Hc) as (_ & F2 & B).
  assert (D : (0 < bpow radix2 (-27))%R) by apply bpow_gt_0.
  assert (B1 : (2 * IZR c * bpow radix2 (-27) <= 1)%R).
  { assert (0 < bpow radix2 (-27) * bpow radix2 (-27))%R by (apply Rmult_lt_0_compat; exact D). lra. }
  assert (B2 : (bpow radix2 (-27) <= IZR c)%R).
  { apply Rle_trans with 1%R; [|apply IZR_le; lia]. change 1%R with (bpow radix2 0). apply bpow_le. lia. }
  pose proof (rnd_sqrt_lt d_exp c k (bpow radix2 (-27)) (int_double c Hc') (proj1 Hc) D B1 B2 F2) as X.
  cbv beta zeta in X. change (round radix2 d_exp ZnearestE (sqrt (IZR k))) with (d_rnd (sqrt (IZR k))) in X.
  destruct (Rlt_bool_spec (d_rnd (sqrt (IZR k))) (IZR c)); symmetry.
  - apply Z.ltb_lt. now apply X.
  - apply Z.ltb_ge. destruct (Z_lt_le_dec k (c * c)) as [L|L]; [|exact L]. apply X in L. exfalso. lra.
Qed.

(** * Single precision: exact on integers up to 2^24 *)
Lemma fval_compare x y a b : fval x a -> fval y b -> b32_compare x y = Some (Rcompare a b).
Proof. intros (Fx & <-) (Fy & <-). apply Bcompare_correct; auto. Qed.

Lemma fval_le x y a b : fval x a -> fval y b -> f_le x y = Rle_bool a b.
Proof.
  intros Hx Hy. unfold f_le. rewrite (fval_compare x y a b Hx Hy). unfold Rle_bool.
  destruct (Rcompare a b); reflexivity.
Qed.

Lemma fval_sub_int x y a b : fval x (IZR a) -> fval y (IZR b) -> Z.abs (a - b) <= 2 ^ 24 ->
  fval (f_sub x y) (IZR (a - b)).
Proof.
  intros (Fx & Ex) (Fy & Ey) H. unfold f_sub, b32_minus.
  pose proof (Bminus_correct 24 128 eq_refl eq_refl binop_nan_pl32 mode_NE x y Fx Fy) as C.
  change (round radix2 (SpecFloat.fexp 24 128) (round_mode mode_NE)) with f_rnd in C.
  rewrite Ex, Ey, <- minus_IZR in C. rewrite f_no_overflow in C.
  2:{ apply Rle_trans with (bpow radix2 24); [apply bpow_int_le; lia|apply bpow_le; lia]. }
  rewrite f_rnd_int in C by exact H. destruct C as (C1 & C2 & _). split; assumption.
Qed.

Lemma fval_mul_int x y a b : fval x (IZR a) -> fval y (IZR b) -> Z.abs (a * b) <= 2 ^ 24 ->
  fval (f_mul x y) (IZR (a * b)).
Proof.
  intros (Fx & Ex) (Fy & Ey) H. unfold f_mul, b32_mult.
  pose proof (Bmult_correct 24 128 eq_refl eq_refl binop_nan_pl32 mode_NE x y) as C.
  change (round radix2 (SpecFloat.fexp 24 128) (round_mode mode_NE)) with f_rnd in C.
  rewrite Ex, Ey, <- mult_IZR in C. rewrite f_no_overflow in C.
  2:{ apply Rle_trans with (bpow radix2 24); [apply bpow_int_le; lia|apply bpow_le; lia]. }
  rewrite f_rnd_int in C by exact H. destruct C as (C1 & C2 & _). split; [|assumption].
  rewrite C2, Fx, Fy. reflexivity.
Qed.

Lemma f_sqrt_le x y c k : fval x (IZR k) -> fval y (IZR c) -> 0 <= c < 2 ^ 11 -> 0 <= k <= 2 ^ 24 ->
  f_le (f_sqrt x) y = (k <=? c * c).
Proof.
  intros Hx Hy Hc Hk. change (2 ^ 11) with 2048 in Hc.
  assert (K0 : (0 <= IZR k)%R) by (apply IZR_le; lia).
  rewrite (fval_le _ _ _ _ (fval_sqrt x _ Hx K0) Hy).
  assert (B : bpow radix2 (-12) = (/ 4096)%R) by reflexivity.
  assert (F1 : generic_format radix2 f_exp (IZR c + bpow radix2 (-12))%R).
  { replace (IZR c + bpow radix2 (-12))%R with (IZR (c * 4096 + 1) * bpow radix2 (-12))%R.
    - apply (scaled_format (-149) 24 _ 12); [lia| |lia]. change (2 ^ 24) with 16777216. lia.
    - rewrite plus_IZR, mult_IZR, B. field. }
  assert (Q : (2 * IZR c * bpow radix2 (-12) + bpow radix2 (-12) * bpow radix2 (-12) <= 1)%R).
  { assert (IZR c <= 2047)%R by (apply IZR_le; lia).
    assert (0 <= IZR c)%R by (apply IZR_le; lia). rewrite B. lra. }
  assert (D : (0 < bpow radix2 (-12))%R) by apply bpow_gt_0.
  assert (Hc' : generic_format radix2 f_exp (IZR c)).
  { apply int_float. change (2 ^ 24) with 16777216. lia. }
  pose proof (rnd_sqrt_le f_exp c k (bpow radix2 (-12)) Hc' (proj1 Hc) D Q F1) as X.
  cbv beta zeta in X. change (round radix2 f_exp ZnearestE (sqrt (IZR k))) with (f_rnd (sqrt (IZR k))) in X.
  destruct (Rle_bool_spec (f_rnd (sqrt (IZR k))) (IZR c)); symmetry.
  - apply Z.leb_le. now apply X.
  - apply Z.leb_gt. destruct (Z_lt_le_dec (c * c) k) as [L|L]; [exact L|]. apply X in L. exfalso. lra.
Qed.
