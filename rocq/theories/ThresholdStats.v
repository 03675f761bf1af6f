(** Mean and variance in double precision. *)
From Coq Require Import String ZArith List Reals Lia Lra Psatz.
From Flocq Require Import Core Relative Plus_error.
From Flocq Require Import IEEE754.BinarySingleNaN IEEE754.Binary IEEE754.Bits.
From Verif Require Import Base BaseFacts BlockModel Double Float32 FloatConv ThresholdModel ThresholdSpec.
Import ListNotations.
Open Scope Z_scope.

Local Arguments Z.mul : simpl never.
Local Arguments Z.add : simpl never.
Local Arguments Z.pow : simpl never.

(** * Truncation *)
Lemma trunc_fix a : round radix2 (FIX_exp 0) Ztrunc a = IZR (Ztrunc a).
Proof. unfold round, F2R, scaled_mantissa, cexp, FIX_exp. simpl. now rewrite !Rmult_1_r. Qed.

Lemma int_of_ok prec emax (x : binary_float prec emax) a lo hi : prec < emax ->
  is_finite prec emax x = true -> B2R prec emax x = a -> lo <= Ztrunc a <= hi ->
  int_of x lo hi = Ok (Ztrunc a).
Proof.
  intros PE F E H. unfold int_of. rewrite F.
  assert (Et : Binary.Btrunc prec emax x = Ztrunc a).
  { apply eq_IZR. rewrite (Btrunc_correct prec emax PE), E. apply trunc_fix. }
  rewrite Et. destruct (Z.leb_spec lo (Ztrunc a)); [|lia]. destruct (Z.leb_spec (Ztrunc a) hi); [reflexivity|lia].
Qed.

Lemma d_to_int_ok x a : dval x a -> - 2 ^ 31 <= Ztrunc a < 2 ^ 31 -> d_to_int x = Ok (Ztrunc a).
Proof. intros (F & E) H. apply int_of_ok; auto; lia. Qed.

(** * Mean *)
Lemma fold_mean l : forall a s, dval a (IZR s) -> 0 <= s -> (forall v, In v l -> 0 <= v) -> s + zsum l <= 2 ^ 53 ->
  dval (fold_left (fun a v => d_add a (d_of_Z v)) l a) (IZR (s + zsum l)).
Proof.
  induction l as [|v t IH]; intros a s Ha Hs Hv B; cbn [fold_left zsum] in *.
  - now rewrite Z.add_0_r.
  - assert (0 <= v) by (apply Hv; now left).
    assert (0 <= zsum t) by (apply zsum_nonneg; intros; apply Hv; now right).
    rewrite Z.add_assoc. apply IH; try lia; [|intros; apply Hv; now right].
    rewrite <- (d_rnd_int (s + v)) by lia. rewrite plus_IZR.
    apply dval_add; [exact Ha|apply dval_of_int; lia|].
    rewrite <- plus_IZR. apply Rle_trans with (bpow radix2 53); [apply bpow_int_le; lia|apply bpow_le; lia].
Qed.

Definition sane (l : list Z) : Prop := (forall v, In v l -> is_u16 v) /\ 0 < Zlen l < 2 ^ 31.

Lemma sane_sum l : sane l -> 0 <= zsum l <= 65535 * Zlen l.
Proof.
  intros [H _]. split; [apply zsum_nonneg; intros v Hv; apply H in Hv; unfold is_u16 in Hv; lia|].
  apply zsum_bound. intros v Hv. apply H in Hv. unfold is_u16 in Hv. lia.
Qed.

Lemma len_pos l : sane l -> (0 < IZR (Zlen l))%R.
Proof. intros [_ H]. apply (IZR_lt 0). lia. Qed.

Lemma mean_bounds l M : sane l -> (forall v, In v l -> v <= M) -> (0 <= mean_of l <= IZR M)%R.
Proof.
  intros H HM. pose proof (sane_sum l H) as S. pose proof (len_pos l H) as P. unfold mean_of. split.
  - apply Rmult_le_pos; [apply (IZR_le 0); lia|]. left. now apply Rinv_0_lt_compat.
  - apply Rmult_le_reg_r with (1 := P). unfold Rdiv. rewrite Rmult_assoc, Rinv_l, Rmult_1_r by lra.
    rewrite <- mult_IZR. apply IZR_le. now apply zsum_bound.
Qed.

Lemma u16_bound l : sane l -> forall v, In v l -> v <= 65535.
Proof. intros [H _] v Hv. apply H in Hv. unfold is_u16 in Hv. lia. Qed.

Lemma small_1000 a e : (e <= 1000)%Z -> (Rabs a <= bpow radix2 e)%R -> (Rabs a <= bpow radix2 1000)%R.
Proof. intros He H. apply Rle_trans with (1 := H). now apply bpow_le. Qed.

Lemma bpow_Z e : 0 <= e -> bpow radix2 e = IZR (2 ^ e).
Proof. intros. apply (eq_sym (IZR_Zpower radix2 e H)). Qed.

Lemma mean_ok l : sane l -> dval (calculate_mean l) (d_rnd (mean_of l)).
Proof.
  intros H. pose proof (sane_sum l H) as S. pose proof (len_pos l H) as P. pose proof H as [Hv Hl].
  unfold calculate_mean, mean_of. apply dval_div.
  - apply (fold_mean l (d_of_Z 0) 0); try lia.
    + apply dval_of_int. lia.
    + intros v Hi. apply Hv in Hi. unfold is_u16 in Hi. lia.
  - apply dval_of_int. lia.
  - lra.
  - pose proof (mean_bounds l 65535 H (u16_bound l H)) as B. unfold mean_of in B.
    apply small_1000 with 16; [lia|]. rewrite Rabs_pos_eq by lra. rewrite bpow_Z by lia.
    apply Rle_trans with (1 := proj2 B). apply IZR_le. lia.
Qed.

(** * Relative errors *)
Definition u : R := bpow radix2 (-53).
Definition L : R := (1 - u)%R.
Definition U : R := (1 + u)%R.

Lemma u_pos : (0 < u)%R. Proof. apply bpow_gt_0. Qed.
Lemma u_small : (u <= / 1000)%R.
Proof.
  apply Rle_trans with (bpow radix2 (-10)); [apply bpow_le; lia|].
  change (bpow radix2 (-10)) with (/ 1024)%R. lra.
Qed.

Lemma rel_err x : x = 0%R \/ (bpow radix2 (-1022) <= Rabs x)%R ->
  exists e, (Rabs e <= u)%R /\ d_rnd x = (x * (1 + e))%R.
Proof.
  intros [->|H].
  - exists 0%R. rewrite Rabs_R0. split; [left; apply u_pos|]. rewrite d_rnd_0. lra.
  - destruct (relative_error_N_FLT_ex radix2 (-1074) 53 eq_refl (fun x => negb (Z.even x)) x) as (e & He & E).
    { exact H. }
    exists e. split; [|exact E]. apply Rle_trans with (1 := He). right. unfold u.
    change (/ 2)%R with (bpow radix2 (-1)). rewrite <- bpow_plus. reflexivity.
Qed.

#[local] Instance prec53 : Prec_gt_0 53 := eq_refl.

Lemma rel_err_add x y : generic_format radix2 d_exp x -> generic_format radix2 d_exp y ->
  exists e, (Rabs e <= u)%R /\ d_rnd (x + y) = ((x + y) * (1 + e))%R.
Proof.
  intros Fx Fy.
  destruct (FLT_plus_error_N_ex radix2 (-1074) 53 (fun x => negb (Z.even x)) x y Fx Fy) as (e & He & E).
  exists e. split; [|exact E]. apply Rle_trans with (1 := He).
  assert (Eu : u_ro radix2 53 = u).
  { unfold u_ro, u. change (/ 2)%R with (bpow radix2 (-1)). rewrite <- bpow_plus. reflexivity. }
  rewrite Eu. pose proof u_pos. apply Rmult_le_reg_r with (1 + u)%R; [lra|].
  unfold Rdiv. rewrite Rmult_assoc, Rinv_l by lra. nra.
Qed.

Lemma dval_format x a : dval x a -> generic_format radix2 d_exp a.
Proof. intros (_ & <-). apply (generic_format_B2R 53 1024). Qed.

(** * Powers *)
Lemma U_pow n : (INR n * u <= / 2)%R -> (U ^ n <= 1 + 2 * INR n * u)%R.
Proof.
  pose proof u_pos as P. unfold U. induction n as [|n IH]; intros H; [simpl; lra|].
  rewrite S_INR in *. assert (Hn : (INR n * u <= / 2)%R) by lra. specialize (IH Hn).
  pose proof (pos_INR n). cbn [pow].
  apply Rle_trans with ((1 + u) * (1 + 2 * INR n * u))%R; [apply Rmult_le_compat_l; lra|]. nra.
Qed.

Lemma L_pow n : (1 - INR n * u <= L ^ n)%R.
Proof.
  pose proof u_pos as P. pose proof u_small as Q. unfold L. induction n as [|n IH]; [simpl; lra|].
  rewrite S_INR. cbn [pow]. pose proof (pos_INR n).
  apply Rle_trans with ((1 - u) * (1 - INR n * u))%R; [nra|]. apply Rmult_le_compat_l; lra.
Qed.

Lemma L_pos n : (0 < L ^ n)%R.
Proof. apply pow_lt. unfold L. pose proof u_small. lra. Qed.
Lemma U_pos n : (0 < U ^ n)%R.
Proof. apply pow_lt. unfold U. pose proof u_pos. lra. Qed.
Lemma L_le n m : (n <= m)%nat -> (L ^ m <= L ^ n)%R.
Proof.
  intros H. replace m with (n + (m - n))%nat by lia. rewrite pow_add. pose proof (L_pos n).
  rewrite <- (Rmult_1_r (L ^ n)) at 2. apply Rmult_le_compat_l; [lra|].
  rewrite <- (pow1 (m - n)). apply pow_incr. unfold L. pose proof u_small. pose proof u_pos. lra.
Qed.
Lemma U_le n m : (n <= m)%nat -> (U ^ n <= U ^ m)%R.
Proof. intros. apply Rle_pow; auto. unfold U. pose proof u_pos. lra. Qed.

(** [x] is [y >= 0] up to [k] roundings. *)
Definition near (k : nat) (x y : R) : Prop := (y * L ^ k <= x <= y * U ^ k)%R.

Lemma near_step k x y e : (0 <= y)%R -> near k x y -> (Rabs e <= u)%R -> near (S k) (x * (1 + e)) y.
Proof.
  intros Hy [A B] He. apply Rabs_le_inv in He. pose proof u_small. pose proof u_pos.
  pose proof (L_pos k). pose proof (U_pos k).
  assert (0 <= x)%R by (apply Rle_trans with (2 := A); apply Rmult_le_pos; lra).
  split; cbn [pow].
  - apply Rle_trans with (x * L)%R; [|apply Rmult_le_compat_l; unfold L; lra].
    replace (y * (L * L ^ k))%R with (y * L ^ k * L)%R by ring. apply Rmult_le_compat_r; [unfold L; lra|exact A].
  - apply Rle_trans with (x * U)%R; [apply Rmult_le_compat_l; unfold U; lra|].
    replace (y * (U * U ^ k))%R with (y * U ^ k * U)%R by ring. apply Rmult_le_compat_r; [unfold U; lra|exact B].
Qed.

Lemma near_mono k m x y : (0 <= y)%R -> (k <= m)%nat -> near k x y -> near m x y.
Proof.
  intros Hy Hk [A B]. split.
  - apply Rle_trans with (2 := A). apply Rmult_le_compat_l; [exact Hy|now apply L_le].
  - apply Rle_trans with (1 := B). apply Rmult_le_compat_l; [exact Hy|now apply U_le].
Qed.

Lemma near_add k x y x' y' : near k x y -> near k x' y' -> near k (x + x') (y + y').
Proof. unfold near. intros. lra. Qed.

(** * One squared difference *)
Lemma mean_grid l : sane l -> exists k, d_rnd (mean_of l) = (IZR k * bpow radix2 (-84))%R.
Proof.
  intros H. set (m := d_rnd (mean_of l)).
  assert (F : generic_format radix2 d_exp m) by (apply generic_format_round; auto with typeclass_instances).
  destruct (Z.eq_dec (zsum l) 0) as [E|N].
  { exists 0. unfold m, mean_of. rewrite E. unfold Rdiv. rewrite !Rmult_0_l, d_rnd_0. reflexivity. }
  pose proof (sane_sum l H) as S. pose proof (len_pos l H) as P. pose proof H as [_ Hl].
  assert (LB : (bpow radix2 (-31) <= m)%R).
  { unfold m. rewrite <- (d_rnd_id (bpow radix2 (-31))).
    2: { apply generic_format_bpow. unfold FLT_exp. lia. }
    apply d_rnd_le. unfold mean_of. apply Rmult_le_reg_r with (1 := P).
    unfold Rdiv. rewrite Rmult_assoc, Rinv_l, Rmult_1_r by lra.
    apply Rle_trans with (bpow radix2 (-31) * bpow radix2 31)%R.
    - apply Rmult_le_compat_l; [apply bpow_ge_0|]. rewrite bpow_Z by lia. apply IZR_le. lia.
    - rewrite <- bpow_plus. change (bpow radix2 (-31 + 31)) with 1%R. apply (IZR_le 1). lia. }
  assert (0 < bpow radix2 (-31))%R by apply bpow_gt_0.
  assert (G : (-31 < mag radix2 m)%Z).
  { apply mag_gt_bpow. rewrite Rabs_pos_eq by lra. exact LB. }
  unfold generic_format, F2R in F. cbn [Fnum Fexp] in F. unfold cexp, FLT_exp in F.
  set (e := Z.max (mag radix2 m - 53) (-1074)) in F.
  exists (Ztrunc (scaled_mantissa radix2 d_exp m) * 2 ^ (e + 84)).
  rewrite F at 1. rewrite mult_IZR, <- bpow_Z by lia. rewrite Rmult_assoc, <- bpow_plus.
  f_equal. f_equal. lia.
Qed.

Lemma grid_min k : k <> 0 -> (bpow radix2 (-84) <= Rabs (IZR k * bpow radix2 (-84)))%R.
Proof.
  intros H. rewrite Rabs_mult, (Rabs_pos_eq (bpow _ _)) by apply bpow_ge_0.
  rewrite <- (Rmult_1_l (bpow radix2 (-84))) at 1. apply Rmult_le_compat_r; [apply bpow_ge_0|].
  rewrite <- abs_IZR. apply (IZR_le 1). lia.
Qed.

Section Squares.
  Variables (mean : double) (m : R).
  Hypothesis Hm : dval mean m.
  Hypothesis Bm : (0 <= m <= 65535)%R.
  Hypothesis Gm : exists k, m = (IZR k * bpow radix2 (-84))%R.

  Lemma diff_grid v : (IZR v - m = 0 \/ bpow radix2 (-84) <= Rabs (IZR v - m))%R.
  Proof.
    destruct Gm as (k & E).
    assert (Ev : (IZR v - m = IZR (v * 2 ^ 84 - k) * bpow radix2 (-84))%R).
    { rewrite minus_IZR, mult_IZR, <- bpow_Z by lia. rewrite Rmult_minus_distr_r, Rmult_assoc, <- bpow_plus.
      change (bpow radix2 (84 + -84)) with 1%R. rewrite E. ring. }
    rewrite Ev. destruct (Z.eq_dec (v * 2 ^ 84 - k) 0) as [->|N]; [left; ring|right; now apply grid_min].
  Qed.

  Lemma square_ok v : is_u16 v ->
    exists q, dval (let t := d_sub (d_of_Z v) mean in d_mul t t) q /\
      near 3 q ((IZR v - m) * (IZR v - m)) /\ (0 <= q <= bpow radix2 40)%R.
  Proof.
    intros Hv. unfold is_u16 in Hv.
    assert (Bv : (0 <= IZR v <= 65535)%R) by (split; [apply (IZR_le 0)|apply (IZR_le _ 65535)]; lia).
    assert (Bd : (Rabs (IZR v - m) <= 65535)%R) by (apply Rabs_le; lra).
    assert (D : dval (d_sub (d_of_Z v) mean) (d_rnd (IZR v - m))).
    { apply dval_sub; [apply dval_of_int; lia|exact Hm|].
      apply small_1000 with 16; [lia|]. rewrite bpow_Z by lia. apply Rle_trans with (1 := Bd). apply IZR_le. lia. }
    pose proof u_small as Us. pose proof u_pos as Up.
    destruct (rel_err (IZR v - m)) as (e & He & E).
    { destruct (diff_grid v) as [Z|Z]; [now left|right]. apply Rle_trans with (2 := Z). apply bpow_le. lia. }
    set (t := d_rnd (IZR v - m)) in *. apply Rabs_le_inv in He.
    assert (Bt : (Rabs t <= bpow radix2 17)%R).
    { rewrite E, Rabs_mult. rewrite (Rabs_pos_eq (1 + e)) by lra. rewrite bpow_Z by lia. change (2 ^ 17) with 131072.
      pose proof (Rabs_pos (IZR v - m)). nra. }
    assert (Bt2 : (0 <= t * t <= bpow radix2 34)%R).
    { split; [apply Rle_0_sqr|]. apply Rabs_le_inv in Bt. rewrite bpow_Z in * by lia.
      change (2 ^ 17) with 131072 in Bt. change (2 ^ 34) with 17179869184. nra. }
    assert (Q : dval (d_mul (d_sub (d_of_Z v) mean) (d_sub (d_of_Z v) mean)) (d_rnd (t * t))).
    { apply dval_mul; auto. apply small_1000 with 34; [lia|]. rewrite Rabs_pos_eq; lra. }
    exists (d_rnd (t * t)). split; [exact Q|].
    destruct (rel_err (t * t)) as (e' & He' & E').
    { destruct (diff_grid v) as [Z|Z].
      - left. rewrite E, Z. ring.
      - right. rewrite Rabs_pos_eq by lra.
        assert (T : (bpow radix2 (-85) <= Rabs t)%R).
        { rewrite E, Rabs_mult, (Rabs_pos_eq (1 + e)) by lra.
          replace (bpow radix2 (-85)) with (bpow radix2 (-84) * / 2)%R
            by (change (/ 2)%R with (bpow radix2 (-1)); rewrite <- bpow_plus; reflexivity).
          apply Rmult_le_compat; [apply bpow_ge_0|lra|exact Z|lra]. }
        apply Rle_trans with (bpow radix2 (-85) * bpow radix2 (-85))%R.
        + rewrite <- bpow_plus. apply bpow_le. lia.
        + replace (t * t)%R with (Rabs t * Rabs t)%R
            by (unfold Rabs; destruct (Rcase_abs t); ring).
          apply Rmult_le_compat; try apply bpow_ge_0; exact T. }
    assert (Hsq : (0 <= (IZR v - m) * (IZR v - m))%R) by apply Rle_0_sqr.
    split.
    - rewrite E'. apply near_step; [exact Hsq| |exact He'].
      rewrite E. replace ((IZR v - m) * (1 + e) * ((IZR v - m) * (1 + e)))%R
        with ((IZR v - m) * (IZR v - m) * (1 + e) * (1 + e))%R by ring.
      apply near_step; [exact Hsq| |apply Rabs_le; lra]. apply near_step; [exact Hsq| |apply Rabs_le; lra].
      unfold near. cbn [pow]. lra.
    - split; [apply d_rnd_nonneg; lra|]. apply Rle_trans with (bpow radix2 34).
      + rewrite <- (d_rnd_id (bpow radix2 34)); [apply d_rnd_le; lra|].
        apply generic_format_bpow. unfold FLT_exp. lia.
      + apply bpow_le. lia.
  Qed.

  (** Sum of the squares, in order. *)
  Definition sq v := ((IZR v - m) * (IZR v - m))%R.

  Lemma sq_nonneg v : (0 <= sq v)%R. Proof. apply Rle_0_sqr. Qed.

  Lemma rsum_sq_nonneg l : (0 <= rsum (map sq l))%R.
  Proof. induction l as [|v t IH]; cbn [map rsum]; [lra|]. pose proof (sq_nonneg v). lra. Qed.

  Lemma fold_squares l : forall a A E k, (forall v, In v l -> is_u16 v) ->
    dval a A -> (0 <= E)%R -> near (3 + k) A E -> (0 <= A <= INR k * bpow radix2 41)%R ->
    (INR (k + List.length l) <= bpow radix2 31)%R ->
    exists A', dval (fold_left (fun a v => let t := d_sub (d_of_Z v) mean in d_add a (d_mul t t)) l a) A' /\
      near (3 + k + List.length l) A' (E + rsum (map sq l)) /\
      (0 <= A' <= INR (k + List.length l) * bpow radix2 41)%R.
  Proof.
    induction l as [|v t IH]; intros a A E k Hv Ha HE N BA BK; cbn [fold_left map rsum List.length] in *.
    - exists A. rewrite Rplus_0_r, !Nat.add_0_r. auto.
    - destruct (square_ok v) as (q & Hq & Nq & Bq); [apply Hv; now left|].
      destruct (rel_err_add A q) as (e & He & Ee); try (eapply dval_format; eassumption).
      assert (BK' : (INR k + 1 <= bpow radix2 31)%R).
      { apply Rle_trans with (2 := BK). rewrite plus_INR, S_INR. pose proof (pos_INR (List.length t)). lra. }
      assert (B41 : bpow radix2 41 = (2 * bpow radix2 40)%R).
      { change 2%R with (bpow radix2 1). now rewrite <- bpow_plus. }
      pose proof (bpow_gt_0 radix2 40) as P40. pose proof (pos_INR k) as Pk.
      pose proof u_small as Us. pose proof u_pos as Up.
      assert (S1 : (0 <= A + q)%R) by lra.
      (* the rounded sum does not exceed the bound *)
      assert (Bsum : (d_rnd (A + q) <= (INR k + 1) * bpow radix2 41)%R).
      { rewrite Ee. apply Rabs_le_inv in He.
        apply Rle_trans with ((A + q) * (1 + u))%R; [apply Rmult_le_compat_l; lra|].
        assert ((INR k + 1) * u <= / 4)%R.
        { apply Rle_trans with (bpow radix2 31 * u)%R; [apply Rmult_le_compat_r; lra|].
          unfold u. rewrite <- bpow_plus. apply Rle_trans with (bpow radix2 (-2)); [apply bpow_le; lia|].
          change (bpow radix2 (-2)) with (/ 4)%R. lra. }
        apply Rle_trans with ((INR k * bpow radix2 41 + bpow radix2 40) * (1 + u))%R;
          [apply Rmult_le_compat_r; lra|]. rewrite B41. nra. }
      assert (D : dval (d_add a (d_mul (d_sub (d_of_Z v) mean) (d_sub (d_of_Z v) mean))) (d_rnd (A + q))).
      { apply dval_add; [exact Ha|exact Hq|]. apply small_1000 with 100; [lia|]. rewrite Rabs_pos_eq by lra.
        apply Rle_trans with ((INR k + 1) * bpow radix2 41)%R; [rewrite B41; nra|].
        apply Rle_trans with (bpow radix2 31 * bpow radix2 41)%R;
          [apply Rmult_le_compat_r; [apply bpow_ge_0|exact BK']|].
        rewrite <- bpow_plus. apply bpow_le. lia. }
      pose proof (sq_nonneg v) as Sv.
      destruct (IH _ _ (E + sq v)%R (k + 1)%nat (fun x Hx => Hv x (or_intror Hx)) D) as (A' & D' & N' & B').
      + lra.
      + replace (3 + (k + 1))%nat with (S (3 + k)) by lia. rewrite Ee. apply near_step; [lra| |exact He].
        apply near_add; [exact N|]. apply near_mono with 3%nat; [exact Sv|lia|exact Nq].
      + rewrite plus_INR. cbn [INR]. split; [apply d_rnd_nonneg; lra|exact Bsum].
      + replace (k + 1 + List.length t)%nat with (k + S (List.length t))%nat by lia. exact BK.
      + exists A'. split; [exact D'|]. replace (3 + k + S (List.length t))%nat with (3 + (k + 1) + List.length t)%nat by lia.
        replace (k + S (List.length t))%nat with (k + 1 + List.length t)%nat by lia.
        rewrite <- Rplus_assoc. auto.
  Qed.
End Squares.

(** * Distance of the rounded mean *)
Lemma mean_zero_or l : sane l -> mean_of l = 0%R \/ (bpow radix2 (-31) <= mean_of l)%R.
Proof.
  intros H. destruct (Z.eq_dec (zsum l) 0) as [E|N].
  { left. unfold mean_of. rewrite E. unfold Rdiv. apply Rmult_0_l. }
  right. pose proof (sane_sum l H) as S. pose proof (len_pos l H) as P. pose proof H as [_ Hl].
  unfold mean_of. apply Rmult_le_reg_r with (1 := P). unfold Rdiv. rewrite Rmult_assoc, Rinv_l, Rmult_1_r by lra.
  apply Rle_trans with (bpow radix2 (-31) * bpow radix2 31)%R.
  - apply Rmult_le_compat_l; [apply bpow_ge_0|]. rewrite bpow_Z by lia. apply IZR_le. lia.
  - rewrite <- bpow_plus. change (bpow radix2 (-31 + 31)) with 1%R. apply (IZR_le 1). lia.
Qed.

Lemma mean_error l : sane l -> (Rabs (d_rnd (mean_of l) - mean_of l) <= bpow radix2 (-37))%R.
Proof.
  intros H. pose proof (mean_bounds l 65535 H (u16_bound l H)) as B.
  destruct (rel_err (mean_of l)) as (e & He & E).
  { destruct (mean_zero_or l H) as [Z|Z]; [now left|right]. rewrite Rabs_pos_eq by lra.
    apply Rle_trans with (2 := Z). apply bpow_le. lia. }
  rewrite E. replace (mean_of l * (1 + e) - mean_of l)%R with (mean_of l * e)%R by ring.
  rewrite Rabs_mult, (Rabs_pos_eq (mean_of l)) by lra.
  apply Rle_trans with (bpow radix2 16 * u)%R.
  - apply Rmult_le_compat; try lra; try apply Rabs_pos. rewrite bpow_Z by lia.
    apply Rle_trans with (1 := proj2 B). apply IZR_le. lia.
  - unfold u. rewrite <- bpow_plus. right. reflexivity.
Qed.

Lemma mean_format l : sane l -> (0 <= d_rnd (mean_of l) <= 65535)%R.
Proof.
  intros H. pose proof (mean_bounds l 65535 H (u16_bound l H)) as B. split; [apply d_rnd_nonneg; lra|].
  rewrite <- (d_rnd_int 65535) by lia. now apply d_rnd_le.
Qed.

Lemma rsum_shift l m c : (rsum (map (sq m) l) =
  rsum (map (sq c) l) + 2 * (c - m) * (IZR (zsum l) - IZR (Zlen l) * c) + IZR (Zlen l) * ((c - m) * (c - m)))%R.
Proof.
  induction l as [|v t IH].
  - cbn [map rsum zsum]. unfold Zlen. cbn. ring.
  - cbn [map rsum zsum]. rewrite Zlen_cons, !plus_IZR, IH. unfold sq. ring.
Qed.

Lemma rsum_mean l m : sane l ->
  (rsum (map (sq m) l) = rsum (map (sq (mean_of l)) l) + IZR (Zlen l) * ((mean_of l - m) * (mean_of l - m)))%R.
Proof.
  intros H. rewrite (rsum_shift l m (mean_of l)). pose proof (len_pos l H).
  replace (IZR (Zlen l) * mean_of l)%R with (IZR (zsum l)) by (unfold mean_of; field; lra). ring.
Qed.

Lemma rsum_in l m v : In v l -> (sq m v <= rsum (map (sq m) l))%R.
Proof.
  induction l as [|x t IH]; intros H; [contradiction|]. cbn [map rsum]. destruct H as [E|H].
  - subst x. pose proof (rsum_sq_nonneg m t). lra.
  - specialize (IH H). pose proof (sq_nonneg m x). lra.
Qed.

Lemma rsum_two l m a b : In a l -> In b l -> a <> b -> (/ 2 <= rsum (map (sq m) l))%R.
Proof.
  intros Ha Hb N.
  assert (G : (sq m a + sq m b <= rsum (map (sq m) l))%R).
  { revert Ha Hb. induction l as [|x t IH]; intros Ha Hb; [contradiction|]. cbn [map rsum].
    pose proof (sq_nonneg m x). destruct Ha as [->|Ha]; destruct Hb as [->|Hb].
    - congruence.
    - pose proof (rsum_in t m b Hb). lra.
    - pose proof (rsum_in t m a Ha). lra.
    - specialize (IH Ha Hb). lra. }
  apply Rle_trans with (2 := G). unfold sq.
  assert (D : (1 <= (IZR a - IZR b) * (IZR a - IZR b))%R).
  { rewrite <- minus_IZR, <- mult_IZR. apply (IZR_le 1). nia. }
  pose proof (Rle_0_sqr (IZR a - m + (IZR b - m))) as S. unfold Rsqr in S. nra.
Qed.

Lemma all_equal_dec (l : list Z) : (exists a b, In a l /\ In b l /\ a <> b) \/ (forall a b, In a l -> In b l -> a = b).
Proof.
  destruct l as [|x t]; [right; intros a b []|].
  destruct (List.forallb (Z.eqb x) t) eqn:E.
  - right. rewrite List.forallb_forall in E.
    assert (G : forall a, In a (x :: t) -> a = x).
    { intros a [->|H]; [reflexivity|]. symmetry. now apply Z.eqb_eq, E. }
    intros a b Ha Hb. now rewrite (G a Ha), (G b Hb).
  - left. assert (exists y, In y t /\ (x =? y)%Z = false) as (y & Hy & Ey).
    { revert E. clear. induction t as [|y t IH]; cbn [List.forallb]; [discriminate|].
      destruct (x =? y)%Z eqn:Ey; cbn [andb]; intros H.
      - destruct (IH H) as (z & Hz & Ez). exists z. split; [now right|exact Ez].
      - exists y. split; [now left|exact Ey]. }
    exists x, y. split; [now left|]. split; [now right|]. now apply Z.eqb_neq.
Qed.

Lemma zsum_const l c : (forall v, In v l -> v = c) -> zsum l = c * Zlen l.
Proof.
  induction l as [|x t IH]; intros H; [unfold Zlen; cbn; lia|]. cbn [zsum].
  rewrite Zlen_cons, IH by (intros; apply H; now right). rewrite (H x) by (now left). lia.
Qed.

(** The rounded mean does not change the sum of squares much. *)
Lemma squares_close l : sane l ->
  let E := rsum (map (sq (mean_of l)) l) in
  (E <= rsum (map (sq (d_rnd (mean_of l))) l) <= E * (1 + bpow radix2 (-40)))%R.
Proof.
  intros H E. rewrite (rsum_mean l _ H). fold E. set (d := (mean_of l - d_rnd (mean_of l))%R).
  pose proof (len_pos l H) as P. pose proof (rsum_sq_nonneg (mean_of l) l) as PE. fold E in PE.
  pose proof (Rle_0_sqr d) as Sd. unfold Rsqr in Sd.
  split; [nra|].
  destruct (all_equal_dec l) as [(a & b & Ha & Hb & N)|A].
  - pose proof (rsum_two l (mean_of l) a b Ha Hb N) as T. fold E in T.
    pose proof (mean_error l H) as M. rewrite Rabs_minus_sym in M. fold d in M.
    assert (D2 : (d * d <= bpow radix2 (-74))%R).
    { replace (d * d)%R with (Rabs d * Rabs d)%R by (unfold Rabs; destruct (Rcase_abs d); ring).
      change (-74) with (-37 + -37). rewrite bpow_plus. apply Rmult_le_compat; auto using Rabs_pos. }
    assert (N2 : (IZR (Zlen l) * (d * d) <= bpow radix2 (-43))%R).
    { change (-43) with (31 + -74). rewrite bpow_plus. apply Rmult_le_compat; auto; [lra|].
      rewrite bpow_Z by lia. apply IZR_le. destruct H. lia. }
    assert (B : bpow radix2 (-43) = (bpow radix2 (-40) * / 8)%R).
    { change (/ 8)%R with (bpow radix2 (-3)). rewrite <- bpow_plus. reflexivity. }
    pose proof (bpow_gt_0 radix2 (-40)). nra.
  - assert (d = 0)%R as ->.
    { unfold d. destruct l as [|c t]; [destruct H as [_ H]; unfold Zlen in H; cbn in H; lia|].
      assert (Z : zsum (c :: t) = c * Zlen (c :: t)).
      { apply zsum_const. intros v Hv. apply A; [exact Hv|now left]. }
      assert (mean_of (c :: t) = IZR c) as ->.
      { unfold mean_of. rewrite Z, mult_IZR. field. lra. }
      rewrite d_rnd_int; [ring|]. assert (is_u16 c) by (apply H; now left). unfold is_u16 in *. lia. }
    pose proof (bpow_gt_0 radix2 (-40)). nra.
Qed.

Lemma list_len_R l : sane l -> (INR (List.length l) <= bpow radix2 31)%R.
Proof. intros [_ H]. rewrite INR_IZR_INZ, bpow_Z by lia. apply IZR_le. unfold Zlen in H. lia. Qed.

Lemma sum_ok l : sane l ->
  exists A, dval (fold_left (fun a v => let t := d_sub (d_of_Z v) (calculate_mean l) in d_add a (d_mul t t)) l (d_of_Z 0)) A /\
    near (3 + List.length l) A (rsum (map (sq (d_rnd (mean_of l))) l)) /\
    (0 <= A <= bpow radix2 72)%R.
Proof.
  intros H. destruct (fold_squares (calculate_mean l) (d_rnd (mean_of l)) (mean_ok l H) (mean_format l H)
    (mean_grid l H) l (d_of_Z 0) 0%R 0%R 0%nat) as (A & D & N & B).
  - apply H.
  - apply (dval_of_int 0). lia.
  - lra.
  - unfold near. rewrite !Rmult_0_l. lra.
  - cbn [INR]. lra.
  - rewrite Nat.add_0_l. now apply list_len_R.
  - exists A. split; [exact D|]. rewrite Rplus_0_l, Nat.add_0_r in N. split; [exact N|].
    split; [lra|]. apply Rle_trans with (1 := proj2 B). rewrite Nat.add_0_l.
    change 72 with (31 + 41). rewrite bpow_plus. apply Rmult_le_compat_r; [apply bpow_ge_0|now apply list_len_R].
Qed.

(** The computed variance. *)
Lemma variance_ok l : sane l -> 2 <= Zlen l ->
  exists s2, dval (calculate_variance l (calculate_mean l)) s2 /\
    (Rabs (s2 - variance_of l) <= variance_of l * bpow radix2 (-19))%R /\ (0 <= variance_of l)%R /\ (0 <= s2)%R.
Proof.
  intros H H2. destruct (sum_ok l H) as (A & D & N & B).
  set (E := rsum (map (sq (mean_of l)) l)). set (E' := rsum (map (sq (d_rnd (mean_of l))) l)) in *.
  pose proof (squares_close l H) as C. cbv zeta in C. fold E in C. fold E' in C.
  pose proof (rsum_sq_nonneg (mean_of l) l) as PE. fold E in PE.
  set (k := (3 + List.length l)%nat) in *.
  assert (N1 : (1 <= IZR (Zlen l) - 1)%R) by (pose proof (IZR_le 2 _ H2); lra).
  assert (BL : (IZR (Zlen l) - 1 <= bpow radix2 31)%R).
  { rewrite bpow_Z by lia. pose proof (IZR_le (Zlen l) (2 ^ 31) ltac:(destruct H; lia)). lra. }
  assert (Dn : dval (d_sub (d_of_Z (Zlen l)) (d_of_Z 1)) (IZR (Zlen l) - 1)).
  { destruct H as [_ H]. rewrite <- minus_IZR. rewrite <- (d_rnd_int (Zlen l - 1)) by lia. rewrite minus_IZR.
    apply dval_sub; try (apply dval_of_int; lia). rewrite <- minus_IZR.
    apply small_1000 with 31; [lia|]. apply bpow_int_le; lia. }
  assert (Dv : dval (calculate_variance l (calculate_mean l)) (d_rnd (A / (IZR (Zlen l) - 1)))).
  { unfold calculate_variance. apply dval_div; [exact D|exact Dn|lra|].
    apply small_1000 with 72; [lia|]. rewrite Rabs_pos_eq.
    - apply Rle_trans with (2 := proj2 B). apply Rmult_le_reg_r with (IZR (Zlen l) - 1)%R; [lra|].
      unfold Rdiv. rewrite Rmult_assoc, Rinv_l by lra. nra.
    - apply Rmult_le_pos; [lra|]. left. apply Rinv_0_lt_compat. lra. }
  pose proof (variance_of l) as _.
  assert (EV : variance_of l = (E / (IZR (Zlen l) - 1))%R) by reflexivity.
  assert (PV : (0 <= variance_of l)%R).
  { rewrite EV. apply Rmult_le_pos; [exact PE|]. left. apply Rinv_0_lt_compat. lra. }
  assert (Kb : (INR k * u <= bpow radix2 (-22) + bpow radix2 (-51))%R).
  { unfold k. rewrite plus_INR. cbn [INR]. pose proof (list_len_R l H) as LR. pose proof u_pos.
    replace (bpow radix2 (-22)) with (bpow radix2 31 * u)%R by (unfold u; rewrite <- bpow_plus; reflexivity).
    replace (bpow radix2 (-51)) with (4 * u)%R by (unfold u; change 4%R with (bpow radix2 2); rewrite <- bpow_plus; reflexivity).
    nra. }
  assert (P22 : (bpow radix2 (-51) <= bpow radix2 (-24))%R) by (apply bpow_le; lia).
  set (b := bpow radix2 (-24)) in *.
  assert (E22 : bpow radix2 (-22) = (4 * b)%R)
    by (unfold b; change 4%R with (bpow radix2 2); rewrite <- bpow_plus; reflexivity).
  assert (E19 : bpow radix2 (-19) = (32 * b)%R)
    by (unfold b; change 32%R with (bpow radix2 5); rewrite <- bpow_plus; reflexivity).
  assert (Pb : (0 < b)%R) by apply bpow_gt_0.
  assert (Sb : (b <= / 1000)%R).
  { apply Rle_trans with (bpow radix2 (-10)); [apply bpow_le; lia|]. change (bpow radix2 (-10)) with (/ 1024)%R. lra. }
  assert (P40 : (0 < bpow radix2 (-40) <= b)%R) by (split; [apply bpow_gt_0|apply bpow_le; lia]).
  assert (Uk : (U ^ k <= 1 + 10 * b)%R).
  { apply Rle_trans with (1 + 2 * INR k * u)%R; [apply U_pow; lra|]. lra. }
  assert (Lk : (1 - 5 * b <= L ^ k)%R).
  { apply Rle_trans with (2 := L_pow k). lra. }
  (* sum before the division *)
  assert (SA : (E * (1 - 5 * b) <= A <= E * (1 + b) * (1 + 10 * b))%R).
  { destruct N as [N0 N3]. pose proof (L_pos k). pose proof (U_pos k). split.
    - apply Rle_trans with (2 := N0). apply Rmult_le_compat; lra.
    - apply Rle_trans with (1 := N3). apply Rmult_le_compat; try lra. nra. }
  destruct (rel_err (A / (IZR (Zlen l) - 1))) as (e & He & Ee).
  { destruct (all_equal_dec l) as [(x & y & Hx & Hy & Nxy)|Aeq].
    - right. pose proof (rsum_two l (mean_of l) x y Hx Hy Nxy) as T. fold E in T.
      assert (PA : (bpow radix2 (-2) <= A)%R).
      { apply Rle_trans with (2 := proj1 SA). change (bpow radix2 (-2)) with (/ 4)%R. nra. }
      rewrite Rabs_pos_eq by (apply Rmult_le_pos; [lra|left; apply Rinv_0_lt_compat; lra]).
      apply Rle_trans with (bpow radix2 (-2) * bpow radix2 (-31))%R; [rewrite <- bpow_plus; apply bpow_le; lia|].
      apply Rmult_le_compat; try apply bpow_ge_0; auto.
      change (-31) with (- (31)). rewrite bpow_opp. apply Rinv_le_contravar; [lra|exact BL].
    - left. assert (E0 : E = 0%R).
      { assert (forall v, In v l -> sq (mean_of l) v = 0%R) as Z.
        { intros v Hv. assert (mean_of l = IZR v) as ->.
          { unfold mean_of. rewrite (zsum_const l v) by (intros; now apply Aeq). rewrite mult_IZR. field.
            pose proof (len_pos l H). lra. }
          unfold sq. ring. }
        unfold E. revert Z. generalize (sq (mean_of l)). intros f. clear. induction l as [|v t IH]; intros Z; [reflexivity|].
        cbn [map rsum]. rewrite (Z v) by (now left). rewrite IH; [ring|]. intros; apply Z; now right. }
      rewrite E0 in SA. assert (A = 0%R) as -> by lra. unfold Rdiv. apply Rmult_0_l. }
  exists (d_rnd (A / (IZR (Zlen l) - 1))). split; [exact Dv|]. split; [|split; [exact PV|apply d_rnd_nonneg]].
  2: { apply Rmult_le_pos; [lra|]. left. apply Rinv_0_lt_compat. lra. }
  rewrite Ee. apply Rabs_le_inv in He. pose proof u_pos. pose proof u_small.
  assert (Ub : (u <= b)%R) by (apply bpow_le; lia).
  set (i := (/ (IZR (Zlen l) - 1))%R) in *.
  assert (Pi : (0 < i)%R) by (apply Rinv_0_lt_compat; lra).
  assert (SV : (variance_of l * (1 - 5 * b) <= A / (IZR (Zlen l) - 1) <= variance_of l * (1 + b) * (1 + 10 * b))%R).
  { rewrite EV. unfold Rdiv. fold i. split.
    - replace (E * i * (1 - 5 * b))%R with (E * (1 - 5 * b) * i)%R by ring. apply Rmult_le_compat_r; lra.
    - replace (E * i * (1 + b) * (1 + 10 * b))%R with (E * (1 + b) * (1 + 10 * b) * i)%R by ring.
      apply Rmult_le_compat_r; lra. }
  rewrite E19. set (V := variance_of l) in *. set (W := (A / (IZR (Zlen l) - 1))%R) in *.
  assert (W0 : (0 <= W)%R) by (apply Rle_trans with (2 := proj1 SV); apply Rmult_le_pos; lra).
  assert (W1 : (W * (1 - b) <= W * (1 + e) <= W * (1 + b))%R)
    by (split; apply Rmult_le_compat_l; lra).
  apply Rabs_le. split.
  - assert (V * (1 - 5 * b) * (1 - b) <= W * (1 - b))%R by (apply Rmult_le_compat_r; lra). nra.
  - assert (W * (1 + b) <= V * (1 + b) * (1 + 10 * b) * (1 + b))%R by (apply Rmult_le_compat_r; lra).
    assert ((1 + b) * (1 + 10 * b) * (1 + b) <= 1 + 32 * b)%R by nra.
    assert (V * ((1 + b) * (1 + 10 * b) * (1 + b)) <= V * (1 + 32 * b))%R by (apply Rmult_le_compat_l; lra).
    lra.
Qed.
