(** C70: the functions given to the solver of the threshold calculation. *)
From Coq Require Import ZArith Reals List Lia Lra.
From Coquelicot Require Import Hierarchy Derive AutoDerive.
From Verif Require Import Base BaseFacts GaussFitModel GaussFitSpec.
Import ListNotations.
Open Scope Z_scope.
Open Scope R_scope.

Lemma residual_gaussian x b c : p_dev x <> 0 ->
  residual x b c = gaussian (p_amp x) (p_mean x) (p_dev x) b - c.
Proof. intros H. unfold residual, gaussian. do 3 f_equal. field. exact H. Qed.

(** The solver minimises the misfit of the normal curve. *)
Theorem C70_misfit x bins counts : p_dev x <> 0 ->
  sum_squares (residuals x bins counts) = misfit (p_amp x) (p_mean x) (p_dev x) bins counts.
Proof.
  intros H. unfold residuals, misfit. induction (combine bins counts) as [|[b c] l IH]; [reflexivity|].
  cbn [map sum_squares fold_right fst snd]. fold (sum_squares (map (fun bc => residual x (fst bc) (snd bc)) l)).
  now rewrite IH, residual_gaussian.
Qed.

(** The matrix it is given holds the partial derivatives of the residuals. *)
Theorem C70_jacobian x bins counts k : p_dev x <> 0 ->
  length counts = length bins -> (k < length bins)%nat ->
  let row := nth k (jacobian x bins) (0, 0, 0) in
  let value y := nth k (residuals y bins counts) 0 in
  derivable_pt_lim (fun t => value (mkParams t (p_mean x) (p_dev x))) (p_amp x) (fst (fst row)) /\
  derivable_pt_lim (fun t => value (mkParams (p_amp x) t (p_dev x))) (p_mean x) (snd (fst row)) /\
  derivable_pt_lim (fun t => value (mkParams (p_amp x) (p_mean x) t)) (p_dev x) (snd row).
Proof.
  intros H L Hk. cbn zeta.
  assert (Ev : forall y, nth k (residuals y bins counts) 0 = residual y (nth k bins 0) (nth k counts 0)).
  { intros y. unfold residuals. rewrite (nth_indep _ 0 (residual y (fst (0, 0)) (snd (0, 0))))
      by (rewrite map_length, combine_length; lia).
    rewrite (map_nth (fun bc => residual y (fst bc) (snd bc))), combine_nth by lia. reflexivity. }
  assert (Er : nth k (jacobian x bins) (0, 0, 0) = jacobian_row x (nth k bins 0)).
  { unfold jacobian. rewrite (nth_indep _ _ (jacobian_row x 0)) by (rewrite map_length; lia). apply map_nth. }
  rewrite Er. set (b := nth k bins 0). set (c := nth k counts 0). destruct x as [a m s]. cbn [p_amp p_mean p_dev] in *.
  assert (S2 : 2 * (s * (s * 1)) <> 0) by (intros Z; apply H; nra).
  repeat split; apply is_derive_Reals;
    (eapply is_derive_ext; [intros t; symmetry; apply Ev|]); fold b c; unfold residual, jacobian_row; cbn [p_amp p_mean p_dev fst snd].
  - set (e := exp _). auto_derive; [exact I|]. ring.
  - auto_derive; [exact I|].
    replace (- ((b + - m) * ((b + - m) * 1)) * / (2 * (s * (s * 1)))) with (- (b - m) ^ 2 / (2 * s ^ 2)) by (unfold Rdiv; cbn; ring).
    set (e := exp _). field. exact H.
  - auto_derive; [exact S2|].
    replace (- ((b + - m) * ((b + - m) * 1)) * / (2 * (s * (s * 1)))) with (- (b - m) ^ 2 / (2 * s ^ 2)) by (unfold Rdiv; cbn; ring).
    set (e := exp _). field. exact H.
Qed.

(** The sign of the deviation is invisible, so leaving it out of the threshold
    loses nothing: a solution and its mirror image give the same. *)
Theorem C70_sign a m s bins counts n :
  residuals (mkParams a m (- s)) bins counts = residuals (mkParams a m s) bins counts /\
  background_threshold (mkParams a m (- s)) n = background_threshold (mkParams a m s) n /\
  (0 <= n -> m <= background_threshold (mkParams a m s) n).
Proof.
  split; [|split].
  - unfold residuals. apply map_ext. intros [b c]. unfold residual. cbn [p_amp p_mean p_dev fst snd].
    replace ((- s) ^ 2) with (s ^ 2) by ring. reflexivity.
  - unfold background_threshold. cbn [p_mean p_dev]. now rewrite Rabs_Ropp.
  - intros Hn. unfold background_threshold. cbn [p_mean p_dev]. pose proof (Rabs_pos s). nra.
Qed.

(** Data on a curve: the curve is found by no misfit at all, and with three
    different bins nothing else has none. *)
Lemma misfit_nonneg a m s bins counts : 0 <= misfit a m s bins counts.
Proof.
  unfold misfit. induction (combine bins counts) as [|p l IH]; cbn [fold_right]; [lra|].
  pose proof (pow2_ge_0 (gaussian a m s (fst p) - snd p)). lra.
Qed.

Lemma misfit_zero a m s bins counts : misfit a m s bins counts = 0 <-> on_curve a m s bins counts.
Proof.
  unfold misfit, on_curve. induction (combine bins counts) as [|[b0 c0] l IH]; cbn [fold_right fst snd].
  - split; [intros _ b c []|reflexivity].
  - assert (N : 0 <= fold_right (fun bc t => (gaussian a m s (fst bc) - snd bc) ^ 2 + t) 0 l).
    { clear IH. induction l as [|p l IH]; cbn [fold_right]; [lra|]. pose proof (pow2_ge_0 (gaussian a m s (fst p) - snd p)). lra. }
    pose proof (pow2_ge_0 (gaussian a m s b0 - c0)). split.
    + intros Z b c [E|Hin].
      * injection E as <- <-. assert ((gaussian a m s b0 - c0) ^ 2 = 0) by lra. nra.
      * apply IH; [lra|exact Hin].
    + intros Hc. rewrite (proj2 IH) by (intros; apply Hc; right; assumption).
      rewrite <- (Hc b0 c0 (or_introl eq_refl)). ring.
Qed.

Lemma three_points a m s a' m' s' b1 b2 b3 : 0 < a -> 0 < a' -> s <> 0 -> s' <> 0 ->
  b1 <> b2 -> b1 <> b3 -> b2 <> b3 ->
  gaussian a m s b1 = gaussian a' m' s' b1 -> gaussian a m s b2 = gaussian a' m' s' b2 -> gaussian a m s b3 = gaussian a' m' s' b3 ->
  a = a' /\ m = m' /\ Rabs s = Rabs s'.
Proof.
  intros Ha Ha' Hs Hs' D12 D13 D23 E1 E2 E3.
  set (u := / (s * s)). set (u' := / (s' * s')). set (d := ln a - ln a').
  assert (P : forall b, gaussian a m s b = gaussian a' m' s' b -> 2 * d = u * (b - m) ^ 2 - u' * (b - m') ^ 2).
  { intros b E. unfold gaussian in E. apply (f_equal ln) in E.
    rewrite !ln_mult, !ln_exp in E by (assumption || apply exp_pos).
    replace (- ((b - m) / s) ^ 2 / 2) with (- (u * (b - m) ^ 2) / 2) in E by (unfold u; field; exact Hs).
    replace (- ((b - m') / s') ^ 2 / 2) with (- (u' * (b - m') ^ 2) / 2) in E by (unfold u'; field; exact Hs').
    unfold d. lra. }
  apply P in E1, E2, E3. clear P.
  (* divided differences *)
  assert (Q1 : (u - u') * (b1 + b2) = 2 * (u * m - u' * m')).
  { apply (Rmult_eq_reg_l (b1 - b2)); [|lra]. lra. }
  assert (Q2 : (u - u') * (b1 + b3) = 2 * (u * m - u' * m')).
  { apply (Rmult_eq_reg_l (b1 - b3)); [|lra]. lra. }
  assert (Eu : u = u').
  { assert (Z : (u - u') * (b2 - b3) = 0) by lra. apply Rmult_integral in Z as [Z|Z]; lra. }
  assert (Hu : u <> 0) by (unfold u; apply Rinv_neq_0_compat; nra).
  assert (Em : m = m').
  { rewrite <- Eu in Q1. assert (Z : u * (m - m') = 0) by lra. apply Rmult_integral in Z as [Z|Z]; lra. }
  split; [|split].
  - assert (d = 0) by (rewrite <- Eu, <- Em in E1; lra). unfold d in H. apply ln_inv; lra.
  - exact Em.
  - unfold u, u' in Eu. assert (Q : s * s = s' * s') by (rewrite <- (Rinv_inv (s * s)), Eu; apply Rinv_inv).
    apply Rsqr_eq_abs_0. exact Q.
Qed.

(** If the histogram lies on a normal curve, that curve minimises the function. *)
Theorem C70_true_curve x bins counts : p_dev x <> 0 ->
  on_curve (p_amp x) (p_mean x) (p_dev x) bins counts ->
  sum_squares (residuals x bins counts) = 0 /\
  forall y, p_dev y <> 0 ->
    sum_squares (residuals x bins counts) <= sum_squares (residuals y bins counts).
Proof.
  intros Hx H. rewrite (C70_misfit x) by exact Hx. rewrite (proj2 (misfit_zero _ _ _ bins counts) H).
  split; [reflexivity|]. intros y Hy. rewrite C70_misfit by exact Hy. apply misfit_nonneg.
Qed.

(** With three different bins it is the only minimum up to the sign of the
    deviation, so every minimum gives the threshold of the curve. *)
Theorem C70_identified x bins counts : 0 < p_amp x -> p_dev x <> 0 ->
  on_curve (p_amp x) (p_mean x) (p_dev x) bins counts ->
  length counts = length bins -> NoDup bins -> (3 <= length bins)%nat ->
  forall y, p_dev y <> 0 ->
    (forall z, p_dev z <> 0 -> sum_squares (residuals y bins counts) <= sum_squares (residuals z bins counts)) ->
    p_amp y = p_amp x /\ p_mean y = p_mean x /\ Rabs (p_dev y) = Rabs (p_dev x) /\
    forall n, background_threshold y n = p_mean x + Rabs (p_dev x) * n.
Proof.
  destruct x as [a m s]. cbn [p_amp p_mean p_dev].
  intros Ha Hs Hc L ND L3 [a' m' s'] Hs' Hmin. cbn [p_amp p_mean p_dev] in *.
  assert (Hc' : on_curve a' m' s' bins counts).
  { apply misfit_zero. specialize (Hmin (mkParams a m s) Hs). rewrite !C70_misfit in Hmin by assumption.
    cbn [p_amp p_mean p_dev] in Hmin. rewrite (proj2 (misfit_zero a m s bins counts) Hc) in Hmin.
    pose proof (misfit_nonneg a' m' s' bins counts). lra. }
  destruct bins as [|b1 [|b2 [|b3 bins]]]; cbn in L3; try lia. destruct counts as [|c1 [|c2 [|c3 counts]]]; try discriminate.
  inversion ND as [|? ? N1 ND1]; subst. inversion ND1 as [|? ? N2 ND2]; subst.
  assert (K : forall b c, In (b, c) (combine (b1 :: b2 :: b3 :: bins) (c1 :: c2 :: c3 :: counts)) -> gaussian a' m' s' b = gaussian a m s b).
  { intros b c Hin. rewrite <- (Hc b c Hin), <- (Hc' b c Hin). reflexivity. }
  assert (Ha' : 0 < a').
  { assert (E : gaussian a' m' s' b1 = gaussian a m s b1) by (apply (K b1 c1); cbn; auto).
    unfold gaussian in E. pose proof (exp_pos (- ((b1 - m) / s) ^ 2 / 2)) as P. pose proof (exp_pos (- ((b1 - m') / s') ^ 2 / 2)) as P'.
    set (e := exp (- ((b1 - m) / s) ^ 2 / 2)) in *. set (e' := exp (- ((b1 - m') / s') ^ 2 / 2)) in *.
    pose proof (Rmult_lt_0_compat _ _ Ha P). destruct (Rlt_le_dec 0 a') as [|N]; [assumption|]. nra. }
  destruct (three_points a' m' s' a m s b1 b2 b3) as (-> & -> & E); auto.
  - intros ->. apply N1. cbn. auto.
  - intros ->. apply N1. cbn. auto.
  - intros ->. apply N2. cbn. auto.
  - apply (K b1 c1). cbn. auto.
  - apply (K b2 c2). cbn. auto.
  - apply (K b3 c3). cbn. auto.
  - repeat split; auto. intros n. unfold background_threshold. cbn [p_mean p_dev]. now rewrite E.
Qed.

(** With three different bins the columns of the matrix are independent, at
    every state of non-zero amplitude and deviation: a step of the solver is
    never undetermined. *)
Theorem C70_full_rank x bins v : p_amp x <> 0 -> p_dev x <> 0 -> NoDup bins -> (3 <= length bins)%nat ->
  v <> (0, 0, 0) -> 0 < sum_squares (times (jacobian x bins) v).
Proof.
  destruct x as [a m s], v as [[v0 v1] v2]. cbn [p_amp p_dev]. intros Ha Hs ND L3 Hv.
  assert (NN : forall l, 0 <= sum_squares l).
  { induction l as [|r l IH]; cbn [sum_squares fold_right]; [lra|]. pose proof (pow2_ge_0 r). fold (sum_squares l). lra. }
  destruct (NN (times (jacobian (mkParams a m s) bins) (v0, v1, v2))) as [P|Z]; [exact P|exfalso]. symmetry in Z.
  assert (Row : forall b, In b bins -> v0 + a / s ^ 2 * v1 * (b - m) + a / s ^ 3 * v2 * (b - m) ^ 2 = 0).
  { intros b Hb. revert Z. clear - Hb NN Hs. induction bins as [|b0 l IH]; [destruct Hb|].
    unfold jacobian, times. cbn [map sum_squares fold_right]. set (r := _ + _ + _).
    set (rest := fold_right _ _ _). intros Z.
    assert (0 <= rest) by apply NN. pose proof (pow2_ge_0 r).
    destruct Hb as [<-|Hb]; [|apply IH; [exact Hb|]; change (rest = 0); lra].
    assert (R0 : r = 0) by (apply Rsqr_0_uniq; unfold Rsqr; lra).
    unfold r, jacobian_row in R0. cbn [fst snd p_amp p_mean p_dev] in R0.
    set (e := exp _) in R0. assert (0 < e) by apply exp_pos.
    apply (Rmult_eq_reg_l e); [|lra]. rewrite Rmult_0_r, <- R0. field. exact Hs. }
  destruct bins as [|b1 [|b2 [|b3 bins]]]; cbn in L3; try lia.
  inversion ND as [|? ? N1 ND1]; subst. inversion ND1 as [|? ? N2 ND2]; subst.
  pose proof (Row b1 ltac:(cbn; auto)) as E1. pose proof (Row b2 ltac:(cbn; auto)) as E2. pose proof (Row b3 ltac:(cbn; auto)) as E3.
  set (p := a / s ^ 2 * v1) in *. set (q := a / s ^ 3 * v2) in *.
  assert (D12 : b1 <> b2) by (intros ->; apply N1; cbn; auto).
  assert (D13 : b1 <> b3) by (intros ->; apply N1; cbn; auto).
  assert (D23 : b2 <> b3) by (intros ->; apply N2; cbn; auto).
  assert (Q1 : p + q * (b1 + b2 - 2 * m) = 0) by (apply (Rmult_eq_reg_l (b1 - b2)); lra).
  assert (Q2 : p + q * (b1 + b3 - 2 * m) = 0) by (apply (Rmult_eq_reg_l (b1 - b3)); lra).
  assert (Q : q = 0) by (apply (Rmult_eq_reg_l (b2 - b3)); lra).
  assert (P : p = 0) by (rewrite Q in Q1; lra).
  assert (V0 : v0 = 0) by (rewrite P, Q in E1; lra).
  assert (K : forall k w, a / s ^ k * w = 0 -> w = 0).
  { intros k w E. assert (s ^ k <> 0) by now apply pow_nonzero. apply Rmult_integral in E as [E|E]; [|exact E]. exfalso.
    apply Ha. apply (Rmult_eq_reg_r (/ s ^ k)); [|now apply Rinv_neq_0_compat]. rewrite Rmult_0_l. exact E. }
  apply Hv. now rewrite V0, (K 2%nat v1 P), (K 3%nat v2 Q).
Qed.

(** The bins of the threshold calculation, one for each integer of a range, are
    such bins as soon as there are three. *)
Theorem C70_bins lo n x v : (3 <= n)%Z -> p_amp x <> 0 -> p_dev x <> 0 -> v <> (0, 0, 0) ->
  let bins := map IZR (map (fun i => (lo + i)%Z) (zseq n)) in
  NoDup bins /\ (3 <= length bins)%nat /\ 0 < sum_squares (times (jacobian x bins) v).
Proof.
  intros Hn Ha Hs Hv. cbn zeta.
  assert (ND : NoDup (map IZR (map (fun i => (lo + i)%Z) (zseq n)))).
  { rewrite map_map. apply FinFun.Injective_map_NoDup; [|apply NoDup_zseq]. intros i j E. apply eq_IZR in E. lia. }
  assert (L : (3 <= length (map IZR (map (fun i => (lo + i)%Z) (zseq n))))%nat).
  { rewrite !map_length. pose proof (Zlen_zseq n ltac:(lia)) as E. unfold Zlen in E. lia. }
  split; [exact ND|]. split; [exact L|]. now apply C70_full_rank.
Qed.

(** Two bins do not determine the curve. *)
Theorem C70_two_bins_refuted : exists bins counts x y,
  length bins = 2%nat /\ length counts = 2%nat /\ NoDup bins /\
  0 < p_amp x /\ 0 < p_amp y /\ 0 < p_dev x /\ 0 < p_dev y /\
  (forall z, sum_squares (residuals x bins counts) <= sum_squares (residuals z bins counts)) /\
  (forall z, sum_squares (residuals y bins counts) <= sum_squares (residuals z bins counts)) /\
  forall n, n <> 0 -> background_threshold x n <> background_threshold y n.
Proof.
  exists [0; 1], [1; 1], (mkParams (exp (1 / 8)) (1 / 2) 1), (mkParams (exp (1 / 32)) (1 / 2) 2).
  cbn [p_amp p_mean p_dev].
  split; [reflexivity|]. split; [reflexivity|]. split; [repeat constructor; cbn; lra|].
  do 2 (split; [apply exp_pos|]). do 2 (split; [lra|]).
  assert (NN : forall l, 0 <= sum_squares l).
  { induction l as [|r l IH]; cbn [sum_squares fold_right]; [lra|]. pose proof (pow2_ge_0 r). fold (sum_squares l). lra. }
  assert (K : forall s b, (b = 0 \/ b = 1) -> s <> 0 -> gaussian (exp (1 / (8 * s ^ 2))) (1 / 2) s b = 1).
  { intros s b Hb Hs. unfold gaussian. rewrite <- exp_plus. refine (eq_trans _ exp_0). f_equal. destruct Hb as [-> | ->]; field; exact Hs. }
  assert (C : forall s, s <> 0 -> sum_squares (residuals (mkParams (exp (1 / (8 * s ^ 2))) (1 / 2) s) [0; 1] [1; 1]) = 0).
  { intros s Hs. apply C70_true_curve; [exact Hs|]. intros b c Hin. cbn in Hin.
    destruct Hin as [E|[E|[]]]; injection E as <- <-; symmetry; apply K; auto. }
  split; [|split].
  - intros z. replace (1 / 8) with (1 / (8 * 1 ^ 2)) by field. rewrite C by lra. apply NN.
  - intros z. replace (1 / 32) with (1 / (8 * 2 ^ 2)) by field. rewrite C by lra. apply NN.
  - intros n Hn E. unfold background_threshold in E. cbn [p_mean p_dev] in E. rewrite !Rabs_pos_eq in E by lra. lra.
Qed.

(** A case with three bins. *)
Example ex_curve : exists counts, on_curve 5 1 2 [0; 1; 2] counts /\ length counts = 3%nat /\ NoDup [0; 1; 2] /\
  nth 1 counts 0 = 5.
Proof.
  exists (map (gaussian 5 1 2) [0; 1; 2]). split; [|split; [reflexivity|split]].
  - intros b c Hin. cbn in Hin. destruct Hin as [E|[E|[E|[]]]]; injection E as <- <-; reflexivity.
  - repeat constructor; cbn; lra.
  - cbn [map nth]. unfold gaussian. replace (- ((1 - 1) / 2) ^ 2 / 2) with 0 by field. rewrite exp_0. ring.
Qed.

Print Assumptions C70_misfit.
Print Assumptions C70_jacobian.
Print Assumptions C70_sign.
Print Assumptions C70_true_curve.
Print Assumptions C70_identified.
Print Assumptions C70_full_rank.
Print Assumptions C70_bins.
Print Assumptions C70_two_bins_refuted.
