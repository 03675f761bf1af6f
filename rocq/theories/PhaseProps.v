(** C69: phase_from_com integrates the slopes of a surface. *)
From Coq Require Import Reals ZArith List Lia Lra Bool.
From Coquelicot Require Import Complex.
From Verif Require Import PhaseModel PhaseSpec PhaseProofs.
Import ListNotations.
Open Scope R_scope.

(** Every surface has slopes. *)
Theorem C69_slopes_exist ny nx ws : (0 < ny)%nat -> (0 < nx)%nat ->
  exists gy gx, slopes ny nx (surface ny nx ws) gy gx.
Proof.
  intros Hy Hx. do 2 eexists. intros y x _ _.
  split; [apply surface_dy|apply surface_dx]; apply not_0_INR; lia.
Qed.

Lemma slopes_values ny nx ws gy gx y x : slopes ny nx (surface ny nx ws) gy gx -> (y < ny)%nat -> (x < nx)%nat ->
  gy y x = sum_of (fun w => 2 * PI * (IZR (rows w) / INR ny) * slope_part ny nx w (INR y) (INR x)) ws /\
  gx y x = sum_of (fun w => 2 * PI * (IZR (cols w) / INR nx) * slope_part ny nx w (INR y) (INR x)) ws.
Proof.
  intros H Ly Lx. destruct (H y x Ly Lx) as [H1 H2].
  assert (A : INR ny <> 0) by (apply not_0_INR; lia). assert (B : INR nx <> 0) by (apply not_0_INR; lia).
  split; [eapply uniqueness_limite; [exact H1|now apply surface_dy]|eapply uniqueness_limite; [exact H2|now apply surface_dx]].
Qed.

(** The slopes of a resolved surface give the surface without its constant part,
    each wave weakened by the regularisation. *)
Theorem C69_gradient ny nx ws gy gx reg : (0 < ny)%nat -> (0 < nx)%nat ->
  resolved ny nx ws -> slopes ny nx (surface ny nx ws) gy gx ->
  forall y x, phase_from_com ny nx gy gx 0 false reg y x = surface ny nx (damped ny nx reg ws) (INR y) (INR x).
Proof.
  intros Hy Hx Hr Hs y x. rewrite phase_plain. unfold resolved in Hr. rewrite Forall_forall in Hr.
  rewrite (integrated_ext ny nx _ _
    (fun y x => RtoC (sum_of (fun w => 2 * PI * (IZR (rows w) / INR ny) * slope_part ny nx w (INR y) (INR x)) ws))
    (fun y x => RtoC (sum_of (fun w => 2 * PI * (IZR (cols w) / INR nx) * slope_part ny nx w (INR y) (INR x)) ws))).
  2: { intros y' x' Ly Lx. destruct (slopes_values _ _ _ _ _ _ _ Hs Ly Lx) as [-> ->]. auto. }
  rewrite (integrated_sum ny nx Hy Hx (fun w y x => 2 * PI * (IZR (rows w) / INR ny) * slope_part ny nx w (INR y) (INR x))
    (fun w y x => 2 * PI * (IZR (cols w) / INR nx) * slope_part ny nx w (INR y) (INR x))).
  clear gy gx Hs. induction ws as [|w ws IH]; [reflexivity|].
  cbn [sum_of fold_right damped map surface].
  unfold sum_of in IH. rewrite IH by (intros; apply Hr; cbn; auto). unfold surface at 1, damped at 1.
  apply (f_equal (fun t => t + _)). destruct (Hr w ltac:(cbn; auto)) as [Hp Hq].
  rewrite (integrated_slopes ny nx Hy Hx) by assumption. unfold wave_at. cbn [rows cols w_cos w_sin]. unfold damping.
  destruct ((rows w =? 0) && (cols w =? 0))%Z eqn:Z0; [ring|].
  pose proof (k_squared_pos ny nx Hy Hx _ _ Z0) as Hk. unfold k_squared in *.
  set (k2 := (IZR (rows w) / INR ny) ^ 2 + (IZR (cols w) / INR nx) ^ 2) in *.
  replace (2 * PI * (IZR (rows w) / INR ny) * (IZR (rows w) / INR ny) + 2 * PI * (IZR (cols w) / INR nx) * (IZR (cols w) / INR nx))
    with (2 * PI * k2) by (unfold k2; ring).
  pose proof PI_RGT_0. assert (0 < 2 * PI * k2) by nra.
  assert (0 < (2 * PI * k2) ^ 2) by nra. pose proof (pow2_ge_0 reg). pose proof (pow2_ge_0 (reg / (2 * PI))).
  field. repeat split; try lra; try nra.
Qed.

Lemma damping_none ny nx w : (0 < ny)%nat -> (0 < nx)%nat ->
  damping ny nx 0 w = if ((rows w =? 0) && (cols w =? 0))%Z then 0 else 1.
Proof.
  intros Hy Hx. unfold damping. destruct ((rows w =? 0) && (cols w =? 0))%Z eqn:Z0; [reflexivity|].
  pose proof (k_squared_pos ny nx Hy Hx _ _ Z0) as Hk. unfold k_squared in Hk.
  set (k2 := (IZR (rows w) / INR ny) ^ 2 + (IZR (cols w) / INR nx) ^ 2) in *. pose proof PI_RGT_0.
  assert (0 < k2 ^ 2) by nra. field. split; nra.
Qed.

Lemma wave_scaled ny nx p q a b c y x :
  wave_at ny nx (mkWave p q (c * a) (c * b)) y x = c * wave_at ny nx (mkWave p q a b) y x.
Proof. unfold wave_at. cbn. ring. Qed.

Lemma wave_constant ny nx w y x : ((rows w =? 0) && (cols w =? 0))%Z = true -> wave_at ny nx w y x = w_cos w.
Proof.
  intros H. apply andb_true_iff in H as [H1 H2]. apply Z.eqb_eq in H1, H2. unfold wave_at. rewrite H1, H2.
  replace (2 * PI * (0 * y / INR ny + 0 * x / INR nx)) with 0 by (unfold Rdiv; ring). rewrite cos_0, sin_0. ring.
Qed.

Lemma damped_sum ny nx reg ws y x :
  surface ny nx (damped ny nx reg ws) y x = sum_of (fun w => damping ny nx reg w * wave_at ny nx w y x) ws.
Proof.
  induction ws as [|w ws IH]; [reflexivity|]. cbn [damped map surface fold_right sum_of].
  fold (damped ny nx reg ws) (surface ny nx (damped ny nx reg ws) y x). rewrite IH, wave_scaled.
  destruct w as [p q a b]; cbn [rows cols w_cos w_sin]. reflexivity.
Qed.

(** Without regularisation: exactly the surface, up to its mean. *)
Theorem C69_exact ny nx ws gy gx : (0 < ny)%nat -> (0 < nx)%nat ->
  resolved ny nx ws -> slopes ny nx (surface ny nx ws) gy gx ->
  forall y x, phase_from_com ny nx gy gx 0 false 0 y x =
              surface ny nx ws (INR y) (INR x) - mean ny nx (fun y x => surface ny nx ws (INR y) (INR x)).
Proof.
  intros Hy Hx Hr Hs y x. rewrite (C69_gradient ny nx ws gy gx 0 Hy Hx Hr Hs), damped_sum, surface_mean by assumption.
  rewrite surface_sum, <- sum_of_minus. apply sum_of_ext. intros w Hw. rewrite damping_none by assumption.
  destruct ((rows w =? 0) && (cols w =? 0))%Z eqn:Z0; [rewrite (wave_constant _ _ _ _ _ Z0)|]; ring.
Qed.

Lemma wave_bound ny nx w y x : Rabs (wave_at ny nx w y x) <= Rabs (w_cos w) + Rabs (w_sin w).
Proof.
  unfold wave_at. set (t := 2 * PI * _). eapply Rle_trans; [apply Rabs_triang|]. rewrite !Rabs_mult.
  pose proof (COS_bound t). pose proof (SIN_bound t).
  assert (Rabs (cos t) <= 1) by (apply Rabs_le; lra). assert (Rabs (sin t) <= 1) by (apply Rabs_le; lra).
  pose proof (Rabs_pos (w_cos w)). pose proof (Rabs_pos (w_sin w)). pose proof (Rabs_pos (cos t)). pose proof (Rabs_pos (sin t)). nra.
Qed.

Lemma k_squared_lower ny nx n p q : (0 < ny <= n)%nat -> (0 < nx <= n)%nat -> ((p =? 0) && (q =? 0))%Z = false ->
  1 <= INR n ^ 2 * ((IZR p / INR ny) ^ 2 + (IZR q / INR nx) ^ 2).
Proof.
  intros Hy Hx Z0.
  assert (L : forall k m, (0 < m <= n)%nat -> k <> 0%Z -> 1 <= INR n ^ 2 * (IZR k / INR m) ^ 2).
  { intros k m Hm Hk. assert (M : 0 < INR m) by (apply lt_0_INR; lia). assert (MN : INR m <= INR n) by (apply le_INR; lia).
    replace (INR n ^ 2 * (IZR k / INR m) ^ 2) with ((IZR k) ^ 2 * (INR n / INR m) ^ 2) by (field; lra).
    assert (1 <= INR n / INR m) by (apply (Rmult_le_reg_r (INR m)); [exact M|]; unfold Rdiv; rewrite Rmult_assoc, Rinv_l, Rmult_1_r, Rmult_1_l by lra; exact MN).
    assert (1 <= IZR k ^ 2). { replace (IZR k ^ 2) with (IZR (k * k)) by (rewrite mult_IZR; ring). apply IZR_le. nia. }
    assert (1 <= (INR n / INR m) ^ 2) by nra. nra. }
  pose proof (pow2_ge_0 (IZR p / INR ny)). pose proof (pow2_ge_0 (IZR q / INR nx)). pose proof (pow2_ge_0 (INR n)).
  apply andb_false_iff in Z0 as [Z0|Z0]; apply Z.eqb_neq in Z0; [pose proof (L p ny Hy Z0)|pose proof (L q nx Hx Z0)]; nra.
Qed.

(** With regularisation: the error is at most (reg n^2 / 2 pi)^2 times the size of
    the surface, n the larger side of the image. *)
Theorem C69_regularised ny nx n ws gy gx reg : (0 < ny <= n)%nat -> (0 < nx <= n)%nat ->
  resolved ny nx ws -> slopes ny nx (surface ny nx ws) gy gx ->
  forall y x, Rabs (phase_from_com ny nx gy gx 0 false reg y x -
                    (surface ny nx ws (INR y) (INR x) - mean ny nx (fun y x => surface ny nx ws (INR y) (INR x))))
              <= (reg * INR n ^ 2 / (2 * PI)) ^ 2 * total_amplitude ws.
Proof.
  intros Hy Hx Hr Hs y x. rewrite (C69_gradient ny nx ws gy gx reg) by (assumption || lia).
  rewrite damped_sum, surface_mean by (assumption || lia). rewrite surface_sum, <- sum_of_minus, <- sum_of_minus.
  clear gy gx Hs Hr. pose proof PI_RGT_0 as Hpi. induction ws as [|w ws IH].
  - cbn. rewrite Rabs_R0. lra.
  - cbn [sum_of fold_right total_amplitude].
    fold (total_amplitude ws). fold (sum_of (fun w => damping ny nx reg w * wave_at ny nx w (INR y) (INR x) -
      (wave_at ny nx w (INR y) (INR x) - (if ((rows w =? 0) && (cols w =? 0))%Z then w_cos w else 0))) ws).
    eapply Rle_trans; [apply Rabs_triang|]. rewrite Rmult_plus_distr_l. apply Rplus_le_compat; [|exact IH].
    set (c := reg * INR n ^ 2 / (2 * PI)). pose proof (wave_bound ny nx w (INR y) (INR x)) as Wb.
    pose proof (Rabs_pos (w_cos w)). pose proof (Rabs_pos (w_sin w)). pose proof (pow2_ge_0 c) as Hc.
    unfold damping. destruct ((rows w =? 0) && (cols w =? 0))%Z eqn:Z0.
    + rewrite (wave_constant _ _ _ _ _ Z0). replace (0 * w_cos w - (w_cos w - w_cos w)) with 0 by ring. rewrite Rabs_R0. nra.
    + pose proof (k_squared_lower ny nx n _ _ Hy Hx Z0) as Hk.
      set (k2 := (IZR (rows w) / INR ny) ^ 2 + (IZR (cols w) / INR nx) ^ 2) in *. set (rho := reg / (2 * PI)).
      assert (Ec : c = rho * INR n ^ 2) by (unfold c, rho; field; lra).
      assert (P2 : 0 < k2 ^ 2).
      { assert (0 <= k2) by (unfold k2; pose proof (pow2_ge_0 (IZR (rows w) / INR ny)); pose proof (pow2_ge_0 (IZR (cols w) / INR nx)); lra).
        assert (k2 <> 0) by (intros Z; rewrite Z in Hk; lra). nra. }
      pose proof (pow2_ge_0 rho) as Pr. set (W := wave_at ny nx w (INR y) (INR x)) in *.
      replace (k2 ^ 2 / (k2 ^ 2 + rho ^ 2) * W - (W - 0)) with (- (rho ^ 2 / (k2 ^ 2 + rho ^ 2)) * W) by (field; lra).
      rewrite Rabs_mult, Rabs_Ropp. assert (Hq : 0 <= rho ^ 2 / (k2 ^ 2 + rho ^ 2)).
      { apply Rmult_le_pos; [lra|]. apply Rlt_le, Rinv_0_lt_compat. lra. }
      rewrite (Rabs_pos_eq _ Hq).
      assert (rho ^ 2 / (k2 ^ 2 + rho ^ 2) <= c ^ 2).
      { apply (Rmult_le_reg_r (k2 ^ 2 + rho ^ 2)); [lra|].
        replace (rho ^ 2 / (k2 ^ 2 + rho ^ 2) * (k2 ^ 2 + rho ^ 2)) with (rho ^ 2) by (field; lra).
        assert (G : c ^ 2 * k2 ^ 2 = rho ^ 2 * (INR n ^ 2 * k2) ^ 2) by (rewrite Ec; ring).
        assert (1 <= (INR n ^ 2 * k2) ^ 2) by nra. nra. }
      pose proof (Rabs_pos W). apply Rmult_le_compat; lra.
Qed.

(** ** Any phase *)
Definition signed (n k : nat) : Z := if (2 * Z.of_nat k <? Z.of_nat n)%Z then Z.of_nat k else (Z.of_nat k - Z.of_nat n)%Z.

Lemma sum_of_app {T} (f : T -> R) l l' : sum_of f (l ++ l') = sum_of f l + sum_of f l'.
Proof.
  induction l as [|a l IH]; cbn [app]; [change (sum_of f []) with 0; ring|].
  change (f a + sum_of f (l ++ l') = f a + sum_of f l + sum_of f l'). rewrite IH. ring.
Qed.
Lemma rsum_list n f : rsum n f = sum_of f (seq 0 n).
Proof.
  induction n as [|n IH]; [reflexivity|]. rewrite seq_S, sum_of_app. cbn [rsum]. rewrite IH.
  change (0 + n)%nat with n. change (sum_of f [n]) with (f n + 0). ring.
Qed.
Lemma sum_of_map {T U} (f : U -> R) (g : T -> U) l : sum_of f (map g l) = sum_of (fun a => f (g a)) l.
Proof. induction l as [|a l IH]; cbn; [reflexivity|]. fold (sum_of f (map g l)). rewrite IH. reflexivity. Qed.
Lemma sum_of_flat_map {T U} (f : U -> R) (g : T -> list U) l : sum_of f (flat_map g l) = sum_of (fun a => sum_of f (g a)) l.
Proof.
  induction l as [|a l IH]; [reflexivity|]. cbn [flat_map]. rewrite sum_of_app, IH. reflexivity.
Qed.

(** An image with an odd number of rows and columns is the restriction of a
    resolved surface to the pixels; so C69_exact is about every image of such a
    shape. *)
Theorem C69_every_odd_image ny nx (f : nat -> nat -> R) : Nat.Odd ny -> Nat.Odd nx ->
  exists ws, resolved ny nx ws /\
    forall y x, (y < ny)%nat -> (x < nx)%nat -> surface ny nx ws (INR y) (INR x) = f y x.
Proof.
  intros [cy Oy] [cx Ox]. assert (Hy : (0 < ny)%nat) by lia. assert (Hx : (0 < nx)%nat) by lia.
  assert (A : INR ny <> 0) by (apply not_0_INR; lia). assert (B : INR nx <> 0) by (apply not_0_INR; lia).
  set (F := fun m n => fft2 ny nx (fun y x => RtoC (f y x)) m n).
  exists (flat_map (fun m => map (fun n => mkWave (signed ny m) (signed nx n)
     (fst (F m n) / (INR ny * INR nx)) (- (snd (F m n) / (INR ny * INR nx)))) (seq 0 nx)) (seq 0 ny)). split.
  - apply Forall_forall. intros w Hw. apply in_flat_map in Hw as (m & Hm & Hw). apply in_map_iff in Hw as (n & <- & Hn).
    apply in_seq in Hm, Hn. cbn [rows cols]. unfold signed.
    destruct (Z.ltb_spec (2 * Z.of_nat m) (Z.of_nat ny)), (Z.ltb_spec (2 * Z.of_nat n) (Z.of_nat nx)); lia.
  - intros y x Ly Lx. rewrite surface_sum, sum_of_flat_map.
    change (f y x) with (fst (RtoC (f y x))). rewrite (inversion ny nx Hy Hx (fun y x => RtoC (f y x)) y x Ly Lx).
    unfold ifft2.
    transitivity (fst (csum ny (fun m => csum nx (fun n => Cmult (Cdiv (F m n) (RtoC (INR ny * INR nx)))
      (E ny nx (signed ny m) (signed nx n) y x))))).
    + rewrite <- csum_fst2, rsum_list. apply sum_of_ext. intros m Hm. rewrite sum_of_map, rsum_list. apply sum_of_ext. intros n Hn.
      unfold wave_at, E, cis. cbn [rows cols w_cos w_sin]. set (t := 2 * PI * _).
      unfold Cmult, Cdiv, Cinv, RtoC. cbn [fst snd]. unfold Cmult. cbn [fst snd]. field. auto.
    + f_equal. unfold Cdiv at 2. rewrite <- csum_scal_r. apply csum_ext. intros m Lm. rewrite <- csum_scal_r.
      apply csum_ext. intros n Ln. fold (F m n).
      assert (Es : E ny nx (signed ny m) (signed nx n) y x = E ny nx (Z.of_nat m) (Z.of_nat n) y x).
      { rewrite <- (E_mod ny nx Hy Hx (signed ny m)). f_equal; unfold signed.
        - destruct (Z.ltb_spec (2 * Z.of_nat m) (Z.of_nat ny)); [apply Z.mod_small; lia|].
          symmetry. apply (Z.mod_unique _ _ (-1)); lia.
        - destruct (Z.ltb_spec (2 * Z.of_nat n) (Z.of_nat nx)); [apply Z.mod_small; lia|].
          symmetry. apply (Z.mod_unique _ _ (-1)); lia. }
      rewrite Es. unfold E. rewrite <- !INR_IZR_INZ. unfold Cdiv. ring.
Qed.

Lemma mean_ext ny nx f g : (forall y x, (y < ny)%nat -> (x < nx)%nat -> f y x = g y x) -> mean ny nx f = mean ny nx g.
Proof.
  intros H. unfold mean. f_equal. apply rsum_ext. intros y Ly. apply rsum_ext. intros x Lx. now apply H.
Qed.

Theorem C69_any_phase ny nx (f : nat -> nat -> R) : Nat.Odd ny -> Nat.Odd nx ->
  exists ws gy gx, resolved ny nx ws /\ slopes ny nx (surface ny nx ws) gy gx /\
    (forall y x, (y < ny)%nat -> (x < nx)%nat -> surface ny nx ws (INR y) (INR x) = f y x) /\
    forall y x, (y < ny)%nat -> (x < nx)%nat -> phase_from_com ny nx gy gx 0 false 0 y x = f y x - mean ny nx f.
Proof.
  intros Oy Ox. assert (Hy : (0 < ny)%nat) by (destruct Oy; lia). assert (Hx : (0 < nx)%nat) by (destruct Ox; lia).
  destruct (C69_every_odd_image ny nx f Oy Ox) as (ws & Hr & V).
  destruct (C69_slopes_exist ny nx ws Hy Hx) as (gy & gx & Hs). exists ws, gy, gx. split; [exact Hr|]. split; [exact Hs|].
  split; [exact V|]. intros y x Ly Lx. rewrite (C69_exact ny nx ws gy gx Hy Hx Hr Hs), V by assumption.
  now rewrite (mean_ext ny nx _ f V).
Qed.

(** ** Statements about any measurement *)
Section Any.
Variables ny nx : nat.
Hypothesis Hy : (0 < ny)%nat.
Hypothesis Hx : (0 < nx)%nat.

Theorem C69_linear a b f0 f1 g0 g1 theta flip reg y x :
  phase_from_com ny nx (fun y x => a * f0 y x + b * g0 y x) (fun y x => a * f1 y x + b * g1 y x) theta flip reg y x =
  a * phase_from_com ny nx f0 f1 theta flip reg y x + b * phase_from_com ny nx g0 g1 theta flip reg y x.
Proof.
  unfold phase_from_com. cbn zeta. set (c := cos theta). set (s := sin theta).
  set (F0 := fun y x => if flip then f0 y x * c + f1 y x * s else f0 y x * c - f1 y x * s).
  set (F1 := fun y x => if flip then f0 y x * s - f1 y x * c else f0 y x * s + f1 y x * c).
  set (G0 := fun y x => if flip then g0 y x * c + g1 y x * s else g0 y x * c - g1 y x * s).
  set (G1 := fun y x => if flip then g0 y x * s - g1 y x * c else g0 y x * s + g1 y x * c).
  rewrite (integrated_ext ny nx _ _
    (fun y x => Cplus (Cmult (RtoC a) (RtoC (F0 y x))) (Cmult (RtoC b) (RtoC (G0 y x))))
    (fun y x => Cplus (Cmult (RtoC a) (RtoC (F1 y x))) (Cmult (RtoC b) (RtoC (G1 y x))))).
  - rewrite (integrated_plus ny nx Hy Hx), !(integrated_scal ny nx Hy Hx).
    assert (Q : forall X Y : C, fst (Cplus (Cmult (RtoC a) X) (Cmult (RtoC b) Y)) = a * fst X + b * fst Y)
      by (intros; cbn; ring). apply Q.
  - intros y' x' _ _. rewrite <- !RtoC_mult, <- !RtoC_plus. unfold F0, F1, G0, G1. destruct flip; split; f_equal; ring.
Qed.

(** A constant shift of the centre of mass (descan, a wrong centre) does not matter. *)
Theorem C69_offset f0 f1 c0 c1 theta flip reg y x :
  phase_from_com ny nx (fun y x => f0 y x + c0) (fun y x => f1 y x + c1) theta flip reg y x =
  phase_from_com ny nx f0 f1 theta flip reg y x.
Proof.
  assert (K : phase_from_com ny nx (fun _ _ => c0) (fun _ _ => c1) theta flip reg y x = 0).
  { unfold phase_from_com. cbn zeta.
    set (d0 := if flip then c0 * cos theta + c1 * sin theta else c0 * cos theta - c1 * sin theta).
    set (d1 := if flip then c0 * sin theta - c1 * cos theta else c0 * sin theta + c1 * cos theta).
    rewrite (integrated_ext ny nx _ _ (fun y x => Cmult (RtoC d0) (E ny nx 0 0 y x)) (fun y x => Cmult (RtoC d1) (E ny nx 0 0 y x))).
    - rewrite (integrated_wave ny nx Hy Hx) by (cbn; lia). reflexivity.
    - intros y' x' _ _. unfold E. replace (2 * PI * (0 * INR y' / INR ny + 0 * INR x' / INR nx)) with 0 by (unfold Rdiv; ring).
      rewrite cis_0. split; ring. }
  pose proof (C69_linear 1 1 f0 f1 (fun _ _ => c0) (fun _ _ => c1) theta flip reg y x) as L. rewrite K in L.
  transitivity (1 * phase_from_com ny nx f0 f1 theta flip reg y x + 1 * 0); [rewrite <- L|ring].
  unfold phase_from_com. cbn zeta. f_equal. apply integrated_ext. intros y' x' _ _. destruct flip; split; f_equal; ring.
Qed.

Theorem C69_zero_mean com0 com1 theta flip reg : mean ny nx (phase_from_com ny nx com0 com1 theta flip reg) = 0.
Proof.
  unfold mean, phase_from_com. cbn zeta. rewrite csum_fst2. unfold integrated. rewrite (sum_ifft2 ny nx Hy Hx).
  cbn [numerator denominator]. unfold Cdiv, Cmult, RtoC. cbn [fst snd]. unfold Rdiv. ring.
Qed.

(** Only the pixels of the image are used. *)
Theorem C69_only_pixels f0 f1 g0 g1 theta flip reg :
  (forall y x, (y < ny)%nat -> (x < nx)%nat -> f0 y x = g0 y x /\ f1 y x = g1 y x) ->
  forall y x, phase_from_com ny nx f0 f1 theta flip reg y x = phase_from_com ny nx g0 g1 theta flip reg y x.
Proof.
  intros H y x. unfold phase_from_com. cbn zeta. f_equal. apply integrated_ext. intros y' x' Ly Lx.
  destruct (H y' x' Ly Lx) as [-> ->]. auto.
Qed.

(** The slopes (gy, gx) measured along axes turned by theta, or turned and
    mirrored, and given with that theta and flip. *)
Theorem C69_rotation gy gx theta reg y x :
  phase_from_com ny nx (fun y x => cos theta * gy y x + sin theta * gx y x)
                       (fun y x => - sin theta * gy y x + cos theta * gx y x) theta false reg y x =
  phase_from_com ny nx gy gx 0 false reg y x.
Proof.
  unfold phase_from_com. cbn zeta. rewrite cos_0, sin_0. f_equal. pose proof (sin2_cos2 theta) as T. unfold Rsqr in T.
  apply integrated_ext. intros y' x' _ _. set (c := cos theta) in *. set (s := sin theta) in *.
  assert (T' : c * c = 1 - s * s) by lra. split; f_equal; ring_simplify; replace (c ^ 2) with (c * c) by ring; rewrite T'; ring.
Qed.

Theorem C69_mirror gy gx theta reg y x :
  phase_from_com ny nx (fun y x => cos theta * gy y x + sin theta * gx y x)
                       (fun y x => sin theta * gy y x - cos theta * gx y x) theta true reg y x =
  phase_from_com ny nx gy gx 0 false reg y x.
Proof.
  unfold phase_from_com. cbn zeta. rewrite cos_0, sin_0. f_equal. pose proof (sin2_cos2 theta) as T. unfold Rsqr in T.
  apply integrated_ext. intros y' x' _ _. set (c := cos theta) in *. set (s := sin theta) in *.
  assert (T' : c * c = 1 - s * s) by lra. split; f_equal; ring_simplify; replace (c ^ 2) with (c * c) by ring; rewrite T'; ring.
Qed.

(** com_sparse returns the horizontal centre of mass first; with aligned axes its
    result needs theta = pi / 2 and flip. *)
Theorem C69_com_order gy gx reg y x :
  phase_from_com ny nx gx gy (PI / 2) true reg y x = phase_from_com ny nx gy gx 0 false reg y x.
Proof.
  unfold phase_from_com. cbn zeta. rewrite cos_0, sin_0, cos_PI2, sin_PI2. f_equal. apply integrated_ext.
  intros y' x' _ _. split; f_equal; ring.
Qed.

(** The part of a measurement that is not a gradient is ignored: the slopes of a
    surface turned by a right angle give nothing. *)
Theorem C69_curl ws gy gx reg y x :
  resolved ny nx ws -> slopes ny nx (surface ny nx ws) gy gx ->
  phase_from_com ny nx gx (fun y x => - gy y x) 0 false reg y x = 0.
Proof.
  intros Hr Hs. rewrite phase_plain. unfold resolved in Hr. rewrite Forall_forall in Hr.
  rewrite (integrated_ext ny nx _ _
    (fun y x => RtoC (sum_of (fun w => 2 * PI * (IZR (cols w) / INR nx) * slope_part ny nx w (INR y) (INR x)) ws))
    (fun y x => RtoC (sum_of (fun w => - (2 * PI * (IZR (rows w) / INR ny)) * slope_part ny nx w (INR y) (INR x)) ws))).
  2: { intros y' x' Ly Lx. destruct (slopes_values _ _ _ _ _ _ _ Hs Ly Lx) as [-> ->]. split; [reflexivity|]. f_equal.
       rewrite <- (Rmult_1_r (sum_of _ ws)) at 1. rewrite Ropp_mult_distr_r, <- sum_of_scal. apply sum_of_ext. intros; ring. }
  rewrite (integrated_sum ny nx Hy Hx (fun w y x => 2 * PI * (IZR (cols w) / INR nx) * slope_part ny nx w (INR y) (INR x))
    (fun w y x => - (2 * PI * (IZR (rows w) / INR ny)) * slope_part ny nx w (INR y) (INR x))).
  clear gy gx Hs. induction ws as [|w ws IH]; [reflexivity|]. cbn [sum_of fold_right]. unfold sum_of in IH.
  rewrite IH by (intros; apply Hr; cbn; auto). destruct (Hr w ltac:(cbn; auto)) as [Hp Hq].
  rewrite (integrated_slopes ny nx Hy Hx) by assumption. destruct ((rows w =? 0) && (cols w =? 0))%Z; [ring|].
  rewrite Rplus_0_r. unfold Rdiv. ring.
Qed.
End Any.

(** The quotient never divides by zero (which NumPy would answer with NaN). *)
Lemma fftfreq_nonzero n k : (0 < k < n)%nat -> fftfreq n k <> 0.
Proof.
  intros H. unfold fftfreq. assert (Hn : 1 / INR n <> 0).
  { unfold Rdiv. rewrite Rmult_1_l. apply Rinv_neq_0_compat, not_0_INR. lia. }
  pose proof (Z.div_mod (Z.of_nat n) 2 ltac:(lia)). pose proof (Z.mod_pos_bound (Z.of_nat n) 2 ltac:(lia)).
  pose proof (Z.div_mod (Z.of_nat n - 1) 2 ltac:(lia)). pose proof (Z.mod_pos_bound (Z.of_nat n - 1) 2 ltac:(lia)).
  destruct (Z.ltb_spec (Z.of_nat k) ((Z.of_nat n - 1) / 2 + 1));
    (apply Rmult_integral_contrapositive_currified; [apply not_0_IZR; lia|exact Hn]).
Qed.

Theorem C69_no_division_by_zero ny nx reg m n : (m < ny)%nat -> (n < nx)%nat -> denominator ny nx reg m n <> RtoC 0.
Proof.
  intros Hm Hn. assert (K : (0 < m)%nat \/ (0 < n)%nat -> 0 < fftfreq nx n ^ 2 + fftfreq ny m ^ 2).
  { pose proof (pow2_ge_0 (fftfreq nx n)). pose proof (pow2_ge_0 (fftfreq ny m)).
    intros [L|L]; [pose proof (Rsqr_pos_lt _ (fftfreq_nonzero ny m ltac:(lia))) as Q|
                   pose proof (Rsqr_pos_lt _ (fftfreq_nonzero nx n ltac:(lia))) as Q]; unfold Rsqr in Q; lra. }
  intros Z. destruct m as [|m], n as [|n]; [apply RtoC_inj in Z; lra|..];
    (specialize (K ltac:(lia)); unfold denominator in Z; set (k2 := fftfreq nx _ ^ 2 + fftfreq ny _ ^ 2) in *;
     apply (f_equal snd) in Z; cbn in Z; pose proof PI_RGT_0; nra).
Qed.

(** ** What does not hold *)
(** The result of com_sparse (horizontal slopes first) without turning: a wave from
    left to right vanishes. *)
Theorem C69_com_order_refuted : exists ny nx ws gy gx, resolved ny nx ws /\ slopes ny nx (surface ny nx ws) gy gx /\
  (forall reg y x, phase_from_com ny nx gx gy 0 false reg y x = 0) /\
  surface ny nx ws 0 1 - mean ny nx (fun y x => surface ny nx ws (INR y) (INR x)) <> 0.
Proof.
  set (ws := [mkWave 0 1 0 1]). destruct (C69_slopes_exist 3 3 ws) as (gy & gx & Hs); [lia..|].
  assert (Hr : resolved 3 3 ws) by (repeat constructor; cbn; lia).
  exists 3%nat, 3%nat, ws, gy, gx. split; [exact Hr|]. split; [exact Hs|]. split.
  - intros reg y x. refine (eq_trans _ (C69_curl 3 3 ltac:(lia) ltac:(lia) ws gy gx reg y x Hr Hs)).
    apply C69_only_pixels. intros y' x' Ly Lx. split; [reflexivity|].
    destruct (slopes_values _ _ _ _ _ _ _ Hs Ly Lx) as [-> _]. cbn. unfold Rdiv. ring.
  - rewrite surface_mean by (assumption || lia). cbn. unfold wave_at. cbn [rows cols w_cos w_sin].
    replace (2 * PI * (0 * 0 / INR 3 + 1 * 1 / INR 3)) with (2 * (PI / 3)) by (cbn; field).
    rewrite sin_2a, sin_PI3, cos_PI3. pose proof (sqrt_lt_R0 3 ltac:(lra)). lra.
Qed.

(** A wave of two pixels per period has no slope at any pixel: it is lost. *)
Theorem C69_nyquist_refuted : exists ny nx w gy gx, slopes ny nx (surface ny nx [w]) gy gx /\
  (forall reg y x, phase_from_com ny nx gy gx 0 false reg y x = 0) /\
  surface ny nx [w] 0 0 - mean ny nx (fun y x => surface ny nx [w] (INR y) (INR x)) = 1.
Proof.
  set (w := mkWave 0 1 1 0). destruct (C69_slopes_exist 2 2 [w]) as (gy & gx & Hs); [lia..|].
  exists 2%nat, 2%nat, w, gy, gx. split; [exact Hs|]. split.
  - intros reg y x.
    transitivity (phase_from_com 2 2 (fun _ _ => 0 * 0 + 0 * 0) (fun _ _ => 0 * 0 + 0 * 0) 0 false reg y x).
    + apply C69_only_pixels. intros y' x' Ly Lx. destruct (slopes_values _ _ _ _ _ _ _ Hs Ly Lx) as [-> ->].
      cbn [sum_of fold_right]. unfold slope_part. cbn [rows cols w_cos w_sin w].
      replace (2 * PI * (0 * INR y' / INR 2 + 1 * INR x' / INR 2)) with (INR x' * PI) by (cbn; field).
      assert (S : sin (INR x' * PI) = 0) by (apply sin_eq_0_1; exists (Z.of_nat x'); now rewrite <- INR_IZR_INZ).
      rewrite S. split; unfold Rdiv; ring.
    + rewrite (C69_linear 2 2 ltac:(lia) ltac:(lia)). ring.
  - unfold mean, surface, wave_at. cbn [rsum fold_right rows cols w_cos w_sin w].
    replace (2 * PI * (0 * 0 / INR 2 + 1 * 0 / INR 2)) with 0 by (cbn; field).
    replace (2 * PI * (0 * INR 0 / INR 2 + 1 * INR 0 / INR 2)) with 0 by (cbn; field).
    replace (2 * PI * (0 * INR 1 / INR 2 + 1 * INR 0 / INR 2)) with 0 by (cbn; field).
    replace (2 * PI * (0 * INR 0 / INR 2 + 1 * INR 1 / INR 2)) with PI by (cbn; field).
    replace (2 * PI * (0 * INR 1 / INR 2 + 1 * INR 1 / INR 2)) with PI by (cbn; field).
    rewrite cos_0, sin_0, cos_PI, sin_PI. cbn. field.
Qed.

(** ** A case that meets the hypotheses *)
Definition ex_ws := [mkWave 1 (-2) 1 2; mkWave 0 2 3 (-1); mkWave 0 0 7 0].
Example ex_phase : resolved 4 5 ex_ws /\ (exists gy gx, slopes 4 5 (surface 4 5 ex_ws) gy gx) /\
  surface 4 5 ex_ws 0 0 - mean 4 5 (fun y x => surface 4 5 ex_ws (INR y) (INR x)) = 4.
Proof.
  assert (Hr : resolved 4 5 ex_ws) by (repeat constructor; cbn; lia).
  split; [exact Hr|]. split; [apply C69_slopes_exist; lia|]. rewrite surface_mean by (assumption || lia).
  unfold surface, wave_at. cbn [ex_ws fold_right rows cols w_cos w_sin sum_of Z.eqb andb].
  repeat match goal with |- context [cos (2 * PI * ?e)] => replace (2 * PI * e) with 0 by (cbn; field) end.
  rewrite cos_0, sin_0. ring.
Qed.

Print Assumptions C69_slopes_exist.
Print Assumptions C69_gradient.
Print Assumptions C69_exact.
Print Assumptions C69_regularised.
Print Assumptions C69_every_odd_image.
Print Assumptions C69_any_phase.
Print Assumptions C69_linear.
Print Assumptions C69_offset.
Print Assumptions C69_zero_mean.
Print Assumptions C69_only_pixels.
Print Assumptions C69_rotation.
Print Assumptions C69_mirror.
Print Assumptions C69_com_order.
Print Assumptions C69_curl.
Print Assumptions C69_no_division_by_zero.
Print Assumptions C69_com_order_refuted.
Print Assumptions C69_nyquist_refuted.
