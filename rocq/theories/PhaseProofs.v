(** Fourier sums, for C69. *)
From Coq Require Import Reals ZArith List Lia Lra Bool.
From Coquelicot Require Import Hierarchy Derive AutoDerive Complex.
From Verif Require Import PhaseModel PhaseSpec.
Import ListNotations.
Open Scope R_scope.

Lemma C_ext (a b : C) : fst a = fst b -> snd a = snd b -> a = b.
Proof. destruct a, b; cbn; intros -> ->; reflexivity. Qed.

(** ** Sums *)
Lemma csum_ext n f g : (forall k, (k < n)%nat -> f k = g k) -> csum n f = csum n g.
Proof.
  induction n as [|n IH]; intros H; [reflexivity|]. cbn. rewrite IH, (H n) by (intros; try apply H; lia). reflexivity.
Qed.
Lemma csum_plus n f g : csum n (fun k => Cplus (f k) (g k)) = Cplus (csum n f) (csum n g).
Proof. induction n as [|n IH]; cbn; [|rewrite IH]; ring. Qed.
Lemma csum_scal n c f : csum n (fun k => Cmult c (f k)) = Cmult c (csum n f).
Proof. induction n as [|n IH]; cbn; [|rewrite IH]; ring. Qed.
Lemma csum_scal_r n c f : csum n (fun k => Cmult (f k) c) = Cmult (csum n f) c.
Proof. induction n as [|n IH]; cbn; [|rewrite IH]; ring. Qed.
Lemma csum_zero n f : (forall k, (k < n)%nat -> f k = RtoC 0) -> csum n f = RtoC 0.
Proof.
  induction n as [|n IH]; intros H; [reflexivity|]. cbn. rewrite IH, (H n) by (intros; try apply H; lia). ring.
Qed.
Lemma csum_single n f j : (j < n)%nat -> (forall k, (k < n)%nat -> k <> j -> f k = RtoC 0) -> csum n f = f j.
Proof.
  induction n as [|n IH]; intros Hj H; [lia|]. cbn. destruct (Nat.eq_dec j n) as [->|D].
  - rewrite csum_zero; [ring|]. intros k Hk. apply H; lia.
  - rewrite IH, (H n) by (intros; try apply H; lia). ring.
Qed.
Lemma csum_swap n m (f : nat -> nat -> C) : csum n (fun i => csum m (fun j => f i j)) = csum m (fun j => csum n (fun i => f i j)).
Proof.
  induction n as [|n IH]; cbn.
  - symmetry. now apply csum_zero.
  - rewrite IH, <- csum_plus. reflexivity.
Qed.
Lemma csum_one n : csum n (fun _ => RtoC 1) = RtoC (INR n).
Proof.
  induction n as [|n IH]; [reflexivity|]. cbn [csum]. rewrite IH, S_INR, RtoC_plus. reflexivity.
Qed.
Lemma csum_fst n f : fst (csum n f) = rsum n (fun k => fst (f k)).
Proof. induction n as [|n IH]; cbn; [reflexivity|]. rewrite <- IH. reflexivity. Qed.
Lemma csum_real n f : csum n (fun k => RtoC (f k)) = RtoC (rsum n f).
Proof. induction n as [|n IH]; cbn; [reflexivity|]. rewrite IH, RtoC_plus. reflexivity. Qed.
Lemma rsum_ext n f g : (forall k, (k < n)%nat -> f k = g k) -> rsum n f = rsum n g.
Proof.
  induction n as [|n IH]; intros H; [reflexivity|]. cbn. rewrite IH, (H n) by (intros; try apply H; lia). reflexivity.
Qed.
Lemma rsum_plus n f g : rsum n (fun k => f k + g k) = rsum n f + rsum n g.
Proof. induction n as [|n IH]; cbn; [|rewrite IH]; ring. Qed.
Lemma rsum_const n c : rsum n (fun _ => c) = INR n * c.
Proof. induction n as [|n IH]; [cbn; ring|]. cbn [rsum]. rewrite IH, S_INR. ring. Qed.

(** ** Exponentials *)
Lemma cis_plus a b : cis (a + b) = Cmult (cis a) (cis b).
Proof. unfold cis, Cmult. cbn. rewrite cos_plus, sin_plus. f_equal; ring. Qed.
Lemma cis_0 : cis 0 = RtoC 1.
Proof. unfold cis. now rewrite cos_0, sin_0. Qed.
Lemma cis_nat n : cis (2 * PI * INR n) = RtoC 1.
Proof.
  unfold cis. replace (2 * PI * INR n) with (0 + 2 * INR n * PI) by ring.
  now rewrite cos_period, sin_period, cos_0, sin_0.
Qed.
Lemma cis_int k : cis (2 * PI * IZR k) = RtoC 1.
Proof.
  destruct (Z.le_gt_cases 0 k) as [H|H].
  - rewrite <- (Z2Nat.id k H), <- INR_IZR_INZ. apply cis_nat.
  - pose proof (cis_nat (Z.to_nat (- k))) as E. rewrite INR_IZR_INZ, Z2Nat.id, opp_IZR in E by lia.
    unfold cis in *. replace (2 * PI * IZR k) with (- (2 * PI * - IZR k)) by ring.
    rewrite cos_neg, sin_neg. injection E as -> ->. unfold RtoC. f_equal. ring.
Qed.
Lemma cis_shift t k : cis (t + 2 * PI * IZR k) = cis t.
Proof. rewrite cis_plus, cis_int. ring. Qed.

Lemma cis_one_inv t : cis t = RtoC 1 -> exists k, t = 2 * PI * IZR k.
Proof.
  intros H. injection H as Hc _. assert (S : sin (t / 2) = 0).
  { replace t with (2 * (t / 2)) in Hc by field. rewrite cos_2a_sin in Hc. nra. }
  apply sin_eq_0_0 in S as [k Hk]. exists k. lra.
Qed.

Lemma geometric n t : Cmult (Cminus (cis t) (RtoC 1)) (csum n (fun y => cis (INR y * t))) = Cminus (cis (INR n * t)) (RtoC 1).
Proof.
  induction n as [|n IH].
  - cbn [csum]. rewrite Rmult_0_l, cis_0. ring.
  - cbn [csum]. rewrite S_INR, Rmult_plus_distr_r, Rmult_1_l, cis_plus.
    transitivity (Cplus (Cmult (Cminus (cis t) (RtoC 1)) (csum n (fun y => cis (INR y * t))))
                        (Cmult (Cminus (cis t) (RtoC 1)) (cis (INR n * t)))); [ring|]. rewrite IH. ring.
Qed.

Lemma orthogonal n d : (0 < n)%nat ->
  csum n (fun y => cis (2 * PI * (IZR d * INR y / INR n))) =
  if (d mod Z.of_nat n =? 0)%Z then RtoC (INR n) else RtoC 0.
Proof.
  intros Hn. assert (Hr : INR n <> 0) by (apply not_0_INR; lia). destruct (Z.eqb_spec (d mod Z.of_nat n) 0) as [E|E].
  - rewrite <- csum_one. apply csum_ext. intros y _.
    replace (2 * PI * (IZR d * INR y / INR n)) with (2 * PI * IZR (d / Z.of_nat n * Z.of_nat y)); [apply cis_int|].
    rewrite mult_IZR, <- INR_IZR_INZ. f_equal.
    assert (Q : IZR d = INR n * IZR (d / Z.of_nat n)).
    { rewrite INR_IZR_INZ, <- mult_IZR. f_equal. pose proof (Z.div_mod d (Z.of_nat n) ltac:(lia)). lia. }
    rewrite Q. field. exact Hr.
  - set (t := 2 * PI * IZR d / INR n).
    rewrite (csum_ext _ _ (fun y => cis (INR y * t))) by (intros; f_equal; unfold t; field; exact Hr).
    pose proof (geometric n t) as G. assert (Hnt : cis (INR n * t) = RtoC 1).
    { rewrite <- (cis_int d). f_equal. unfold t. field. exact Hr. }
    rewrite Hnt in G. assert (N1 : Cminus (cis t) (RtoC 1) <> RtoC 0).
    { intros H. apply E. assert (cis t = RtoC 1) as H1 by (rewrite <- (Cplus_0_r (RtoC 1)), <- H; ring).
      apply cis_one_inv in H1 as [k Hk]. assert (IZR d = IZR (k * Z.of_nat n)) as Hd.
      { rewrite mult_IZR, <- INR_IZR_INZ. unfold t in Hk. pose proof PI_RGT_0 as Hpi.
        apply (Rmult_eq_reg_l (2 * PI)); [|lra]. transitivity (INR n * (2 * PI * IZR d / INR n)); [field; exact Hr|].
        rewrite Hk. ring. }
      apply eq_IZR in Hd. subst d. apply Z.mod_mul. lia. }
    set (s := csum n (fun y => cis (INR y * t))) in *.
    transitivity (Cdiv (Cmult (Cminus (cis t) (RtoC 1)) s) (Cminus (cis t) (RtoC 1))); [field; exact N1|].
    rewrite G. field. exact N1.
Qed.

(** ** Indices and frequencies *)
Lemma mod_index (n : nat) p k : (0 < n)%nat -> (k < n)%nat ->
  ((p - Z.of_nat k) mod Z.of_nat n =? 0)%Z = (k =? Z.to_nat (p mod Z.of_nat n))%nat.
Proof.
  intros Hn Hk. pose proof (Z.mod_pos_bound p (Z.of_nat n) ltac:(lia)) as B.
  destruct (Nat.eqb_spec k (Z.to_nat (p mod Z.of_nat n))) as [->|D].
  - apply Z.eqb_eq. rewrite Z2Nat.id by lia. rewrite Zminus_mod, Z.mod_mod, Z.sub_diag by lia. apply Z.mod_0_l. lia.
  - apply Z.eqb_neq. intros H. apply D. apply Z.mod_divide in H as [c Hc]; [|lia].
    assert (p mod Z.of_nat n = Z.of_nat k)%Z; [|lia]. symmetry. apply (Z.mod_unique _ _ c); lia.
Qed.

Lemma mod_zero_index (n : nat) p : (0 < n)%nat -> (2 * Z.abs p < Z.of_nat n)%Z -> Z.to_nat (p mod Z.of_nat n) = O <-> p = 0%Z.
Proof.
  intros Hn H. pose proof (Z.mod_pos_bound p (Z.of_nat n) ltac:(lia)). split.
  - intros E0. assert (p mod Z.of_nat n = 0)%Z as E1 by lia. apply Z.mod_divide in E1 as [c Hc]; [|lia].
    assert (c = 0%Z) by nia. lia.
  - intros ->. rewrite Z.mod_0_l by lia. reflexivity.
Qed.

Lemma fftfreq_mod (n : nat) p : (2 * Z.abs p < Z.of_nat n)%Z ->
  fftfreq n (Z.to_nat (p mod Z.of_nat n)) = IZR p / INR n.
Proof.
  intros H. unfold fftfreq. rewrite Z2Nat.id by (apply Z.mod_pos_bound; lia).
  assert (Hn : INR n <> 0) by (apply not_0_INR; lia).
  destruct (Z.le_gt_cases 0 p) as [P|P].
  - rewrite Z.mod_small by lia. assert (p < (Z.of_nat n - 1) / 2 + 1)%Z by (apply Z.lt_succ_r, Z.div_le_lower_bound; lia).
    destruct (Z.ltb_spec p ((Z.of_nat n - 1) / 2 + 1)); [|lia]. field. exact Hn.
  - replace (p mod Z.of_nat n)%Z with (p + Z.of_nat n)%Z by (apply (Z.mod_unique _ _ (-1)); lia).
    assert ((Z.of_nat n - 1) / 2 < p + Z.of_nat n)%Z by (apply Z.div_lt_upper_bound; lia).
    destruct (Z.ltb_spec (p + Z.of_nat n) ((Z.of_nat n - 1) / 2 + 1)); [lia|].
    replace (- (Z.of_nat n / 2) + (p + Z.of_nat n - ((Z.of_nat n - 1) / 2 + 1)))%Z with p.
    + field. exact Hn.
    + pose proof (Z.div_mod (Z.of_nat n) 2 ltac:(lia)). pose proof (Z.mod_pos_bound (Z.of_nat n) 2 ltac:(lia)).
      pose proof (Z.div_mod (Z.of_nat n - 1) 2 ltac:(lia)). pose proof (Z.mod_pos_bound (Z.of_nat n - 1) 2 ltac:(lia)). lia.
Qed.

(** ** Transforms of waves *)
Section Shape.
Variables ny nx : nat.
Hypothesis Hy : (0 < ny)%nat.
Hypothesis Hx : (0 < nx)%nat.

Definition E (p q : Z) (y x : nat) : C := cis (2 * PI * (IZR p * INR y / INR ny + IZR q * INR x / INR nx)).

Lemma ny0 : INR ny <> 0. Proof. apply not_0_INR. lia. Qed.
Lemma nx0 : INR nx <> 0. Proof. apply not_0_INR. lia. Qed.
Lemma nynx0 : RtoC (INR ny * INR nx) <> RtoC 0.
Proof. intros H. apply RtoC_inj in H. apply Rmult_integral in H as [H|H]; [apply ny0|apply nx0]; exact H. Qed.

Lemma fft2_ext a b m n : (forall y x, (y < ny)%nat -> (x < nx)%nat -> a y x = b y x) -> fft2 ny nx a m n = fft2 ny nx b m n.
Proof. intros H. unfold fft2. apply csum_ext. intros y Ly. apply csum_ext. intros x Lx. now rewrite H. Qed.
Lemma fft2_plus a b m n : fft2 ny nx (fun y x => Cplus (a y x) (b y x)) m n = Cplus (fft2 ny nx a m n) (fft2 ny nx b m n).
Proof.
  unfold fft2. rewrite <- csum_plus. apply csum_ext. intros y _. rewrite <- csum_plus. apply csum_ext. intros x _. ring.
Qed.
Lemma fft2_scal c a m n : fft2 ny nx (fun y x => Cmult c (a y x)) m n = Cmult c (fft2 ny nx a m n).
Proof.
  unfold fft2. rewrite <- csum_scal. apply csum_ext. intros y _. rewrite <- csum_scal. apply csum_ext. intros x _. ring.
Qed.

Lemma fft2_wave p q m n :
  fft2 ny nx (E p q) m n =
  if ((p - Z.of_nat m) mod Z.of_nat ny =? 0)%Z && ((q - Z.of_nat n) mod Z.of_nat nx =? 0)%Z
  then RtoC (INR ny * INR nx) else RtoC 0.
Proof.
  pose proof ny0 as A. pose proof nx0 as B. unfold fft2, E.
  rewrite (csum_ext _ _ (fun y => Cmult (cis (2 * PI * (IZR (p - Z.of_nat m) * INR y / INR ny)))
     (csum nx (fun x => cis (2 * PI * (IZR (q - Z.of_nat n) * INR x / INR nx)))))).
  - rewrite csum_scal_r, !orthogonal by assumption.
    destruct (_ =? 0)%Z, (_ =? 0)%Z; cbn [andb]; rewrite ?RtoC_mult; ring.
  - intros y _. rewrite <- csum_scal. apply csum_ext. intros x _. rewrite <- !cis_plus. f_equal.
    rewrite !minus_IZR, <- !INR_IZR_INZ. field. split; assumption.
Qed.

Lemma ifft2_ext a b y x : (forall m n, (m < ny)%nat -> (n < nx)%nat -> a m n = b m n) -> ifft2 ny nx a y x = ifft2 ny nx b y x.
Proof. intros H. unfold ifft2. f_equal. apply csum_ext. intros m Lm. apply csum_ext. intros n Ln. now rewrite H. Qed.
Lemma ifft2_plus a b y x : ifft2 ny nx (fun m n => Cplus (a m n) (b m n)) y x = Cplus (ifft2 ny nx a y x) (ifft2 ny nx b y x).
Proof.
  unfold ifft2. rewrite (csum_ext _ _ (fun m => Cplus (csum nx (fun n => Cmult (a m n) (cis (2 * PI * (INR m * INR y / INR ny + INR n * INR x / INR nx)))))
     (csum nx (fun n => Cmult (b m n) (cis (2 * PI * (INR m * INR y / INR ny + INR n * INR x / INR nx))))))).
  - rewrite csum_plus. field. apply nynx0.
  - intros m _. rewrite <- csum_plus. apply csum_ext. intros n _. ring.
Qed.
Lemma ifft2_scal c a y x : ifft2 ny nx (fun m n => Cmult c (a m n)) y x = Cmult c (ifft2 ny nx a y x).
Proof.
  unfold ifft2. rewrite (csum_ext _ _ (fun m => Cmult c (csum nx (fun n => Cmult (a m n) (cis (2 * PI * (INR m * INR y / INR ny + INR n * INR x / INR nx))))))).
  - rewrite csum_scal. field. apply nynx0.
  - intros m _. rewrite <- csum_scal. apply csum_ext. intros n _. ring.
Qed.

(** One coefficient. *)
Lemma ifft2_single a m0 n0 y x : (m0 < ny)%nat -> (n0 < nx)%nat ->
  (forall m n, (m < ny)%nat -> (n < nx)%nat -> (m <> m0 \/ n <> n0) -> a m n = RtoC 0) ->
  ifft2 ny nx a y x = Cdiv (Cmult (a m0 n0) (E (Z.of_nat m0) (Z.of_nat n0) y x)) (RtoC (INR ny * INR nx)).
Proof.
  intros Hm Hn H. unfold ifft2. f_equal. rewrite (csum_single _ _ m0 Hm), (csum_single _ _ n0 Hn).
  - unfold E. now rewrite <- !INR_IZR_INZ.
  - intros k Hk D. rewrite H by auto. ring.
  - intros k Hk D. apply csum_zero. intros n Ln. rewrite H by auto. ring.
Qed.

Lemma E_mod p q y x : E (p mod Z.of_nat ny) (q mod Z.of_nat nx) y x = E p q y x.
Proof.
  pose proof ny0 as A. pose proof nx0 as B. unfold E. symmetry.
  rewrite <- (cis_shift _ (p / Z.of_nat ny * Z.of_nat y + q / Z.of_nat nx * Z.of_nat x)).
  rewrite (Z.div_mod p (Z.of_nat ny)) at 1 by lia. rewrite (Z.div_mod q (Z.of_nat nx)) at 1 by lia.
  symmetry.
  rewrite <- (cis_shift _ (p / Z.of_nat ny * Z.of_nat y + q / Z.of_nat nx * Z.of_nat x)). 
  rewrite <- (cis_shift _ (p / Z.of_nat ny * Z.of_nat y + q / Z.of_nat nx * Z.of_nat x)). 
  f_equal. rewrite !plus_IZR, !mult_IZR, <- !INR_IZR_INZ. field. split; assumption.
Qed.

(** ** The integral *)
Lemma integrated_ext u v u' v' reg y x :
  (forall y x, (y < ny)%nat -> (x < nx)%nat -> u y x = u' y x /\ v y x = v' y x) ->
  integrated ny nx u v reg y x = integrated ny nx u' v' reg y x.
Proof.
  intros H. unfold integrated. apply ifft2_ext. intros m n _ _. f_equal. unfold numerator.
  rewrite (fft2_ext u u'), (fft2_ext v v') by (intros; now apply H). reflexivity.
Qed.
Lemma integrated_plus u v u' v' reg y x :
  integrated ny nx (fun y x => Cplus (u y x) (u' y x)) (fun y x => Cplus (v y x) (v' y x)) reg y x =
  Cplus (integrated ny nx u v reg y x) (integrated ny nx u' v' reg y x).
Proof.
  unfold integrated. rewrite <- ifft2_plus. apply ifft2_ext. intros m n _ _. unfold numerator.
  rewrite !fft2_plus. unfold Cdiv. destruct m, n; ring.
Qed.
Lemma integrated_scal c u v reg y x :
  integrated ny nx (fun y x => Cmult c (u y x)) (fun y x => Cmult c (v y x)) reg y x =
  Cmult c (integrated ny nx u v reg y x).
Proof.
  unfold integrated. rewrite <- ifft2_scal. apply ifft2_ext. intros m n _ _. unfold numerator.
  rewrite !fft2_scal. unfold Cdiv. destruct m, n; ring.
Qed.



Definition k_squared (p q : Z) : R := (IZR p / INR ny) ^ 2 + (IZR q / INR nx) ^ 2.

Lemma integrated_wave p q a b reg y x :
  (2 * Z.abs p < Z.of_nat ny)%Z -> (2 * Z.abs q < Z.of_nat nx)%Z ->
  integrated ny nx (fun y x => Cmult a (E p q y x)) (fun y x => Cmult b (E p q y x)) reg y x =
  if ((p =? 0) && (q =? 0))%Z then RtoC 0
  else Cmult (Cdiv (Cplus (Cmult a (RtoC (IZR p / INR ny))) (Cmult b (RtoC (IZR q / INR nx))))
                   (Cplus (Cmult (Cmult (RtoC (2 * PI)) Ci) (RtoC (k_squared p q))) (RtoC reg)))
             (E p q y x).
Proof.
  intros Hp Hq. pose proof ny0 as A. pose proof nx0 as B.
  pose proof (Z.mod_pos_bound p (Z.of_nat ny) ltac:(lia)) as Bp. pose proof (Z.mod_pos_bound q (Z.of_nat nx) ltac:(lia)) as Bq.
  set (m0 := Z.to_nat (p mod Z.of_nat ny)). set (n0 := Z.to_nat (q mod Z.of_nat nx)).
  unfold integrated. rewrite (ifft2_single _ m0 n0) by
    (try (unfold m0, n0; lia); intros m n Lm Ln D; unfold numerator; rewrite !fft2_scal, !fft2_wave;
     rewrite !mod_index by lia; fold m0 n0;
     replace ((m =? m0) && (n =? n0))%nat with false
       by (symmetry; apply andb_false_iff; destruct D as [D|D]; [left|right]; now apply Nat.eqb_neq);
     unfold Cdiv; destruct m, n; ring).
  assert (E0 : E (Z.of_nat m0) (Z.of_nat n0) y x = E p q y x) by (unfold m0, n0; rewrite !Z2Nat.id by lia; apply E_mod).
  rewrite E0. pose proof (mod_zero_index ny p Hy Hp) as Zp. pose proof (mod_zero_index nx q Hx Hq) as Zq.
  pose proof (fftfreq_mod ny p Hp) as Fp. pose proof (fftfreq_mod nx q Hq) as Fq.
  fold m0 in Zp, Fp. fold n0 in Zq, Fq.
  assert (G : numerator ny nx (fun y x => Cmult a (E p q y x)) (fun y x => Cmult b (E p q y x)) m0 n0 =
    if ((p =? 0) && (q =? 0))%Z then RtoC 0 else
    Cmult (RtoC (INR ny * INR nx)) (Cplus (Cmult a (RtoC (IZR p / INR ny))) (Cmult b (RtoC (IZR q / INR nx))))).
  { unfold numerator. rewrite !fft2_scal, !fft2_wave, !mod_index by (unfold m0, n0; lia). fold m0 n0.
    rewrite !Nat.eqb_refl, Fp, Fq. cbn [andb].
    destruct (Z.eqb_spec p 0) as [P|P], (Z.eqb_spec q 0) as [Q|Q]; cbn [andb].
    - rewrite (proj2 Zp P), (proj2 Zq Q). reflexivity.
    - destruct m0; [destruct n0; [exfalso; apply Q, Zq; reflexivity|]|]; ring.
    - destruct m0; [exfalso; apply P, Zp; reflexivity|]; ring.
    - destruct m0; [exfalso; apply P, Zp; reflexivity|]; ring. }
  assert (D : ((p =? 0) && (q =? 0))%Z = false -> denominator ny nx reg m0 n0 =
    Cplus (Cmult (Cmult (RtoC (2 * PI)) Ci) (RtoC (k_squared p q))) (RtoC reg)).
  { intros Hnz. unfold denominator. rewrite Fp, Fq. unfold k_squared.
    rewrite (Rplus_comm ((IZR p / INR ny) ^ 2)).
    destruct (Z.eqb_spec p 0) as [P|P], (Z.eqb_spec q 0) as [Q|Q]; try discriminate.
    - destruct m0; [destruct n0; [exfalso; apply Q, Zq; reflexivity|]|]; reflexivity.
    - destruct m0; [exfalso; apply P, Zp; reflexivity|]; reflexivity.
    - destruct m0; [exfalso; apply P, Zp; reflexivity|]; reflexivity. }
  rewrite G. destruct ((p =? 0) && (q =? 0))%Z.
  - unfold Cdiv. ring.
  - rewrite D by reflexivity. pose proof nynx0. unfold Cdiv. set (I := Cinv (Cplus _ _)). field. assumption.
Qed.

(** Real and imaginary part of a wave. *)
Lemma E_conj p q y x : E (- p) (- q) y x = (fst (E p q y x), - snd (E p q y x)).
Proof.
  unfold E, cis. cbn [fst snd]. rewrite !opp_IZR.
  replace (2 * PI * (- IZR p * INR y / INR ny + - IZR q * INR x / INR nx)) with
    (- (2 * PI * (IZR p * INR y / INR ny + IZR q * INR x / INR nx))) by (unfold Rdiv; ring).
  now rewrite cos_neg, sin_neg.
Qed.
End Shape.

(** ** Slopes of a surface *)
Definition slope_part (ny nx : nat) (w : wave) (y x : R) : R :=
  let t := 2 * PI * (IZR (rows w) * y / INR ny + IZR (cols w) * x / INR nx) in
  w_sin w * cos t - w_cos w * sin t.

Lemma wave_dy ny nx w y x : INR ny <> 0 -> INR nx <> 0 ->
  derivable_pt_lim (fun t => wave_at ny nx w t x) y (2 * PI * (IZR (rows w) / INR ny) * slope_part ny nx w y x).
Proof.
  intros A B. apply is_derive_Reals. unfold wave_at, slope_part. auto_derive; [exact I|]. unfold Rdiv. ring.
Qed.
Lemma wave_dx ny nx w y x : INR ny <> 0 -> INR nx <> 0 ->
  derivable_pt_lim (fun t => wave_at ny nx w y t) x (2 * PI * (IZR (cols w) / INR nx) * slope_part ny nx w y x).
Proof.
  intros A B. apply is_derive_Reals. unfold wave_at, slope_part. auto_derive; [exact I|]. unfold Rdiv. ring.
Qed.

Definition sum_of {T} (f : T -> R) (l : list T) : R := fold_right (fun a s => f a + s) 0 l.
Lemma surface_dy ny nx ws y x : INR ny <> 0 -> INR nx <> 0 ->
  derivable_pt_lim (fun t => surface ny nx ws t x) y
    (sum_of (fun w => 2 * PI * (IZR (rows w) / INR ny) * slope_part ny nx w y x) ws).
Proof.
  intros A B. induction ws as [|w ws IH]; cbn.
  - apply derivable_pt_lim_const.
  - apply (derivable_pt_lim_plus (fun t => wave_at ny nx w t x)); [now apply wave_dy|exact IH].
Qed.
Lemma surface_dx ny nx ws y x : INR ny <> 0 -> INR nx <> 0 ->
  derivable_pt_lim (fun t => surface ny nx ws y t) x
    (sum_of (fun w => 2 * PI * (IZR (cols w) / INR nx) * slope_part ny nx w y x) ws).
Proof.
  intros A B. induction ws as [|w ws IH]; cbn.
  - apply derivable_pt_lim_const.
  - apply (derivable_pt_lim_plus (fun t => wave_at ny nx w y t)); [now apply wave_dx|exact IH].
Qed.

(** ** The integral of the slopes of one wave *)
Section Waves.
Variables ny nx : nat.
Hypothesis Hy : (0 < ny)%nat.
Hypothesis Hx : (0 < nx)%nat.
Notation E := (E ny nx).
Notation k_squared := (k_squared ny nx).

Lemma slope_exp w y x : RtoC (slope_part ny nx w (INR y) (INR x)) =
  Cplus (Cmult (w_sin w / 2, w_cos w / 2) (E (rows w) (cols w) y x))
        (Cmult (w_sin w / 2, - (w_cos w / 2)) (E (- rows w) (- cols w) y x)).
Proof.
  rewrite E_conj. unfold slope_part, PhaseProofs.E, cis, Cplus, Cmult, RtoC. cbn [fst snd]. f_equal; field.
Qed.

Lemma k_squared_pos p q : ((p =? 0) && (q =? 0))%Z = false -> 0 < k_squared p q.
Proof.
  intros H. assert (A : INR ny <> 0) by (apply not_0_INR; lia). assert (B : INR nx <> 0) by (apply not_0_INR; lia). unfold PhaseProofs.k_squared.
  pose proof (pow2_ge_0 (IZR p / INR ny)). pose proof (pow2_ge_0 (IZR q / INR nx)).
  assert (NZ : IZR p / INR ny <> 0 \/ IZR q / INR nx <> 0).
  { apply andb_false_iff in H as [H|H]; apply Z.eqb_neq in H; [left|right];
      (apply Rmult_integral_contrapositive_currified; [now apply not_0_IZR|now apply Rinv_neq_0_compat]). }
  destruct NZ as [N|N]; pose proof (Rsqr_pos_lt _ N) as N2; unfold Rsqr in N2; lra.
Qed.

(** With the amplitudes [a] and [b] in the two directions, for any real [reg]. *)
Lemma integrated_slopes w a b reg y x :
  (2 * Z.abs (rows w) < Z.of_nat ny)%Z -> (2 * Z.abs (cols w) < Z.of_nat nx)%Z ->
  fst (integrated ny nx (fun y x => RtoC (a * slope_part ny nx w (INR y) (INR x)))
                        (fun y x => RtoC (b * slope_part ny nx w (INR y) (INR x))) reg y x) =
  if ((rows w =? 0) && (cols w =? 0))%Z then 0
  else (a * (IZR (rows w) / INR ny) + b * (IZR (cols w) / INR nx)) *
       (2 * PI * k_squared (rows w) (cols w) / ((2 * PI * k_squared (rows w) (cols w)) ^ 2 + reg ^ 2)) *
       wave_at ny nx w (INR y) (INR x).
Proof.
  intros Hp Hq. set (p := rows w) in *. set (q := cols w) in *.
  rewrite (integrated_ext ny nx _ _
    (fun y x => Cplus (Cmult (Cmult (RtoC a) (w_sin w / 2, w_cos w / 2)) (E p q y x))
                      (Cmult (Cmult (RtoC a) (w_sin w / 2, - (w_cos w / 2))) (E (- p) (- q) y x)))
    (fun y x => Cplus (Cmult (Cmult (RtoC b) (w_sin w / 2, w_cos w / 2)) (E p q y x))
                      (Cmult (Cmult (RtoC b) (w_sin w / 2, - (w_cos w / 2))) (E (- p) (- q) y x)))).
  2: { intros y' x' _ _. rewrite !RtoC_mult, slope_exp. fold p q. split; ring. }
  rewrite (integrated_plus ny nx Hy Hx), !(integrated_wave ny nx Hy Hx) by lia.
  assert (Z1 : ((- p =? 0) && (- q =? 0))%Z = ((p =? 0) && (q =? 0))%Z) by (destruct (Z.eqb_spec p 0), (Z.eqb_spec q 0), (Z.eqb_spec (- p) 0), (Z.eqb_spec (- q) 0); try lia; reflexivity).
  rewrite Z1. destruct ((p =? 0) && (q =? 0))%Z eqn:Z0.
  - cbn. ring.
  - pose proof (k_squared_pos p q Z0) as Hk.
    assert (K : k_squared (- p) (- q) = k_squared p q) by (unfold PhaseProofs.k_squared; rewrite !opp_IZR; unfold Rdiv; ring).
    rewrite K. set (k2 := k_squared p q) in *. set (r := 2 * PI * k2).
    assert (Hr : 0 < r) by (unfold r; pose proof PI_RGT_0; nra).
    assert (D : Cplus (Cmult (Cmult (RtoC (2 * PI)) Ci) (RtoC k2)) (RtoC reg) = (reg, r)).
    { unfold r, Cplus, Cmult, Ci, RtoC. cbn [fst snd]. f_equal; ring. }
    rewrite D, E_conj, !opp_IZR.
    unfold wave_at, PhaseProofs.E, cis. fold p q. set (t := 2 * PI * (IZR p * INR y / INR ny + IZR q * INR x / INR nx)).
    unfold Cdiv, Cinv, Cplus, Cmult, RtoC. cbn [fst snd]. assert (A : INR ny <> 0) by (apply not_0_INR; lia). assert (B : INR nx <> 0) by (apply not_0_INR; lia).
    field. repeat split; auto; nra.
Qed.
End Waves.

(** ** Inverse and mean *)
Lemma csum_fst2 ny nx (a : nat -> nat -> C) :
  rsum ny (fun y => rsum nx (fun x => fst (a y x))) = fst (csum ny (fun y => csum nx (fun x => a y x))).
Proof. rewrite csum_fst. apply rsum_ext. intros y _. now rewrite csum_fst. Qed.

Lemma csum_swap4 ny nx (f : nat -> nat -> nat -> nat -> C) :
  csum ny (fun y => csum nx (fun x => csum ny (fun m => csum nx (fun n => f y x m n)))) =
  csum ny (fun m => csum nx (fun n => csum ny (fun y => csum nx (fun x => f y x m n)))).
Proof.
  transitivity (csum ny (fun y => csum ny (fun m => csum nx (fun x => csum nx (fun n => f y x m n))))).
  { apply csum_ext. intros y _. apply csum_swap. }
  rewrite csum_swap. apply csum_ext. intros m _.
  transitivity (csum ny (fun y => csum nx (fun n => csum nx (fun x => f y x m n)))).
  { apply csum_ext. intros y _. apply csum_swap. }
  apply csum_swap.
Qed.

Section Inverse.
Variables ny nx : nat.
Hypothesis Hy : (0 < ny)%nat.
Hypothesis Hx : (0 < nx)%nat.
Notation E := (E ny nx).

Lemma sum_wave p q : csum ny (fun y => csum nx (fun x => E p q y x)) =
  if (p mod Z.of_nat ny =? 0)%Z && (q mod Z.of_nat nx =? 0)%Z then RtoC (INR ny * INR nx) else RtoC 0.
Proof.
  pose proof (fft2_wave ny nx Hy Hx p q 0 0) as F. rewrite !Z.sub_0_r in F. rewrite <- F. unfold fft2.
  apply csum_ext. intros y _. apply csum_ext. intros x _. cbn [INR].
  replace (- (2 * PI * (0 * INR y / INR ny + 0 * INR x / INR nx))) with 0 by (unfold Rdiv; ring). rewrite cis_0. ring.
Qed.

Lemma sum_ifft2 a : csum ny (fun y => csum nx (fun x => ifft2 ny nx a y x)) = a O O.
Proof.
  pose proof (nynx0 ny nx Hy Hx) as N0. unfold ifft2.
  transitivity (Cdiv (csum ny (fun y => csum nx (fun x => csum ny (fun m => csum nx (fun n =>
     Cmult (a m n) (E (Z.of_nat m) (Z.of_nat n) y x)))))) (RtoC (INR ny * INR nx))).
  { unfold Cdiv. rewrite <- csum_scal_r. apply csum_ext. intros y _. rewrite <- csum_scal_r. apply csum_ext. intros x _.
    f_equal. apply csum_ext. intros m _. apply csum_ext. intros n _. unfold PhaseProofs.E. now rewrite <- !INR_IZR_INZ. }
  rewrite csum_swap4.
  rewrite (csum_single ny _ O Hy), (csum_single nx _ O Hx).
  - transitivity (Cdiv (Cmult (a O O) (csum ny (fun y => csum nx (fun x => E 0 0 y x)))) (RtoC (INR ny * INR nx))).
    { f_equal. rewrite <- csum_scal. apply csum_ext. intros y _. rewrite <- csum_scal. reflexivity. }
    rewrite sum_wave, !Z.mod_0_l by lia. cbn [Z.eqb andb]. field. exact N0.
  - intros n Ln Dn. transitivity (Cmult (a O n) (csum ny (fun y => csum nx (fun x => E 0 (Z.of_nat n) y x)))).
    { rewrite <- csum_scal. apply csum_ext. intros y _. rewrite <- csum_scal. reflexivity. }
    rewrite sum_wave, (Z.mod_small (Z.of_nat n)) by lia. destruct (Z.eqb_spec (Z.of_nat n) 0); [lia|].
    rewrite andb_false_r. ring.
  - intros m Lm Dm. apply csum_zero. intros n Ln.
    transitivity (Cmult (a m n) (csum ny (fun y => csum nx (fun x => E (Z.of_nat m) (Z.of_nat n) y x)))).
    { rewrite <- csum_scal. apply csum_ext. intros y _. rewrite <- csum_scal. reflexivity. }
    rewrite sum_wave, (Z.mod_small (Z.of_nat m)) by lia. destruct (Z.eqb_spec (Z.of_nat m) 0); [lia|]. cbn [andb]. ring.
Qed.

Lemma inversion a y x : (y < ny)%nat -> (x < nx)%nat ->
  a y x = ifft2 ny nx (fft2 ny nx a) y x.
Proof.
  intros Ly Lx. pose proof (nynx0 ny nx Hy Hx) as N0.
  assert (A : INR ny <> 0) by (apply not_0_INR; lia). assert (B : INR nx <> 0) by (apply not_0_INR; lia).
  unfold ifft2, fft2.
  transitivity (Cdiv (csum ny (fun m => csum nx (fun n => csum ny (fun y' => csum nx (fun x' =>
     Cmult (a y' x') (cis (2 * PI * (IZR (Z.of_nat y - Z.of_nat y') * INR m / INR ny + IZR (Z.of_nat x - Z.of_nat x') * INR n / INR nx)))))))) (RtoC (INR ny * INR nx))).
  2: { f_equal. apply csum_ext. intros m _. apply csum_ext. intros n _. rewrite <- csum_scal_r. apply csum_ext. intros y' _.
       rewrite <- csum_scal_r. apply csum_ext. intros x' _. rewrite <- Cmult_assoc, <- cis_plus. do 2 f_equal.
       rewrite !minus_IZR, <- !INR_IZR_INZ. field. auto. }
  rewrite csum_swap4.
  assert (K : forall y' x', csum ny (fun m => csum nx (fun n => Cmult (a y' x')
      (cis (2 * PI * (IZR (Z.of_nat y - Z.of_nat y') * INR m / INR ny + IZR (Z.of_nat x - Z.of_nat x') * INR n / INR nx))))) =
    Cmult (a y' x') (if ((Z.of_nat y - Z.of_nat y') mod Z.of_nat ny =? 0)%Z && ((Z.of_nat x - Z.of_nat x') mod Z.of_nat nx =? 0)%Z
                     then RtoC (INR ny * INR nx) else RtoC 0)).
  { intros y' x'. rewrite <- sum_wave, <- csum_scal. apply csum_ext. intros m _. rewrite <- csum_scal. reflexivity. }
  rewrite (csum_single ny _ y Ly), (csum_single nx _ x Lx).
  - rewrite K, !Z.sub_diag, !Z.mod_0_l by lia. cbn [Z.eqb andb]. field. exact N0.
  - intros x' Lx' D. rewrite K, (mod_index nx) by lia. rewrite (Z.mod_small (Z.of_nat x)), Nat2Z.id by lia.
    rewrite (proj2 (Nat.eqb_neq _ _) D), andb_false_r. ring.
  - intros y' Ly' D. apply csum_zero. intros x' Lx'. rewrite K, (mod_index ny) by lia. rewrite (Z.mod_small (Z.of_nat y)), Nat2Z.id by lia.
    rewrite (proj2 (Nat.eqb_neq _ _) D). cbn [andb]. ring.
Qed.
End Inverse.

(** ** Sums over lists *)
Lemma integrated_sum ny nx (Hy : (0 < ny)%nat) (Hx : (0 < nx)%nat) {T} (f g : T -> nat -> nat -> R) reg l y x :
  fst (integrated ny nx (fun y x => RtoC (sum_of (fun a => f a y x) l)) (fun y x => RtoC (sum_of (fun a => g a y x) l)) reg y x) =
  sum_of (fun a => fst (integrated ny nx (fun y x => RtoC (f a y x)) (fun y x => RtoC (g a y x)) reg y x)) l.
Proof.
  induction l as [|a l IH].
  - cbn [sum_of fold_right]. rewrite (integrated_ext ny nx _ _ (fun _ _ => Cmult (RtoC 0) (RtoC 0)) (fun _ _ => Cmult (RtoC 0) (RtoC 0)))
      by (intros; split; ring). rewrite (integrated_scal ny nx Hy Hx). cbn. ring.
  - cbn [sum_of fold_right]. fold (sum_of (fun a => fst (integrated ny nx (fun y x => RtoC (f a y x)) (fun y x => RtoC (g a y x)) reg y x)) l).
    rewrite <- IH. rewrite (integrated_ext ny nx _ _
      (fun y x => Cplus (RtoC (f a y x)) (RtoC (sum_of (fun a => f a y x) l)))
      (fun y x => Cplus (RtoC (g a y x)) (RtoC (sum_of (fun a => g a y x) l)))).
    + rewrite (integrated_plus ny nx Hy Hx). reflexivity.
    + intros y' x' _ _. split; apply RtoC_plus.
Qed.

Lemma phase_plain ny nx com0 com1 reg y x :
  phase_from_com ny nx com0 com1 0 false reg y x =
  fst (integrated ny nx (fun y x => RtoC (com0 y x)) (fun y x => RtoC (com1 y x)) reg y x).
Proof.
  unfold phase_from_com. f_equal. apply integrated_ext. intros y' x' _ _. rewrite cos_0, sin_0. split; f_equal; ring.
Qed.

Lemma surface_sum ny nx ws y x : surface ny nx ws y x = sum_of (fun w => wave_at ny nx w y x) ws.
Proof. reflexivity. Qed.
Lemma sum_of_ext {T} (f g : T -> R) l : (forall a, In a l -> f a = g a) -> sum_of f l = sum_of g l.
Proof.
  induction l as [|a l IH]; intros H; [reflexivity|]. cbn. fold (sum_of f l) (sum_of g l).
  rewrite IH, (H a) by (intros; try apply H; cbn; auto). reflexivity.
Qed.
Lemma sum_of_minus {T} (f g : T -> R) l : sum_of (fun a => f a - g a) l = sum_of f l - sum_of g l.
Proof. induction l as [|a l IH]; cbn; [ring|]. fold (sum_of f l) (sum_of g l) (sum_of (fun a => f a - g a) l). rewrite IH. ring. Qed.

Lemma wave_mean ny nx w : (0 < ny)%nat -> (0 < nx)%nat ->
  (2 * Z.abs (rows w) < Z.of_nat ny)%Z -> (2 * Z.abs (cols w) < Z.of_nat nx)%Z ->
  rsum ny (fun y => rsum nx (fun x => wave_at ny nx w (INR y) (INR x))) =
  if ((rows w =? 0) && (cols w =? 0))%Z then w_cos w * (INR ny * INR nx) else 0.
Proof.
  intros Hy Hx Hp Hq.
  rewrite (rsum_ext ny _ (fun y => rsum nx (fun x => fst (Cmult (w_cos w, - w_sin w) (E ny nx (rows w) (cols w) y x))))).
  2: { intros y _. apply rsum_ext. intros x _. unfold wave_at, E, cis, Cmult. cbn [fst snd]. ring. }
  rewrite csum_fst2.
  rewrite (csum_ext ny _ (fun y => Cmult (w_cos w, - w_sin w) (csum nx (fun x => E ny nx (rows w) (cols w) y x))))
    by (intros; apply csum_scal).
  rewrite csum_scal, (sum_wave ny nx Hy Hx).
  replace (rows w mod Z.of_nat ny =? 0)%Z with (rows w =? 0)%Z.
  2: { pose proof (mod_zero_index ny (rows w) Hy Hp). pose proof (Z.mod_pos_bound (rows w) (Z.of_nat ny)).
       destruct (Z.eqb_spec (rows w) 0), (Z.eqb_spec (rows w mod Z.of_nat ny) 0); lia. }
  replace (cols w mod Z.of_nat nx =? 0)%Z with (cols w =? 0)%Z.
  2: { pose proof (mod_zero_index nx (cols w) Hx Hq). pose proof (Z.mod_pos_bound (cols w) (Z.of_nat nx)).
       destruct (Z.eqb_spec (cols w) 0), (Z.eqb_spec (cols w mod Z.of_nat nx) 0); lia. }
  destruct ((rows w =? 0) && (cols w =? 0))%Z; cbn; ring.
Qed.

Lemma rsum_sum_of {T} n (f : T -> nat -> R) l : rsum n (fun k => sum_of (fun a => f a k) l) = sum_of (fun a => rsum n (f a)) l.
Proof.
  induction l as [|a l IH].
  - cbn. rewrite rsum_const. ring.
  - change (rsum n (fun k => f a k + sum_of (fun a => f a k) l) = rsum n (f a) + sum_of (fun a => rsum n (f a)) l).
    now rewrite rsum_plus, IH.
Qed.

Lemma sum_of_scal {T} c (f : T -> R) l : sum_of (fun a => f a * c) l = sum_of f l * c.
Proof. induction l as [|a l IH]; cbn; [ring|]. fold (sum_of f l) (sum_of (fun a => f a * c) l). rewrite IH. ring. Qed.

Lemma surface_mean ny nx ws : (0 < ny)%nat -> (0 < nx)%nat -> resolved ny nx ws ->
  mean ny nx (fun y x => surface ny nx ws (INR y) (INR x)) =
  sum_of (fun w => if ((rows w =? 0) && (cols w =? 0))%Z then w_cos w else 0) ws.
Proof.
  intros Hy Hx Hr. unfold mean.
  assert (A : INR ny <> 0) by (apply not_0_INR; lia). assert (B : INR nx <> 0) by (apply not_0_INR; lia).
  rewrite (rsum_ext ny _ (fun y => sum_of (fun w => rsum nx (fun x => wave_at ny nx w (INR y) (INR x))) ws))
    by (intros y _; apply (rsum_sum_of nx (fun w x => wave_at ny nx w (INR y) (INR x)))).
  rewrite (rsum_sum_of ny (fun w y => rsum nx (fun x => wave_at ny nx w (INR y) (INR x)))).
  rewrite (sum_of_ext _ (fun w => (if ((rows w =? 0) && (cols w =? 0))%Z then w_cos w else 0) * (INR ny * INR nx)) ws).
  - rewrite sum_of_scal. field. auto.
  - intros w Hw. unfold resolved in Hr. rewrite Forall_forall in Hr. destruct (Hr w Hw). rewrite wave_mean by assumption.
    destruct ((rows w =? 0) && (cols w =? 0))%Z; ring.
Qed.
