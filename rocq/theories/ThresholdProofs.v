(** Sampling, histogram and absence of undefined behaviour. *)
From Coq Require Import String ZArith List Bool Reals Lia Lra Psatz.
From Flocq Require Import Core.
From Verif Require Import Base BaseFacts BlockModel CountSpec Double Float32 FloatConv ThresholdModel ThresholdSpec
  ThresholdStats.
Import ListNotations.
Open Scope Z_scope.

Local Arguments Z.mul : simpl never.
Local Arguments Z.add : simpl never.
Local Arguments Z.pow : simpl never.

(** * Sampling *)
Section Sampling.
  Variables (blocks : list block) (dark gain : option (list float32)) (w h n : Z).
  Variable val : Z -> Z -> Z.
  Hypothesis Hne : 0 < Zlen blocks.
  Hypothesis Hwh : 0 < w * h.
  Hypothesis Hn : 0 <= n.
  Hypothesis Hsz : w * h * n < 2 ^ 31.
  Hypothesis Hnp : w * h < 2 ^ 32.
  Hypothesis Hb : forall b, In b blocks -> block_ok b /\ frame_dims (hdr b) = (w, h) /\
    0 < images_in_block (hdr b) < 2 ^ 31.
  Hypothesis Hval : forall f j, In f (stored_frames blocks) -> 0 <= j < w * h ->
    sample_value dark gain (zat f j) j = Ok (val (zat f j) j).

  (** Frame [k] of block [bi]. *)
  Definition frame_at (bi k : Z) : list Z :=
    match data (nth (Z.to_nat bi) blocks empty_block) with Some d => image d w h k | None => [] end.
  Definition images_at (bi : Z) : Z := images_in_block (hdr (nth (Z.to_nat bi) blocks empty_block)).

  Lemma block_at bi : 0 <= bi < Zlen blocks -> In (nth (Z.to_nat bi) blocks empty_block) blocks.
  Proof. intros H. apply nth_In. unfold Zlen in H. lia. Qed.

  Lemma frame_stored bi k : 0 <= bi < Zlen blocks -> 0 <= k < images_at bi -> In (frame_at bi k) (stored_frames blocks).
  Proof.
    intros H1 H2. unfold frame_at, images_at in *. pose proof (block_at bi H1) as Hin.
    set (b := nth (Z.to_nat bi) blocks empty_block) in *. destruct (Hb b Hin) as (K & Ed & _).
    destruct (bk_data b K) as (d & Edat & _). rewrite Edat. unfold stored_frames.
    apply in_map_iff. exists (zat (image_numbers (hdr b)) k, (frame_dims (hdr b), image d w h k)).
    split; [reflexivity|]. apply in_flat_map. exists b. split; [exact Hin|]. unfold frames_of. rewrite Edat, Ed.
    apply in_map_iff. exists k. split; [reflexivity|]. apply in_zseq. rewrite <- (bk_images b K). exact H2.
  Qed.

  Lemma stored_at f : In f (stored_frames blocks) ->
    exists bi k, 0 <= bi < Zlen blocks /\ 0 <= k < images_at bi /\ f = frame_at bi k.
  Proof.
    unfold stored_frames. intros H. apply in_map_iff in H as (x & <- & H). apply in_flat_map in H as (b & Hin & H).
    destruct (Hb b Hin) as (K & Ed & _). destruct (bk_data b K) as (d & Edat & _). unfold frames_of in H.
    rewrite Edat, Ed in H. apply in_map_iff in H as (k & <- & Hk). apply in_zseq in Hk. cbn [fst snd].
    apply (In_nth _ _ empty_block) in Hin as (i & Hi & Ei). exists (Z.of_nat i), k. unfold images_at, frame_at.
    rewrite Nat2Z.id, Ei, Edat, (bk_images b K). unfold Zlen in *. repeat split; try lia.
  Qed.

  Lemma one_sample rb rf i s :
    0 <= i < n -> Zlen s = w * h * n ->
    exists s', take_sample blocks dark gain (w * h) i rb rf s = Ok s' /\ Zlen s' = w * h * n /\
      let bi := rb mod Zlen blocks in let k := rf mod images_at bi in
      (forall j, 0 <= j < w * h -> zat s' (i * (w * h) + j) = val (zat (frame_at bi k) j) j) /\
      (forall p, p < i * (w * h) -> zat s' p = zat s p).
  Proof.
    intros Hi Hs. unfold take_sample, uniform_int.
    destruct (Z.ltb_spec (Zlen blocks - 1) 0); [lia|]. cbn [bind].
    replace (0 + rb mod (Zlen blocks - 1 - 0 + 1)) with (rb mod Zlen blocks) by (rewrite Z.add_0_l; f_equal; lia).
    pose proof (Z.mod_pos_bound rb (Zlen blocks) Hne) as Bb. set (bi := rb mod Zlen blocks) in *.
    rewrite (rd_ok blocks bi empty_block) by (unfold Zlen in *; lia). cbn [bind].
    pose proof (block_at bi Bb) as Hin. unfold images_at, frame_at. cbv zeta. fold bi.
    set (b := nth (Z.to_nat bi) blocks empty_block) in *.
    destruct (Hb b Hin) as (K & Ed & Him). destruct (bk_data b K) as (d & Edat & Ld & Ld2 & _).
    rewrite Ed in Ld, Ld2. cbn [fst snd] in Ld, Ld2. rewrite <- (bk_images b K) in Ld, Ld2.
    assert (Hst : In (image d w h (rf mod images_in_block (hdr b))) (stored_frames blocks)).
    { pose proof (frame_stored bi (rf mod images_in_block (hdr b)) Bb) as Q. unfold images_at, frame_at in Q. fold b in Q.
      rewrite Edat in Q. apply Q. apply Z.mod_pos_bound. lia. }
    set (I := images_in_block (hdr b)) in *.
    rewrite u32_id by (unfold is_u32; lia). unfold i32_of_u32. destruct (Z.ltb_spec (I - 1) (2 ^ 31)); [|lia].
    destruct (Z.ltb_spec (I - 1) 0); [lia|]. cbn [bind].
    replace (0 + rf mod (I - 1 - 0 + 1)) with (rf mod I) by (rewrite Z.add_0_l; f_equal; lia).
    pose proof (Z.mod_pos_bound rf I ltac:(lia)) as Bf. set (k := rf mod I) in *.
    unfold block_data. rewrite Edat. cbn [bind].
    assert (Hin' : forall j, 0 <= j < w * h -> 0 <= k * (w * h) + j < Zlen d /\ k * (w * h) + j < 2 ^ 32) by (intros; nia).
    destruct (for_loop_inv (fun m s' => Zlen s' = w * h * n /\
        (forall j, 0 <= j < m -> zat s' (i * (w * h) + j) = val (zat (image d w h k) j) j) /\
        (forall p, p < i * (w * h) -> zat s' p = zat s p))
      (w * h) (fun j s => let* v := rd d (u32 (k * (w * h) + j)) in
         let* v' := sample_value dark gain v j in wr s (u32 (i * (w * h) + j)) v') s)
      as (s' & E & L1 & V & O); try lia.
    - split; [exact Hs|]. split; [intros; lia|reflexivity].
    - intros j s1 Hj (L1 & V & O). specialize (Hin' j Hj).
      rewrite u32_id by (unfold is_u32; lia). rewrite rd_zat by lia. cbn [bind].
      assert (Ez : zat d (k * (w * h) + j) = zat (image d w h k) j).
      { unfold image. rewrite zat_firstn by lia. rewrite zat_skipn by lia. f_equal. nia. }
      rewrite Ez, Hval by assumption. cbn [bind].
      assert (0 <= i * (w * h) + j < w * h * n) by nia.
      rewrite u32_id by (unfold is_u32; lia). rewrite wr_ok by lia.
      eexists. split; [reflexivity|]. split; [now rewrite Zlen_upd|]. split.
      + intros j' Hj'. rewrite zat_upd by lia. destruct (Z.eqb_spec (i * (w * h) + j') (i * (w * h) + j)) as [Eq|Nq].
        * assert (j' = j) by lia. subst j'. reflexivity.
        * apply V. lia.
      + intros p Hp. rewrite zat_upd by lia. destruct (Z.eqb_spec p (i * (w * h) + j)); [lia|]. now apply O.
    - exists s'. split; [exact E|]. split; [exact L1|]. split; [exact V|exact O].
  Qed.

  Lemma samples_ok rnd :
    exists s, take_samples blocks dark gain n rnd = Ok s /\ Zlen s = w * h * n /\
      forall i j, 0 <= i < n -> 0 <= j < w * h ->
        let bi := rnd (2 * i) mod Zlen blocks in
        zat s (i * (w * h) + j) = val (zat (frame_at bi (rnd (2 * i + 1) mod images_at bi)) j) j.
  Proof.
    unfold take_samples. rewrite (rd_ok blocks 0 empty_block) by (unfold Zlen in *; lia). cbn [bind].
    pose proof (block_at 0 ltac:(lia)) as Hin. destruct (Hb _ Hin) as (_ & Ed & _). rewrite Ed. cbn [fst snd].
    rewrite (u32_id (w * h)) by (unfold is_u32; lia). rewrite u32_id by (unfold is_u32; nia).
    unfold i32_of_u32. destruct (Z.ltb_spec (w * h * n) (2 ^ 31)); [|lia].
    destruct (Z.ltb_spec (w * h * n) 0); [nia|].
    destruct (for_loop_inv (fun m s => Zlen s = w * h * n /\
        forall i j, 0 <= i < m -> 0 <= j < w * h ->
          zat s (i * (w * h) + j) =
          val (zat (frame_at (rnd (2 * i) mod Zlen blocks)
            (rnd (2 * i + 1) mod images_at (rnd (2 * i) mod Zlen blocks))) j) j)
      n (fun i s => take_sample blocks dark gain (w * h) i (rnd (2 * i)) (rnd (2 * i + 1)) s)
      (repeat 0 (Z.to_nat (w * h * n)))) as (s & E & L1 & V); auto.
    - split; [rewrite Zlen_repeat; nia|intros; lia].
    - intros i s Hi (L1 & V). destruct (one_sample (rnd (2 * i)) (rnd (2 * i + 1)) i s Hi L1) as (s' & E' & L' & V' & O).
      exists s'. split; [exact E'|]. split; [exact L'|]. intros i' j Hi' Hj.
      destruct (Z.eq_dec i' i) as [->|N]; [now apply V'|].
      assert (i' * (w * h) + j < i * (w * h)) by nia. rewrite O by assumption. apply V; lia.
    - exists s. split; [exact E|]. split; [exact L1|exact V].
  Qed.
End Sampling.

(** * Histogram *)
Lemma occurrences_app l v x : occurrences (l ++ [v]) x = occurrences l x + (if x =? v then 1 else 0).
Proof.
  unfold occurrences. rewrite filter_app. rewrite Zlen_app. f_equal. cbn [filter]. now destruct (x =? v).
Qed.

Lemma histogram_ok l lo nb : 0 <= nb -> (forall v, In v l -> lo <= v) ->
  exists hh, fill_histogram l lo nb = Ok hh /\ Zlen hh = nb /\
    forall i, 0 <= i < nb -> zat hh i = occurrences l (lo + i).
Proof.
  intros Hnb Hlo. unfold fill_histogram.
  apply (for_each_inv (fun pre hh => Zlen hh = nb /\ forall i, 0 <= i < nb -> zat hh i = occurrences pre (lo + i))).
  - split; [rewrite Zlen_repeat; lia|]. intros i Hi. rewrite zat_repeat0. reflexivity.
  - intros pre v post s E (L1 & V).
    assert (lo <= v) by (apply Hlo; rewrite E; apply in_or_app; right; now left).
    destruct (Z.leb_spec nb (v - lo)).
    + exists s. split; [reflexivity|]. split; [exact L1|]. intros i Hi. rewrite occurrences_app, V by exact Hi.
      destruct (Z.eqb_spec (lo + i) v); lia.
    + rewrite rd_zat by lia. cbn [bind]. rewrite wr_ok by lia. eexists. split; [reflexivity|].
      split; [now rewrite Zlen_upd|]. intros i Hi. rewrite zat_upd by lia. rewrite occurrences_app, !V by lia.
      destruct (Z.eqb_spec i (v - lo)); destruct (Z.eqb_spec (lo + i) v); try lia.
      subst i. lia.
Qed.

Lemma fold_min t : forall x, fold_left Z.min t x <= x /\ (forall v, In v t -> fold_left Z.min t x <= v) /\
  (fold_left Z.min t x = x \/ In (fold_left Z.min t x) t).
Proof.
  induction t as [|y t IH]; intros x; cbn [fold_left].
  - split; [lia|]. split; [intros v []|now left].
  - destruct (IH (Z.min x y)) as (A & B & C). split; [lia|]. split.
    + intros v [<-|Hv]; [lia|now apply B].
    + destruct C as [C|C]; [|right; now right]. rewrite C. destruct (Z.min_spec x y) as [[_ ->]|[_ ->]]; auto.
      right. now left.
Qed.
Lemma fold_max t : forall x, x <= fold_left Z.max t x /\ (forall v, In v t -> v <= fold_left Z.max t x) /\
  (fold_left Z.max t x = x \/ In (fold_left Z.max t x) t).
Proof.
  induction t as [|y t IH]; intros x; cbn [fold_left].
  - split; [lia|]. split; [intros v []|now left].
  - destruct (IH (Z.max x y)) as (A & B & C). split; [lia|]. split.
    + intros v [<-|Hv]; [lia|now apply B].
    + destruct C as [C|C]; [|right; now right]. rewrite C. destruct (Z.max_spec x y) as [[_ ->]|[_ ->]]; auto.
      right. now left.
Qed.

Lemma min_max_ok l : 0 < Zlen l -> exists a b, min_max l = Ok (a, b) /\ is_min l a /\ is_max l b.
Proof.
  destruct l as [|x t]; intros H; [unfold Zlen in H; cbn in H; lia|].
  destruct (fold_min t x) as (A & B & C). destruct (fold_max t x) as (A' & B' & C').
  do 2 eexists. split; [reflexivity|]. split; split.
  - destruct C as [->|C]; [now left|now right].
  - intros v [<-|Hv]; auto.
  - destruct C' as [->|C']; [now left|now right].
  - intros v [<-|Hv]; auto.
Qed.

(** * Deviation and cut-offs *)
Lemma Ztrunc_bound a k : (0 <= a)%R -> (IZR k <= a)%R -> k <= Ztrunc a.
Proof. intros H0 H. rewrite <- (Ztrunc_IZR k). now apply Ztrunc_le. Qed.

Lemma d_rnd_le_int a k : Z.abs k <= 2 ^ 53 -> (a <= IZR k)%R -> (d_rnd a <= IZR k)%R.
Proof. intros H H1. rewrite <- (d_rnd_int k H). now apply d_rnd_le. Qed.
Lemma d_rnd_ge_int a k : Z.abs k <= 2 ^ 53 -> (IZR k <= a)%R -> (IZR k <= d_rnd a)%R.
Proof. intros H H1. rewrite <- (d_rnd_int k H). now apply d_rnd_le. Qed.

Lemma d_rnd_err a : (0 <= a <= bpow radix2 32)%R -> (Rabs (d_rnd a - a) <= bpow radix2 (-20))%R.
Proof.
  intros B. destruct (Req_dec a 0) as [->|N].
  { rewrite d_rnd_0, Rminus_0_r, Rabs_R0. apply bpow_ge_0. }
  pose proof (error_le_half_ulp radix2 d_exp (fun x => negb (Z.even x)) a) as E.
  change (round radix2 d_exp (Znearest (fun x => negb (Z.even x))) a) with (d_rnd a) in E.
  apply Rle_trans with (1 := E).
  assert (ulp radix2 d_exp a <= bpow radix2 (-20))%R.
  { rewrite ulp_neq_0 by exact N. apply bpow_le. unfold cexp, FLT_exp.
    assert (mag radix2 a <= 33)%Z.
    { apply mag_le_bpow; [exact N|]. rewrite Rabs_pos_eq by lra. apply Rle_lt_trans with (1 := proj2 B).
      apply bpow_lt. lia. }
    lia. }
  pose proof (ulp_ge_0 radix2 d_exp a). pose proof (bpow_gt_0 radix2 (-20)). lra.
Qed.

Section Core.
  Variables (l : list Z) (M K : Z) (xr : double) (q : R).
  Hypothesis Hl : sane l.
  Hypothesis H2 : 2 <= Zlen l.
  Hypothesis HM : forall v, In v l -> v <= M.
  Hypothesis Hq : dval xr q.
  Hypothesis Bq : (1 <= q <= IZR K)%R.
  Hypothesis Hfit : M + 2 * M * (M + 2 * K * M) < 2 ^ 31.
  Hypothesis HV : (1 + bpow radix2 (-18) <= variance_of l)%R.

  Let mean := calculate_mean l.
  Let variance := calculate_variance l mean.
  Let sd := d_sqrt variance.
  Let xray := d_add mean (d_mul xr sd).
  Let m := d_rnd (mean_of l).

  Lemma M_pos : 1 <= M.
  Proof.
    destruct (Z_le_gt_dec M 0) as [C|C]; [|lia]. exfalso.
    assert (Z : forall v, In v l -> v = 0).
    { intros v Hv. pose proof (HM v Hv). destruct Hl as [U _]. specialize (U v Hv). unfold is_u16 in U. lia. }
    assert (variance_of l = 0)%R as E.
    { unfold variance_of. assert (mean_of l = 0)%R as ->.
      { unfold mean_of. rewrite (zsum_const l 0 Z). unfold Rdiv. rewrite Z.mul_0_l. apply Rmult_0_l. }
      assert (rsum (map (fun v => ((IZR v - 0) * (IZR v - 0))%R) l) = 0)%R as ->; [|unfold Rdiv; apply Rmult_0_l].
      revert Z. clear. induction l as [|v t IH]; intros Z; [reflexivity|]. cbn [map rsum].
      rewrite (Z v) by (now left). rewrite IH; [ring|]. intros; apply Z; now right. }
    rewrite E in HV. pose proof (bpow_gt_0 radix2 (-18)). lra.
  Qed.

  Lemma K_pos : 1 <= K.
  Proof. apply le_IZR. lra. Qed.

  Lemma m_bounds : (0 <= m <= IZR M)%R.
  Proof.
    pose proof (mean_bounds l M Hl HM) as B. pose proof M_pos. pose proof K_pos. split; [apply d_rnd_nonneg; lra|].
    apply d_rnd_le_int; [nia|lra].
  Qed.

  Lemma variance_upper : (variance_of l <= 2 * (IZR M * IZR M))%R.
  Proof.
    unfold variance_of. pose proof (mean_bounds l M Hl HM) as B. pose proof (IZR_le 2 _ H2) as H2'.
    apply Rmult_le_reg_r with (IZR (Zlen l) - 1)%R; [lra|]. unfold Rdiv. rewrite Rmult_assoc, Rinv_l, Rmult_1_r by lra.
    assert (G : forall t, (forall v, In v t -> In v l) ->
      (rsum (map (fun v => (IZR v - mean_of l) * (IZR v - mean_of l)) t) <= IZR (Zlen t) * (IZR M * IZR M))%R).
    { induction t as [|v t IH]; intros Hin.
      - cbn [map rsum]. unfold Zlen. cbn. lra.
      - cbn [map rsum]. rewrite Zlen_cons, plus_IZR. specialize (IH (fun x Hx => Hin x (or_intror Hx))).
        assert (Hv : In v l) by (apply Hin; now left). pose proof (IZR_le _ _ (HM v Hv)) as U.
        assert (0 <= IZR v)%R. { apply (IZR_le 0). destruct Hl as [X _]. specialize (X v Hv). unfold is_u16 in X. lia. }
        assert ((IZR v - mean_of l) * (IZR v - mean_of l) <= IZR M * IZR M)%R by nra. lra. }
    specialize (G l (fun v H => H)). pose proof (Rle_0_sqr (IZR M)) as S. unfold Rsqr in S. nra.
  Qed.

  Lemma core :
    exists lo hi B hist amp,
      is_min l lo /\ is_max l hi /\ lo < B <= hi /\ histogram_of l lo B hist /\ is_max hist amp /\
      statistics l q mean variance sd xray /\
      (B = hi \/ exists s x, dval sd s /\ dval xray x /\ (m + x * s - 2 <= IZR B)%R) /\
      (exists x, dval xray x /\ m <= x)%R /\
      forall fit n bg, thresholds_of_samples fit l n bg xr =
        match fit (map (fun i => lo + i) (zseq (B - lo))) hist amp mean sd with
        | None => Throw "Optimization did not converge"
        | Some (om, os) => Ok (mkThresholds (d_add om (d_mul (d_abs os) bg)) xray n lo hi mean variance sd
                                 (B - lo) xr bg om (d_abs os))
        end.
  Proof.
    pose proof M_pos as PM. pose proof K_pos as PK. pose proof m_bounds as Bm. pose proof variance_upper as VU.
    pose proof (IZR_le 1 M PM) as PMr. pose proof (IZR_le 1 K PK) as PKr.
    pose proof (mean_ok l Hl : dval mean m) as Dm.
    destruct (variance_ok l Hl H2) as (v & Dv & Ev & V0 & v0). fold mean variance in Dv.
    set (b := bpow radix2 (-19)) in *.
    assert (E18 : bpow radix2 (-18) = (2 * b)%R)
      by (unfold b; change 2%R with (bpow radix2 1); rewrite <- bpow_plus; reflexivity).
    assert (Pb : (0 < b)%R) by apply bpow_gt_0.
    assert (Sb : (b <= / 1000)%R).
    { apply Rle_trans with (bpow radix2 (-10)); [apply bpow_le; lia|]. change (bpow radix2 (-10)) with (/ 1024)%R. lra. }
    apply Rabs_le_inv in Ev.
    assert (v1 : (1 <= v)%R) by nra.
    assert (v4 : (v <= 4 * (IZR M * IZR M))%R) by nra.
    set (s := d_rnd (sqrt v)).
    assert (Ds : dval sd s) by (apply dval_sqrt; [exact Dv|lra]).
    assert (s1 : (1 <= s)%R).
    { apply (d_rnd_ge_int (sqrt v) 1); [lia|]. rewrite <- sqrt_1. now apply sqrt_le_1_alt. }
    assert (s2 : (s <= 2 * IZR M)%R).
    { rewrite <- (mult_IZR 2). apply d_rnd_le_int; [nia|]. rewrite mult_IZR.
      rewrite <- (sqrt_Rsqr (2 * IZR M)) by lra. apply sqrt_le_1_alt. unfold Rsqr. lra. }
    set (p := d_rnd (q * s)).
    assert (pb : (1 <= p <= 2 * IZR K * IZR M)%R).
    { split; [apply (d_rnd_ge_int _ 1); [lia|]; nra|].
      rewrite <- (mult_IZR 2), <- mult_IZR. apply d_rnd_le_int; [nia|]. rewrite !mult_IZR. nra. }
    assert (Dp : dval (d_mul xr sd) p).
    { apply dval_mul; auto. apply small_1000 with 31; [lia|]. rewrite Rabs_pos_eq by nra.
      rewrite bpow_Z by lia. apply Rle_trans with (IZR (2 * K * M)); [rewrite !mult_IZR; nra|apply IZR_le; nia]. }
    set (x := d_rnd (m + p)).
    assert (xb : (1 <= x <= IZR (M + 2 * K * M))%R).
    { split; [apply (d_rnd_ge_int _ 1); [lia|]; lra|].
      apply d_rnd_le_int; [nia|]. rewrite plus_IZR, !mult_IZR. lra. }
    assert (xm : (m <= x)%R).
    { unfold x. assert (Em : m = d_rnd m) by (unfold m; now rewrite d_rnd_rnd). rewrite Em at 1. apply d_rnd_le. lra. }
    assert (Dx : dval xray x).
    { apply dval_add; auto. apply small_1000 with 31; [lia|]. rewrite Rabs_pos_eq by lra.
      rewrite bpow_Z by lia. apply Rle_trans with (IZR (M + 2 * K * M)); [rewrite plus_IZR, !mult_IZR; lra|apply IZR_le; nia]. }
    set (P := d_rnd (x * s)).
    assert (PxS : (x * s <= IZR (2 * M * (M + 2 * K * M)))%R).
    { rewrite (mult_IZR (2 * M)). rewrite (mult_IZR 2 M). rewrite Rmult_comm. apply Rmult_le_compat; lra. }
    assert (Pb1 : (1 <= P <= IZR (2 * M * (M + 2 * K * M)))%R).
    { split; [apply (d_rnd_ge_int _ 1); [lia|]; nra|]. apply d_rnd_le_int; [nia|exact PxS]. }
    assert (Pm : (m <= P)%R).
    { apply Rle_trans with (1 := xm). unfold P. assert (Ex : x = d_rnd x) by (unfold x; now rewrite d_rnd_rnd).
      rewrite Ex at 1. apply d_rnd_le. nra. }
    assert (big : (IZR (2 * M * (M + 2 * K * M)) <= bpow radix2 31)%R) by (rewrite bpow_Z by lia; apply IZR_le; lia).
    assert (DP : dval (d_mul xray sd) P).
    { apply dval_mul; auto. apply small_1000 with 31; [lia|]. rewrite Rabs_pos_eq by nra. lra. }
    assert (mP : (m + P <= IZR (M + 2 * M * (M + 2 * K * M)))%R) by (rewrite plus_IZR; lra).
    assert (big' : (IZR (M + 2 * M * (M + 2 * K * M)) <= bpow radix2 31)%R) by (rewrite bpow_Z by lia; apply IZR_le; lia).
    assert (Dhi : dval (d_add mean (d_mul xray sd)) (d_rnd (m + P))).
    { apply dval_add; auto. apply small_1000 with 31; [lia|]. rewrite Rabs_pos_eq; lra. }
    assert (Dlo : dval (d_sub mean (d_mul xray sd)) (d_rnd (m - P))).
    { apply dval_sub; auto. apply small_1000 with 31; [lia|]. apply Rabs_le. lra. }
    destruct (min_max_ok l) as (lo & hi & Emm & Hlo & Hhi); [lia|].
    assert (lo0 : 0 <= lo). { destruct Hl as [U _]. specialize (U lo (proj1 Hlo)). unfold is_u16 in U. lia. }
    assert (loM : lo <= M) by (apply HM, Hlo).
    assert (lom : (IZR lo <= m)%R).
    { apply d_rnd_ge_int; [nia|]. pose proof (len_pos l Hl) as PL. unfold mean_of.
      apply Rmult_le_reg_r with (1 := PL). unfold Rdiv. rewrite Rmult_assoc, Rinv_l, Rmult_1_r by lra.
      rewrite <- mult_IZR. apply IZR_le. destruct Hlo as [_ Lo]. revert Lo. clear.
      induction l as [|v t IH]; intros Lo; [unfold Zlen; cbn; lia|]. cbn [zsum]. rewrite Zlen_cons.
      pose proof (Lo v ltac:(now left)). specialize (IH (fun x Hx => Lo x (or_intror Hx))). lia. }
    assert (lohi : lo < hi).
    { pose proof (proj2 Hlo hi (proj1 Hhi)). destruct (Z.eq_dec lo hi) as [E|N]; [|lia]. exfalso.
      assert (Z : forall v, In v l -> v = lo).
      { intros w Hw. pose proof (proj2 Hlo w Hw). pose proof (proj2 Hhi w Hw). lia. }
      assert (variance_of l = 0)%R as EV.
      { unfold variance_of. assert (mean_of l = IZR lo)%R as ->.
        { unfold mean_of. rewrite (zsum_const l lo Z), mult_IZR. field. pose proof (len_pos l Hl). lra. }
        assert (rsum (map (fun v => ((IZR v - IZR lo) * (IZR v - IZR lo))%R) l) = 0)%R as ->; [|unfold Rdiv; apply Rmult_0_l].
        revert Z. clear. induction l as [|v t IH]; intros Z; [reflexivity|]. cbn [map rsum].
        rewrite (Z v) by (now left). rewrite IH; [ring|]. intros; apply Z; now right. }
      rewrite EV in HV. lra. }
    (* conversions to int *)
    set (th := Ztrunc (d_rnd (m + P))). set (tl := Ztrunc (d_rnd (m - P))).
    assert (hb : lo + 1 <= th < 2 ^ 31).
    { split.
      - apply Ztrunc_bound; [apply d_rnd_nonneg; lra|]. apply d_rnd_ge_int; [nia|]. rewrite plus_IZR. lra.
      - apply Z.le_lt_trans with (2 := Hfit). unfold th. rewrite <- (Ztrunc_IZR (M + _)). apply Ztrunc_le.
        apply d_rnd_le_int; [nia|exact mP]. }
    assert (lb : - 2 ^ 31 <= tl <= 0).
    { split.
      - unfold tl. rewrite <- (Ztrunc_IZR (- 2 ^ 31)). apply Ztrunc_le. apply d_rnd_ge_int; [lia|].
        rewrite opp_IZR, <- bpow_Z by lia. lra.
      - unfold tl. rewrite <- (Ztrunc_IZR 0). apply Ztrunc_le. apply d_rnd_le_int; [lia|]. lra. }
    set (B := Z.min hi th).
    assert (Bb : lo < B <= hi) by (unfold B; lia).
    destruct (histogram_ok l lo (B - lo)) as (hist & Eh & Lh & Vh); [lia|apply Hlo|].
    assert (Hh0 : exists h0 ht, hist = h0 :: ht).
    { destruct hist as [|h0 ht]; [unfold Zlen in Lh; cbn in Lh; lia|eauto]. }
    destruct Hh0 as (h0 & ht & Ehist).
    exists lo, hi, B, hist, (fold_left Z.max hist h0).
    split; [exact Hlo|]. split; [exact Hhi|]. split; [exact Bb|]. split.
    { split; [exact Lh|]. intros w Hw. rewrite Vh by lia. f_equal. lia. }
    split.
    { destruct (fold_max hist h0) as (A1 & A2 & A3). split.
      - destruct A3 as [->|A3]; [rewrite Ehist; now left|exact A3].
      - exact A2. }
    split.
    { constructor; [exact Dm| |].
      - exists v. split; [exact Dv|]. split; [apply Rabs_le; exact Ev|exact Ds].
      - exists s. split; [exact Ds|exact Dx]. }
    split.
    { destruct (Z.min_spec hi th) as [[_ EB]|[_ EB]]; fold B in EB; [now left|right].
      exists s, x. split; [exact Ds|]. split; [exact Dx|]. rewrite EB. unfold th.
      pose proof (d_rnd_err (m + P)) as E1. pose proof (d_rnd_err (x * s)) as E2. fold P in E2.
      assert (bpow radix2 31 <= bpow radix2 32)%R by (apply bpow_le; lia).
      assert (xs0 : (0 <= x * s)%R) by (apply Rmult_le_pos; lra).
      assert (E1' : (0 <= m + P <= bpow radix2 32)%R) by lra.
      assert (E2' : (0 <= x * s <= bpow radix2 32)%R) by lra.
      specialize (E1 E1'). specialize (E2 E2').
      apply Rabs_le_inv in E1, E2.
      assert (bpow radix2 (-20) <= / 4)%R.
      { change (/ 4)%R with (bpow radix2 (-2)). apply bpow_le. lia. }
      assert (0 <= d_rnd (m + P))%R by (apply d_rnd_nonneg; lra).
      rewrite Ztrunc_floor by assumption. pose proof (Zfloor_ub (d_rnd (m + P))). lra. }
    split; [exists x; auto|].
    intros fit n bg. unfold thresholds_of_samples. fold mean. fold variance. fold sd. fold xray.
    rewrite Emm. cbn [bind]. rewrite (d_to_int_ok _ _ Dhi) by (fold th; lia). cbn [bind]. fold th.
    rewrite (d_to_int_ok _ _ Dlo) by (fold tl; lia). cbn [bind]. fold tl. fold B.
    replace (Z.max lo tl) with lo by lia. destruct (Z.ltb_spec (B - lo) 0); [lia|]. rewrite Eh. cbn [bind].
    assert (rd hist 0 = Ok h0) as -> by (rewrite Ehist; reflexivity). cbn [bind]. reflexivity.
  Qed.
End Core.
