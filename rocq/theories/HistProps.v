(** Property theorems for C09: histograms of STEM images. *)
From Coq Require Import String ZArith List Lia Bool Reals Lra.
From Flocq Require Import Core.
From Flocq Require Import Relative.
From Verif Require Import Base BaseFacts BlockModel StemProofs Double ImageModel ImageSpec ImageProofs
  HistSpec HistProofs.
Import ListNotations.
Open Scope Z_scope.

(** ** Counting for arbitrary edges: bin k holds exactly the number of pixels
    that belong to it. *)
Theorem histogram_counts :
  forall w h pixels N bins e,
    image_ok w h pixels -> 0 < N -> Zlen bins = N + 1 ->
    (forall j, 0 <= j <= N -> dval (dat bins j) (e j)) ->
    exists freq, createSTEMHistogram (w, h) pixels N bins = Ok freq /\ Zlen freq = N /\
      forall k, 0 <= k < N ->
        zat freq k = count_if (fun v => in_bin e N k (as_double v)) pixels.
Proof. intros. apply histogram_ok; auto. Qed.

(** For non-decreasing edges no pixel is counted twice, and the counts add up to
    the number of pixels between the first and the last edge. *)
Theorem histogram_total :
  forall w h pixels N bins e,
    image_ok w h pixels -> 0 < N -> Zlen bins = N + 1 ->
    (forall j, 0 <= j <= N -> dval (dat bins j) (e j)) -> edges_sorted e N ->
    (exists freq, createSTEMHistogram (w, h) pixels N bins = Ok freq /\
      zsum freq = count_if (fun v => Rle_bool (e 0) (as_double v) && Rle_bool (as_double v) (e N)) pixels) /\
    (forall r, (e 0%Z <= r <= e N)%R ->
       exists k, 0 <= k < N /\ in_bin e N k r = true /\
         forall k', 0 <= k' < N -> in_bin e N k' r = true -> k' = k).
Proof.
  intros w h pixels N bins e HI HN HL He Hs. split.
  - destruct (histogram_ok bins N e HN HL He w h pixels HI) as (freq & E & Lf & Vf).
    exists freq. split; auto. apply histogram_sum; auto.
  - intros r Hr. pose proof (one_bin N e HN r Hs) as S.
    rewrite !Rle_bool_true in S by lra. cbn [andb] in S.
    assert (EX : exists k, In k (zseq N) /\ in_bin e N k r = true).
    { destruct (existsb (fun k => in_bin e N k r) (zseq N)) eqn:EB.
      - apply existsb_exists in EB. auto.
      - exfalso. rewrite zsum_map_zero in S; [lia|]. intros k Hk. unfold inc.
        destruct (in_bin e N k r) eqn:E; auto. exfalso.
        assert (existsb (fun k => in_bin e N k r) (zseq N) = true)
          by (apply existsb_exists; exists k; auto). congruence. }
    destruct EX as (k & Hk & Hb). exists k. apply in_zseq in Hk. split; auto. split; auto.
    intros k' Hk' Hb'. destruct (Z.eq_dec k' k) as [|Ne]; auto. exfalso.
    assert (TWO : zsum (map (fun i => (if i =? k then 1 else 0) + (if i =? k' then 1 else 0)) (zseq N)) <=
                  zsum (map (inc N e r) (zseq N))).
    { assert (LE : forall l, zsum (map (fun i => (if i =? k then 1 else 0) + (if i =? k' then 1 else 0)) l) <=
                  zsum (map (inc N e r) l)); [|apply LE].
      induction l as [|a l IH]; simpl; [lia|]. unfold inc at 1.
      destruct (Z.eqb_spec a k) as [->|]; [rewrite Hb; destruct (Z.eqb_spec k k'); lia|].
      destruct (Z.eqb_spec a k') as [->|]; [rewrite Hb'; lia|].
      destruct (in_bin e N a r); lia. }
    rewrite zsum_map_add in TWO.
    rewrite (zsum_indicator (fun _ => 1)) in TWO by lia.
    rewrite (zsum_indicator (fun _ => 1)) in TWO by lia. lia.
Qed.

Lemma bpow_add_le a b c : (0 <= a)%R -> (a <= bpow radix2 c)%R -> (b <= bpow radix2 c)%R ->
  (a + b <= bpow radix2 (c + 1))%R.
Proof. intros. rewrite bpow_plus_1. change (IZR radix2) with 2%R. lra. Qed.

Lemma as_double_range v : is_u64 v -> (0 <= as_double v <= bpow radix2 64)%R.
Proof.
  intros H. unfold is_u64 in H. unfold as_double. split.
  - apply d_rnd_nonneg, IZR_le; lia.
  - pose proof (d_rnd_bpow_bound (IZR v) 64 ltac:(lia) ltac:(apply bpow_int_le; lia)) as B.
    apply Rabs_le_inv in B. lra.
Qed.

Lemma as_double_mono a b : a <= b -> (as_double a <= as_double b)%R.
Proof. intros. apply d_rnd_le, IZR_le; auto. Qed.

Lemma width_range mn mx N : is_u64 mn -> is_u64 mx -> mn <= mx -> 0 < N ->
  (0 <= d_rnd (as_double mx - as_double mn) <= bpow radix2 64)%R /\
  (0 <= d_rnd (d_rnd (as_double mx - as_double mn) / IZR N) <= bpow radix2 64)%R.
Proof.
  intros Hmn Hmx Hle HN. pose proof (as_double_range _ Hmn). pose proof (as_double_range _ Hmx).
  pose proof (as_double_mono _ _ Hle).
  assert (A : (0 <= d_rnd (as_double mx - as_double mn) <= bpow radix2 64)%R).
  { split; [apply d_rnd_nonneg; lra|].
    pose proof (d_rnd_bpow_bound (as_double mx - as_double mn) 64 ltac:(lia) ltac:(apply Rabs_le; lra)) as B.
    apply Rabs_le_inv in B. lra. }
  split; auto. set (a := d_rnd (as_double mx - as_double mn)) in *.
  assert (HNr : (1 <= IZR N)%R) by (apply IZR_le; lia).
  assert (Q : (0 <= a / IZR N <= bpow radix2 64)%R).
  { split; [apply Rle_mult_inv_pos; lra|]. apply Rle_trans with a; [|lra].
    rewrite <- (Rmult_1_r a) at 2. apply Rmult_le_compat_l; [lra|]. rewrite <- Rinv_1. apply Rinv_le; lra. }
  split; [apply d_rnd_nonneg; lra|].
  pose proof (d_rnd_bpow_bound (a / IZR N) 64 ltac:(lia) ltac:(apply Rabs_le; lra)) as B.
  apply Rabs_le_inv in B. lra.
Qed.

(** ** The edges computed from the image: they start at the smallest pixel and
    never decrease. *)
Theorem container_edges :
  forall w h pixels N, image_ok w h pixels -> 0 < N < 2 ^ 31 ->
    exists mn mx bins,
      is_min pixels mn /\ is_max pixels mx /\
      getContainer (w, h) pixels N = Ok bins /\ Zlen bins = N + 1 /\
      (forall j, 0 <= j <= N -> dval (dat bins j) (hist_edge mn mx N j)) /\
      hist_edge mn mx N 0 = as_double mn /\ edges_sorted (hist_edge mn mx N) N.
Proof.
  intros w h pixels N (Hw & Hh & Hn & HLp & HU) HN.
  assert (Hne : pixels <> []) by (intros ->; change (Zlen (@nil Z)) with 0 in HLp; lia).
  destruct (min_max_ok pixels Hne) as (mn & mx & E & Hmn & Hmx).
  rewrite Forall_forall in HU.
  assert (Umn : is_u64 mn) by (apply HU, Hmn). assert (Umx : is_u64 mx) by (apply HU, Hmx).
  assert (Hle : mn <= mx) by (apply Hmx, Hmn).
  unfold getContainer. cbn [fst snd]. rewrite (u32_id (w * h)) by (unfold is_u32; lia).
  rewrite <- HLp, E. cbn [bind fst snd].
  pose proof (as_double_range _ Umn) as Rmn. pose proof (as_double_range _ Umx) as Rmx.
  pose proof (as_double_mono _ _ Hle) as Rle1.
  destruct (width_range mn mx N Umn Umx Hle ltac:(lia)) as (Wa & Wl).
  set (len := d_rnd (d_rnd (as_double mx - as_double mn) / IZR N)) in *.
  assert (Dlen : dval (d_div (d_sub (d_of_Z mx) (d_of_Z mn)) (d_of_Z N)) len).
  { apply dval_div.
    - apply dval_sub; try (apply dval_u64; auto).
      apply Rle_trans with (bpow radix2 64); [apply Rabs_le; lra|apply bpow_le; lia].
    - apply dval_of_int. lia.
    - apply not_0_IZR. lia.
    - assert (HNr : (1 <= IZR N)%R) by (apply IZR_le; lia).
      set (a := d_rnd (as_double mx - as_double mn)) in *.
      apply Rle_trans with (bpow radix2 64); [|apply bpow_le; lia].
      assert (0 <= a / IZR N)%R by (apply Rle_mult_inv_pos; lra).
      assert (a / IZR N <= a)%R.
      { rewrite <- (Rmult_1_r a) at 2. apply Rmult_le_compat_l; [lra|]. rewrite <- Rinv_1. apply Rinv_le; lra. }
      apply Rabs_le; lra. }
  assert (PB : forall j, 0 <= j <= N ->
     (0 <= IZR j * len <= bpow radix2 95)%R /\ (0 <= d_rnd (IZR j * len) <= bpow radix2 95)%R).
  { intros j Hj.
    assert (Hjr : (0 <= IZR j <= bpow radix2 31)%R).
    { split; [apply IZR_le; lia|]. change (bpow radix2 31) with (IZR (2 ^ 31)). apply IZR_le; lia. }
    assert (A : (0 <= IZR j * len <= bpow radix2 95)%R).
    { split; [apply Rmult_le_pos; lra|].
      change 95 with (31 + 64). rewrite bpow_plus. apply Rmult_le_compat; lra. }
    split; auto. split; [apply d_rnd_nonneg; lra|].
    pose proof (d_rnd_bpow_bound (IZR j * len) 95 ltac:(lia) ltac:(apply Rabs_le; lra)) as B.
    apply Rabs_le_inv in B. lra. }
  eexists mn, mx, _. split; auto. split; auto. split; [reflexivity|].
  split; [rewrite Zlen_map; apply Zlen_zseq; lia|].
  split; [|split].
  - intros j Hj. unfold dat.
    rewrite (nth_indep _ (d_of_Z 0) (d_add (d_of_Z mn) (d_mul (d_of_Z 0)
       (d_div (d_sub (d_of_Z mx) (d_of_Z mn)) (d_of_Z N)))))
      by (rewrite map_length; pose proof (Zlen_zseq (N + 1) ltac:(lia)) as ZL; unfold Zlen in ZL; lia).
    rewrite (map_nth (fun i => d_add (d_of_Z mn) (d_mul (d_of_Z i)
       (d_div (d_sub (d_of_Z mx) (d_of_Z mn)) (d_of_Z N)))) (zseq (N + 1)) 0).
    assert (EN : nth (Z.to_nat j) (zseq (N + 1)) 0 = j).
    { pose proof (zat_map_zseq (fun x => x) (N + 1) j ltac:(lia)) as Z1. rewrite map_id in Z1.
      unfold zat in Z1. destruct (Z.ltb_spec j 0); [lia|]. exact Z1. }
    rewrite EN. destruct (PB j Hj) as (P1 & P2).
    apply dval_add.
    + apply dval_u64; auto.
    + apply dval_mul; auto. { apply dval_of_int. lia. }
      fold len. apply Rle_trans with (bpow radix2 95); [apply Rabs_le; lra|apply bpow_le; lia].
    + fold len. apply Rle_trans with (bpow radix2 96); [|apply bpow_le; lia].
      assert (bpow radix2 64 <= bpow radix2 95)%R by (apply bpow_le; lia).
      apply Rabs_le. change 96 with (95 + 1). rewrite bpow_plus_1. change (IZR radix2) with 2%R. lra.
  - unfold hist_edge. rewrite Rmult_0_l, d_rnd_0, Rplus_0_r. unfold as_double. apply d_rnd_rnd.
  - intros j Hj. unfold hist_edge. fold len. apply d_rnd_le, Rplus_le_compat_l, d_rnd_le.
    apply Rmult_le_compat_r; [lra|]. apply IZR_le. lia.
Qed.

(** ** C09: histogram of an image with its own edges.  No pixel is counted twice;
    the only pixels not counted are those above the last edge. *)
Theorem image_histogram :
  forall w h pixels N, image_ok w h pixels -> 0 < N < 2 ^ 31 ->
    exists mn mx bins freq,
      is_min pixels mn /\ is_max pixels mx /\
      getContainer (w, h) pixels N = Ok bins /\
      createSTEMHistogram (w, h) pixels N bins = Ok freq /\ Zlen freq = N /\
      (forall k, 0 <= k < N ->
         zat freq k = count_if (fun v => in_bin (hist_edge mn mx N) N k (as_double v)) pixels) /\
      zsum freq = count_if (fun v => Rle_bool (as_double v) (hist_edge mn mx N N)) pixels.
Proof.
  intros w h pixels N HI HN.
  destruct (container_edges w h pixels N HI HN) as (mn & mx & bins & Hmn & Hmx & E & HL & He & H0 & Hs).
  destruct (histogram_ok bins N _ (proj1 HN) HL He w h pixels HI) as (freq & Ef & Lf & Vf).
  exists mn, mx, bins, freq. split; [auto|]. split; [auto|]. split; [auto|]. split; [auto|].
  split; [auto|]. split; [auto|].
  rewrite (histogram_sum N _ (proj1 HN) freq pixels Hs Lf Vf), !count_if_zsum.
  apply zsum_map_ext. intros v Hv. rewrite H0. rewrite Rle_bool_true; [reflexivity|].
  apply as_double_mono, Hmn; auto.
Qed.

Lemma count_all {A} (f : A -> bool) l : (forall x, In x l -> f x = true) -> count_if f l = Zlen l.
Proof.
  intros H. rewrite count_if_zsum. induction l as [|a l IH]; [reflexivity|].
  cbn [map zsum]. rewrite H by (left; auto). rewrite IH by (intros; apply H; right; auto).
  rewrite Zlen_cons. reflexivity.
Qed.

Lemma last_edge_exact mn mx N : 0 <= mn <= mx -> mx <= 2 ^ 53 -> 0 < N ->
  generic_format radix2 d_exp (IZR (mx - mn) / IZR N) ->
  hist_edge mn mx N N = IZR mx.
Proof.
  intros H1 H2 HN G. unfold hist_edge, as_double.
  rewrite !d_rnd_int by lia. rewrite <- minus_IZR. rewrite (d_rnd_int (mx - mn)) by lia.
  rewrite (d_rnd_id _ G).
  replace (IZR N * (IZR (mx - mn) / IZR N))%R with (IZR (mx - mn))
    by (field; apply not_0_IZR; lia).
  rewrite (d_rnd_int (mx - mn)) by lia. rewrite <- plus_IZR. replace (mn + (mx - mn)) with mx by lia.
  apply d_rnd_int. lia.
Qed.

(** When the bin width is a double (in particular when the range is a multiple of
    the bin count, or the bin count is a power of two), every pixel is counted
    and the maximum is in the last bin. *)
Theorem histogram_lossless :
  forall w h pixels N mn mx, image_ok w h pixels -> 0 < N < 2 ^ 31 ->
    is_min pixels mn -> is_max pixels mx -> mx <= 2 ^ 53 ->
    (mx - mn) mod N = 0 \/ (exists k, 0 <= k <= 30 /\ N = 2 ^ k) ->
    exists bins freq,
      getContainer (w, h) pixels N = Ok bins /\
      createSTEMHistogram (w, h) pixels N bins = Ok freq /\
      zsum freq = w * h /\ 0 < zat freq (N - 1) /\
      dval (dat bins 0) (IZR mn) /\ dval (dat bins N) (IZR mx).
Proof.
  intros w h pixels N mn mx HI HN Hmn Hmx H53 HD.
  destruct (container_edges w h pixels N HI HN) as (mn' & mx' & bins & Hmn' & Hmx' & E & HL & He & H0 & Hs).
  assert (mn' = mn) by (apply Z.le_antisymm; [apply Hmn', Hmn|apply Hmn, Hmn']).
  assert (mx' = mx) by (apply Z.le_antisymm; [apply Hmx, Hmx'|apply Hmx', Hmx]). subst mn' mx'.
  destruct HI as (Hw & Hh & Hn & HLp & HU).
  assert (Umn : is_u64 mn) by (rewrite Forall_forall in HU; apply HU, Hmn).
  assert (Hle : mn <= mx) by (apply Hmx, Hmn). unfold is_u64 in Umn.
  assert (G : generic_format radix2 d_exp (IZR (mx - mn) / IZR N)).
  { destruct HD as [HD|(k & Hk & ->)].
    - replace (IZR (mx - mn) / IZR N)%R with (IZR ((mx - mn) / N)).
      + apply int_double. assert (0 <= (mx - mn) / N <= mx - mn); [|lia].
        split; [apply Z.div_pos; lia|]. apply Z.div_le_upper_bound; nia.
      + pose proof (Z.div_mod (mx - mn) N ltac:(lia)) as DM. rewrite HD, Z.add_0_r in DM.
        rewrite DM at 2. rewrite mult_IZR. field. apply not_0_IZR; lia.
    - assert (EP : IZR (2 ^ k) = bpow radix2 k) by (rewrite <- IZR_Zpower by lia; reflexivity).
      rewrite EP. destruct (Z.eq_dec (mx - mn) (2 ^ 53)) as [EE|NE].
      + rewrite EE. change (IZR (2 ^ 53)) with (bpow radix2 53).
        unfold Rdiv. rewrite <- bpow_opp, <- bpow_plus.
        apply generic_format_bpow. unfold FLT_exp. lia.
      + apply generic_format_FLT. exists (Float radix2 (mx - mn) (- k)); simpl; try lia.
        unfold F2R. cbn [Fnum Fexp]. unfold Rdiv. f_equal. rewrite bpow_opp. reflexivity. }
  pose proof (last_edge_exact mn mx N ltac:(lia) H53 ltac:(lia) G) as EL.
  destruct (histogram_ok bins N _ (proj1 HN) HL He w h pixels) as (freq & Ef & Lf & Vf).
  { split; auto. }
  exists bins, freq. split; [auto|]. split; [auto|].
  assert (DX : forall v, In v pixels -> as_double v = IZR v).
  { intros v Hv. apply d_rnd_int. rewrite Forall_forall in HU. pose proof (HU v Hv) as Uv. unfold is_u64 in Uv.
    apply Hmx in Hv. lia. }
  split; [|split; [|split]].
  - rewrite (histogram_sum N _ (proj1 HN) freq pixels Hs Lf Vf), count_all; auto.
    intros v Hv. rewrite H0, EL. rewrite Rle_bool_true by (apply as_double_mono, Hmn; auto).
    rewrite DX by auto. rewrite Rle_bool_true; auto. apply IZR_le, Hmx; auto.
  - rewrite Vf by lia. rewrite count_if_zsum.
    assert (B : in_bin (hist_edge mn mx N) N (N - 1) (as_double mx) = true).
    { unfold in_bin. rewrite Z.eqb_refl, EL, DX by apply Hmx. rewrite Req_bool_true by auto. apply orb_true_r. }
    assert (P : forall l, In mx l -> 0 < zsum (map (fun x => if in_bin (hist_edge mn mx N) N (N - 1) (as_double x) then 1 else 0) l)).
    { induction l as [|a l IH]; [intros []|]. cbn [map zsum].
      assert (0 <= zsum (map (fun x => if in_bin (hist_edge mn mx N) N (N - 1) (as_double x) then 1 else 0) l)).
      { apply zsum_nonneg. intros x Hx. apply in_map_iff in Hx. destruct Hx as (q & <- & _).
        match goal with |- context [if ?b then _ else _] => destruct b end; lia. }
      intros [->|Hl]; [rewrite B; lia|]. specialize (IH Hl). match goal with |- context [if ?b then _ else _] => destruct b end; lia. }
    apply P, Hmx.
  - pose proof (He 0 ltac:(lia)) as D0. rewrite H0 in D0. rewrite DX in D0 by apply Hmn. exact D0.
  - pose proof (He N ltac:(lia)) as D0. rewrite EL in D0. exact D0.
Qed.

Lemma d_rnd_rel x : (bpow radix2 (-1000) <= x)%R -> (x * (1 - bpow radix2 (-53)) <= d_rnd x)%R.
Proof.
  intros Hx.
  assert (Hp : (0 < x)%R) by (eapply Rlt_le_trans; [apply bpow_gt_0|exact Hx]).
  pose proof (relative_error_N_FLT radix2 (-1074) 53 eq_refl (fun x => negb (Z.even x)) x) as RE.
  assert (A : (bpow radix2 (-1074 + 53 - 1) <= Rabs x)%R).
  { rewrite Rabs_pos_eq by lra. eapply Rle_trans; [|exact Hx]. apply bpow_le. lia. }
  specialize (RE A). rewrite (Rabs_pos_eq x) in RE by lra.
  change (round radix2 (FLT_exp (-1074) 53) (Znearest (fun x0 : Z => negb (Z.even x0))) x) with (d_rnd x) in RE.
  apply Rabs_le_inv in RE.
  assert (EQ : (/ 2 * bpow radix2 (- 53 + 1) = bpow radix2 (-53))%R).
  { rewrite bpow_plus_1. change (IZR radix2) with 2%R. field. }
  change (-53 + 1) with (- (53) + 1) in EQ. rewrite EQ in RE. lra.
Qed.

(** For pixel values up to 2^50 rounding can lose at most the pixels equal to the
    maximum: every other pixel is counted. *)
Theorem histogram_loses_only_maxima :
  forall w h pixels N mn mx, image_ok w h pixels -> 0 < N < 2 ^ 31 ->
    is_min pixels mn -> is_max pixels mx -> mx <= 2 ^ 50 ->
    exists bins freq,
      getContainer (w, h) pixels N = Ok bins /\
      createSTEMHistogram (w, h) pixels N bins = Ok freq /\
      (zsum freq = w * h \/ zsum freq = count_if (fun v => v <? mx) pixels).
Proof.
  intros w h pixels N mn mx HI HN Hmn Hmx H50.
  destruct (image_histogram w h pixels N HI HN)
    as (mn' & mx' & bins & freq & Hmn' & Hmx' & E & Ef & Lf & Vf & Hsum).
  assert (mn' = mn) by (apply Z.le_antisymm; [apply Hmn', Hmn|apply Hmn, Hmn']).
  assert (mx' = mx) by (apply Z.le_antisymm; [apply Hmx, Hmx'|apply Hmx', Hmx]). subst mn' mx'.
  destruct HI as (Hw & Hh & Hn & HLp & HU). rewrite Forall_forall in HU.
  exists bins, freq. split; auto. split; auto.
  assert (Hle : mn <= mx) by (apply Hmx, Hmn).
  assert (U0 : 0 <= mn) by (pose proof (HU mn (proj1 Hmn)) as U; unfold is_u64 in U; lia).
  assert (DX : forall v, In v pixels -> as_double v = IZR v).
  { intros v Hv. apply d_rnd_int. pose proof (HU v Hv) as Uv. unfold is_u64 in Uv.
    apply Hmx in Hv. lia. }
  set (el := hist_edge mn mx N N) in *.
  assert (LOW : (IZR mx - 1 < el)%R).
  { unfold el, hist_edge. rewrite !DX by (apply Hmn || apply Hmx).
    rewrite <- (minus_IZR mx mn), (d_rnd_int (mx - mn)) by lia.
    destruct (Z.eq_dec mx mn) as [->|Ne].
    { replace (mn - mn) with 0 by lia. unfold Rdiv. rewrite Rmult_0_l, d_rnd_0, Rmult_0_r, d_rnd_0, Rplus_0_r.
      rewrite d_rnd_int by lia. lra. }
    set (a := IZR (mx - mn)). set (u := bpow radix2 (-53)).
    assert (Ha : (1 <= a <= bpow radix2 50)%R).
    { unfold a. split; [apply IZR_le; lia|]. change (bpow radix2 50) with (IZR (2 ^ 50)). apply IZR_le; lia. }
    assert (HNr : (1 <= IZR N <= bpow radix2 31)%R).
    { split; [apply IZR_le; lia|]. change (bpow radix2 31) with (IZR (2 ^ 31)). apply IZR_le; lia. }
    assert (Hu : (0 < u)%R) by apply bpow_gt_0.
    assert (Hu2 : (u * bpow radix2 50 = / 8)%R).
    { unfold u. rewrite <- bpow_plus. simpl. lra. }
    assert (Hu1 : (u <= / 8)%R).
    { unfold u. apply Rle_trans with (bpow radix2 (-3)); [apply bpow_le; lia|simpl; lra]. }
    assert (Q : (bpow radix2 (-31) <= a / IZR N)%R).
    { change (-31) with (Z.opp 31). rewrite bpow_opp. unfold Rdiv.
      rewrite <- (Rmult_1_l (/ bpow radix2 31)). apply Rmult_le_compat; try lra.
      - left. apply Rinv_0_lt_compat, bpow_gt_0.
      - apply Rinv_le; lra. }
    set (L := d_rnd (a / IZR N)).
    assert (L1 : (a / IZR N * (1 - u) <= L)%R).
    { apply d_rnd_rel. eapply Rle_trans; [|exact Q]. apply bpow_le. lia. }
    assert (L2 : (bpow radix2 (-31) <= L)%R).
    { unfold L. rewrite <- (d_rnd_id (bpow radix2 (-31))); [apply d_rnd_le; auto|].
      apply generic_format_bpow. unfold FLT_exp. lia. }
    assert (P0 : (bpow radix2 (-31) <= IZR N * L)%R).
    { rewrite <- (Rmult_1_l (bpow radix2 (-31))). apply Rmult_le_compat; try lra. apply bpow_ge_0. }
    assert (P1 : (IZR N * L * (1 - u) <= d_rnd (IZR N * L))%R).
    { apply d_rnd_rel. eapply Rle_trans; [|exact P0]. apply bpow_le. lia. }
    assert (P2 : (a * (1 - u) <= IZR N * L)%R).
    { apply Rle_trans with (IZR N * (a / IZR N * (1 - u)))%R; [|apply Rmult_le_compat_l; lra].
      right. field. lra. }
    set (P := d_rnd (IZR N * L)) in *.
    assert (P3 : (a - / 4 <= P)%R).
    { apply Rle_trans with (a * (1 - u) * (1 - u))%R.
      - assert (a * u <= / 8)%R by (rewrite <- Hu2, (Rmult_comm u); apply Rmult_le_compat_r; lra).
        assert (0 <= a * u * u)%R by (apply Rmult_le_pos; [apply Rmult_le_pos; lra|lra]).
        replace (a * (1 - u) * (1 - u))%R with (a - 2 * (a * u) + a * u * u)%R by ring. lra.
      - apply Rle_trans with (IZR N * L * (1 - u))%R; [|exact P1].
        apply Rmult_le_compat_r; lra. }
    assert (M0 : (0 <= IZR mn)%R) by (apply IZR_le; lia).
    assert (EQ : IZR mx = (IZR mn + a)%R) by (unfold a; rewrite <- plus_IZR; f_equal; lia).
    assert (MX : (IZR mx <= bpow radix2 50)%R).
    { change (bpow radix2 50) with (IZR (2 ^ 50)). apply IZR_le; lia. }
    assert (S1 : ((IZR mx - / 4) * (1 - u) <= d_rnd (IZR mn + P))%R).
    { apply Rle_trans with ((IZR mn + P) * (1 - u))%R.
      - apply Rmult_le_compat_r; lra.
      - apply d_rnd_rel. apply Rle_trans with (/ 2)%R; [|lra].
        apply Rle_trans with (bpow radix2 (-1)); [apply bpow_le; lia|simpl; lra]. }
    assert (IZR mx * u <= / 8)%R by (rewrite <- Hu2, (Rmult_comm u); apply Rmult_le_compat_r; lra).
    replace ((IZR mx - / 4) * (1 - u))%R with (IZR mx - / 4 - IZR mx * u + / 4 * u)%R in S1 by ring.
    lra. }
  rewrite Hsum.
  destruct (Rle_dec (IZR mx) el) as [G|G].
  - left. rewrite count_all; auto. intros v Hv. rewrite DX by auto. apply Rle_bool_true.
    eapply Rle_trans; [apply IZR_le, Hmx; eauto|auto].
  - right. rewrite !count_if_zsum. apply zsum_map_ext. intros v Hv. rewrite DX by auto.
    destruct (Z.ltb_spec v mx) as [Hlt|Hge].
    + rewrite Rle_bool_true; auto. apply Rle_trans with (IZR mx - 1)%R; [|lra].
      rewrite <- minus_IZR. apply IZR_le. lia.
    + rewrite Rle_bool_false; auto. apply Rlt_le_trans with (IZR mx); [lra|]. apply IZR_le; lia.
Qed.

(** The maximum can indeed be dropped: a 2 x 1 image with pixels 0 and 1 and 49
    bins is counted as one pixel. *)
Theorem histogram_all_pixels_refuted :
  exists w h pixels N bins freq,
    image_ok w h pixels /\ 0 < N < 2 ^ 31 /\
    getContainer (w, h) pixels N = Ok bins /\
    createSTEMHistogram (w, h) pixels N bins = Ok freq /\ zsum freq < w * h.
Proof.
  exists 2, 1, [0; 1], 49.
  assert (X : match getContainer (2, 1) [0; 1] 49 with
              | Ok b => match createSTEMHistogram (2, 1) [0; 1] 49 b with Ok f => zsum f | _ => 5 end
              | _ => 5 end = 1) by (vm_compute; reflexivity).
  destruct (getContainer (2, 1) [0; 1] 49) as [bins| | |]; try discriminate X.
  exists bins. destruct (createSTEMHistogram (2, 1) [0; 1] 49 bins) as [freq| | |]; try discriminate X.
  exists freq. split; [|split; [lia|split; [auto|split; [auto|lia]]]].
  repeat split; try lia. repeat constructor; unfold is_u64; lia.
Qed.

(** Edge cases: an empty image is undefined, a negative bin count throws, zero
    bins count nothing. *)
Theorem histogram_edge_cases :
  (forall pixels N, getContainer (0, 0) pixels N = UB "minmax of an empty image") /\
  (forall dims pixels N bins, N < 0 ->
     createSTEMHistogram dims pixels N bins = Throw "length_error").
Proof.
  split; [reflexivity|]. intros. unfold createSTEMHistogram.
  destruct (Z.ltb_spec N 0); [reflexivity|lia].
Qed.

Example image_histogram_example :
  image_ok 3 2 [4; 10; 6; 4; 8; 9] /\
  match getContainer (3, 2) [4; 10; 6; 4; 8; 9] 3 with
  | Ok bins => createSTEMHistogram (3, 2) [4; 10; 6; 4; 8; 9] 3 bins = Ok [2; 1; 3]
  | _ => False
  end.
Proof.
  split; [|vm_compute; reflexivity].
  repeat split; try lia; repeat constructor; unfold is_u64; lia.
Qed.

Print Assumptions histogram_counts.
Print Assumptions histogram_total.
Print Assumptions container_edges.
Print Assumptions image_histogram.
Print Assumptions histogram_lossless.
Print Assumptions histogram_loses_only_maxima.
Print Assumptions histogram_all_pixels_refuted.
Print Assumptions histogram_edge_cases.
