(** Properties C36 - C39: [SparseArray] agrees with the dense array it stands for. *)
From Coq Require Import String ZArith List Bool Lia Reals.
From Verif Require Import Base BaseFacts Float32 SparseModel SparseSpec SparseProofs SparseSlice
  SparseReduce SparseMeanModel SparseMean SparseBin.
Import ListNotations.
Open Scope Z_scope.

Local Arguments Z.mul : simpl never.
Local Arguments Z.add : simpl never.
Local Arguments Z.pow : simpl never.

(** An example array: scan 2 x 2, frames of 2 x 2, two frame slots. *)
Definition ex_sparse : sparse :=
  mkSparse [[[0; 3]; [3]]; [[1]; []]; [[0; 1; 2; 3]; [0; 1; 2; 3]]; [[2]; [2; 0]]] 2 [2; 2] [2; 2] 32 true true.

Ltac frames_ok_tac :=
  split; [repeat constructor; cbn; intuition congruence|];
  let x := fresh in let H := fresh in
  intros x H; cbn in H; unfold np_prod; cbn; intuition lia.

Lemma ex_sparse_wf : wf ex_sparse.
Proof.
  constructor.
  - right. exists 2, 2. repeat split; lia.
  - right. exists 2, 2. repeat split; lia.
  - reflexivity.
  - intros row H. cbn in H. intuition (subst; reflexivity).
  - cbn. lia.
  - cbn. lia.
  - intros row fr H H'. cbn in H.
    repeat (destruct H as [<-|H]; [cbn in H'; repeat (destruct H' as [<-|H']; [frames_ok_tac|]); contradiction|]).
    contradiction.
Qed.

(** * The expansion itself *)

(** Entry (p, j) of the expanded array is the number of events of position [p]
    at pixel [j]. *)
Theorem C36_dense_values sa :
  wf sa ->
  exists D, to_dense sa = Ok (Dense (sp_shape sa) D) /\
    Zlen D = num_scans sa * frame_size sa /\
    forall p j, 0 <= p < num_scans sa -> 0 <= j < frame_size sa ->
      zat D (p * frame_size sa + j) = events (row_at sa p) j.
Proof.
  intros W. eexists. split; [now apply to_dense_ok|].
  pose proof (num_scans_nonneg sa W). pose proof (frame_size_nonneg sa W). split.
  - rewrite Zlen_dense_of, !Zlen_zseq by lia. reflexivity.
  - intros p j Hp Hj. pose proof (dense_of_at sa (zseq (num_scans sa)) (zseq (frame_size sa)) p j) as X.
    rewrite !Zlen_zseq, !zat_zseq in X by lia. now apply X.
Qed.

(** * C36: reductions *)
Section dense.
  Variables (sa : sparse) (shape D : list Z).
  Hypothesis W : wf sa.
  Hypothesis HD : to_dense sa = Ok (Dense shape D).
  Let P := num_scans sa.
  Let N := frame_size sa.

  Lemma dense_eq : D = dense_of sa (zseq P) (zseq N).
  Proof. rewrite (to_dense_ok sa W) in HD. injection HD as _ <-. reflexivity. Qed.

  Lemma along_scan_eq j : 0 <= j < N -> along_scan P N D j = map (fun row => events row j) (sp_data sa).
  Proof. rewrite dense_eq. intros. now apply along_scan_dense. Qed.

  Lemma along_frame_eq p : 0 <= p < P -> along_frame P N D p = map (events (row_at sa p)) (zseq N).
  Proof. rewrite dense_eq. intros. now apply along_frame_dense. Qed.

  Lemma in_rows row : In row (sp_data sa) -> exists p, 0 <= p < P /\ row = row_at sa p.
  Proof.
    intros H. rewrite (data_rows sa W) in H. apply in_map_iff in H as [p [E Hp]]. apply in_zseq in Hp.
    exists p. split; [exact Hp|now symmetry].
  Qed.

  Lemma row_in p : 0 <= p < P -> In (row_at sa p) (sp_data sa).
  Proof. intros H. apply nth_In. pose proof (wf_len sa W). unfold P, num_scans, Zlen in *. lia. Qed.

  Lemma zat_map_rows (g : list (list Z) -> Z) p : 0 <= p < P -> zat (map g (sp_data sa)) p = g (row_at sa p).
  Proof.
    intros H. rewrite (data_rows sa W), map_map. rewrite zat_map_zseq by exact H. reflexivity.
  Qed.

  Lemma Zlen_map_rows (g : list (list Z) -> Z) : Zlen (map g (sp_data sa)) = P.
  Proof. rewrite Zlen_map. apply (wf_len sa W). Qed.

  Lemma Zlen_map_pixels (g : Z -> Z) : Zlen (map g (zseq N)) = N.
  Proof. rewrite Zlen_map. apply Zlen_zseq. now apply frame_size_nonneg. Qed.

  Theorem C36_sum_scan bits :
    exists r, sum_scan sa bits = Ok r /\ Zlen r = N /\
      forall j, 0 <= j < N -> zat r j = wrapu bits (zsum (along_scan P N D j)).
  Proof.
    eexists. split; [now apply sum_scan_ok|]. split; [apply Zlen_map_pixels|].
    intros j Hj. rewrite along_scan_eq by exact Hj. now rewrite zat_map_zseq.
  Qed.

  Theorem C36_sum_frame bits :
    exists r, sum_frame sa bits = Ok r /\ Zlen r = P /\
      forall p, 0 <= p < P -> zat r p = wrapu bits (zsum (along_frame P N D p)).
  Proof.
    eexists. split; [now apply sum_frame_ok|]. split; [apply Zlen_map_rows|].
    intros p Hp. rewrite along_frame_eq by exact Hp. rewrite zat_map_rows by exact Hp. f_equal.
    apply total_as_events; [|now apply frame_size_nonneg].
    intros fr Hf. exact (wf_frames sa W _ fr (row_in p Hp) Hf).
  Qed.

  (** Maximum and minimum over the scan: with at least one frame slot (with
      none np.concatenate raises) and a type that holds the counts. *)
  Theorem C36_max_scan bits :
    0 < sp_F sa < 2 ^ bits -> 0 < P ->
    exists r, max_scan sa bits = Ok r /\ Zlen r = N /\
      forall j, 0 <= j < N -> is_max (zat r j) (along_scan P N D j).
  Proof.
    intros HF HP. eexists. split; [now apply max_scan_ok|]. split; [apply Zlen_map_pixels|].
    intros j Hj. rewrite along_scan_eq by exact Hj. rewrite zat_map_zseq by exact Hj.
    apply best_spec.
    - intros E. pose proof (wf_len sa W) as L. rewrite E in L. unfold P, num_scans in HP. cbn in L. lia.
    - intros. apply events_nonneg.
  Qed.

  Theorem C36_min_scan bits :
    0 < sp_F sa < 2 ^ bits -> 0 < P ->
    exists r, min_scan sa bits = Ok r /\ Zlen r = N /\
      forall j, 0 <= j < N -> is_min (zat r j) (along_scan P N D j).
  Proof.
    intros HF HP. eexists. split; [now apply min_scan_ok|]. split; [apply Zlen_map_pixels|].
    intros j Hj. rewrite along_scan_eq by exact Hj. rewrite zat_map_zseq by exact Hj.
    apply worst_spec.
    - intros E. pose proof (wf_len sa W) as L. rewrite E in L. unfold P, num_scans in HP. cbn in L. lia.
    - intros row Hr. pose proof (row_events_le sa row j W Hr). lia.
  Qed.

  (** Maximum over the frame: a value only if every position has an event. *)
  Theorem C36_max_frame bits :
    sp_F sa < 2 ^ bits -> 0 < N ->
    (forall p, 0 <= p < P -> exists j, 0 <= j < N /\ 0 < events (row_at sa p) j) ->
    exists r, max_frame sa bits = Ok r /\ Zlen r = P /\
      forall p, 0 <= p < P -> is_max (zat r p) (along_frame P N D p).
  Proof.
    intros HF HN Hev.
    assert (Hne : forall p, 0 <= p < P -> no_events (row_at sa p) = false).
    { intros p Hp. destruct (Hev p Hp) as [j [_ Hj]]. unfold no_events.
      destruct (concat (row_at sa p)) eqn:E; [|reflexivity]. exfalso.
      assert (X : events (row_at sa p) j = cnt (concat (row_at sa p)) j).
      { clear. unfold events. induction (row_at sa p) as [|fr t IH]; [reflexivity|].
        cbn [map zsum concat]. now rewrite cnt_app, IH. }
      rewrite E in X. cbn in X. lia. }
    assert (Hex : existsb no_events (sp_data sa) = false).
    { destruct (existsb no_events (sp_data sa)) eqn:E; [|reflexivity].
      apply existsb_exists in E as [row [Hr Hn]]. destruct (in_rows row Hr) as [p [Hp ->]].
      rewrite Hne in Hn by exact Hp. discriminate. }
    eexists. split; [now apply max_frame_ok|]. split; [apply Zlen_map_rows|].
    intros p Hp. rewrite along_frame_eq by exact Hp. rewrite zat_map_rows by exact Hp.
    apply top_count_spec; auto. now apply row_in.
  Qed.

  (** Finding: a single position without events makes [max] over the frame
      axes raise, although the dense maximum there is 0. *)
  Theorem C36_max_frame_empty_refuted bits :
    sp_F sa < 2 ^ bits ->
    (exists p, 0 <= p < P /\ forall j, events (row_at sa p) j = 0) ->
    max_frame sa bits = value_error.
  Proof.
    intros HF [p [Hp Hz]]. apply max_frame_throw; auto. apply existsb_exists.
    exists (row_at sa p). split; [now apply row_in|]. unfold no_events.
    destruct (concat (row_at sa p)) as [|x t] eqn:E; [reflexivity|].
    specialize (Hz x).
    assert (X : events (row_at sa p) x = cnt (concat (row_at sa p)) x).
    { clear. unfold events. induction (row_at sa p) as [|fr u IH]; [reflexivity|].
      cbn [map zsum concat]. now rewrite cnt_app, IH. }
    rewrite X, E, cnt_cons, Z.eqb_refl in Hz. pose proof (cnt_nonneg t x). lia.
  Qed.

  Theorem C36_min_frame bits :
    0 < sp_F sa < 2 ^ bits -> 0 < N ->
    exists r, min_frame sa bits = Ok r /\ Zlen r = P /\
      forall p, 0 <= p < P -> is_min (zat r p) (along_frame P N D p).
  Proof.
    intros HF HN. eexists. split; [now apply min_frame_ok|]. split; [apply Zlen_map_rows|].
    intros p Hp. rewrite along_frame_eq by exact Hp. rewrite zat_map_rows by exact Hp.
    apply low_count_spec; auto. now apply row_in.
  Qed.

  (** Mean (float32): the correctly rounded quotient while sum and number of
      elements are at most 2^24. *)
  Theorem C36_mean_scan :
    0 < P <= 2 ^ 24 ->
    exists r, mean_scan sa = Ok r /\ Zlen r = N /\
      forall j, 0 <= j < N -> zsum (along_scan P N D j) <= 2 ^ 24 ->
        fval (nth (Z.to_nat j) r (f_of_Z 0)) (f_rnd (IZR (zsum (along_scan P N D j)) / IZR P)).
  Proof.
    intros HP. destruct (fsum_scan_ok sa W) as [s [E [L V]]]. unfold mean_scan. rewrite E. cbn [bind].
    eexists. split; [reflexivity|]. split; [now rewrite Zlen_map|].
    intros j Hj Hs. change (nth (Z.to_nat j) ?l ?d) with (fat l j). rewrite fat_map by (rewrite L; exact Hj).
    rewrite along_scan_eq in * by exact Hj.
    assert (0 <= zsum (map (fun row => events row j) (sp_data sa))).
    { apply zsum_nonneg. intros x Hx. apply in_map_iff in Hx as [row [<- _]]. apply events_nonneg. }
    apply mean_div; [lia|exact HP|]. specialize (V j Hj). rewrite Z.min_l in V by exact Hs. exact V.
  Qed.

  Theorem C36_mean_frame :
    0 < N <= 2 ^ 24 ->
    exists r, mean_frame sa = Ok r /\ Zlen r = P /\
      forall p, 0 <= p < P -> zsum (along_frame P N D p) <= 2 ^ 24 ->
        fval (nth (Z.to_nat p) r (f_of_Z 0)) (f_rnd (IZR (zsum (along_frame P N D p)) / IZR N)).
  Proof.
    intros HN. unfold mean_frame. rewrite fsum_frame_ok by exact W. cbn [bind].
    eexists. split; [reflexivity|]. split; [rewrite !Zlen_map; apply (wf_len sa W)|].
    intros p Hp Hs. change (nth (Z.to_nat p) ?l ?d) with (fat l p).
    rewrite fat_map by (rewrite Zlen_map; rewrite (wf_len sa W); exact Hp).
    rewrite along_frame_eq in * by exact Hp.
    rewrite <- total_as_events in * by
      (try (intros fr Hf; exact (wf_frames sa W _ fr (row_in p Hp) Hf)); apply frame_size_nonneg; exact W).
    apply mean_div; [|exact HN|].
    - split; [|exact Hs]. unfold total. apply zsum_nonneg. intros x Hx.
      apply in_map_iff in Hx as [fr [<- _]]. apply Zlen_nonneg.
    - replace (fat (map fsum_row (sp_data sa)) p) with (fsum_row (row_at sa p)).
      + now apply fsum_row_val.
      + unfold fat, row_at. rewrite (nth_indep _ (f_of_Z 0) (fsum_row [])).
        * now rewrite map_nth.
        * rewrite map_length. pose proof (wf_len sa W). unfold P, num_scans, Zlen in *. lia.
  Qed.

  (** Finding: the float32 accumulator stops at 2^24: with more events than
      that at a pixel, the mean over the scan is 2^24 / P whatever the sum. *)
  Theorem C36_mean_scan_saturates_refuted :
    0 < P <= 2 ^ 24 ->
    exists r, mean_scan sa = Ok r /\
      forall j, 0 <= j < N -> 2 ^ 24 < zsum (along_scan P N D j) ->
        fval (nth (Z.to_nat j) r (f_of_Z 0)) (f_rnd (IZR (2 ^ 24) / IZR P)).
  Proof.
    intros HP. destruct (fsum_scan_ok sa W) as [s [E [L V]]]. unfold mean_scan. rewrite E. cbn [bind].
    eexists. split; [reflexivity|].
    intros j Hj Hs. change (nth (Z.to_nat j) ?l ?d) with (fat l j). rewrite fat_map by (rewrite L; exact Hj).
    rewrite along_scan_eq in * by exact Hj.
    apply mean_div; [lia|exact HP|]. specialize (V j Hj). rewrite Z.min_r in V by lia. exact V.
  Qed.
End dense.

Example C36_nonvacuous :
  wf ex_sparse /\
  to_dense ex_sparse = Ok (Dense [2; 2; 2; 2] [1; 0; 0; 2;  0; 1; 0; 0;  2; 2; 2; 2;  1; 0; 2; 0]) /\
  sum_scan ex_sparse 32 = Ok [4; 3; 4; 4] /\ sum_frame ex_sparse 32 = Ok [3; 1; 8; 3] /\
  max_scan ex_sparse 32 = Ok [2; 2; 2; 2] /\ max_frame ex_sparse 32 = Ok [2; 1; 2; 2] /\
  min_scan ex_sparse 32 = Ok [0; 0; 0; 0] /\ min_frame ex_sparse 32 = Ok [0; 0; 2; 0].
Proof. split; [exact ex_sparse_wf|]. repeat split. Qed.

(** One position with k frames that all hold the same event: the hypotheses of
    the mean theorems on both sides of 2^24. *)
Example C36_mean_nonvacuous k :
  0 <= k < 2 ^ 32 ->
  let sa := mkSparse [repeat [0] (Z.to_nat k)] k [1] [1; 1] 32 true true in
  exists D, wf sa /\ to_dense sa = Ok (Dense [1; 1; 1] D) /\ num_scans sa = 1 /\ frame_size sa = 1 /\
    zsum (along_scan 1 1 D 0) = k /\ zsum (along_frame 1 1 D 0) = k.
Proof.
  intros Hk sa.
  assert (W : wf sa).
  { constructor; cbn [sa sp_data sp_F sp_scan sp_frame sp_bits].
    - left. exists 1. split; [reflexivity|lia].
    - right. exists 1, 1. repeat split; lia.
    - reflexivity.
    - intros row [<-|[]]. unfold Zlen. rewrite repeat_length. lia.
    - exact Hk.
    - lia.
    - intros row fr [<-|[]] H. apply repeat_spec in H. subst fr.
      split; [constructor; [intros []|constructor]|]. intros y [<-|[]]. cbn. lia. }
  destruct (C36_dense_values sa W) as [D [E [_ V]]]. exists D. split; [exact W|]. split; [exact E|].
  do 2 (split; [reflexivity|]).
  assert (Hv : zat D 0 = k).
  { specialize (V 0 0). change (num_scans sa) with 1 in V. change (frame_size sa) with 1 in V.
    rewrite Z.mul_0_l, Z.add_0_l in V. rewrite V by lia. unfold row_at. cbn [sa sp_data nth Z.to_nat]. clear -Hk.
    assert (G : forall n, events (repeat [0] n) 0 = Z.of_nat n).
    { induction n as [|n IH]; [reflexivity|]. cbn [repeat]. rewrite events_cons, IH.
      change (cnt [0] 0) with 1. lia. }
    rewrite G. lia. }
  unfold along_scan, along_frame. change (zseq 1) with [0]. cbn [map zsum].
  rewrite !Z.mul_0_l, !Z.add_0_l, !Hv. split; lia.
Qed.

Example C36_empty_position :
  max_frame (mkSparse [[[1]]; [[]]] 1 [2] [1; 2] 32 true true) 32 = value_error.
Proof. reflexivity. Qed.

(** Finding: a frame that names a pixel twice counts once in the expansion but
    twice in the sum over the frame. *)
Theorem C36_duplicate_in_frame_refuted :
  let sa := mkSparse [[[1; 1]]] 1 [1] [1; 2] 32 true true in
  to_dense sa = Ok (Dense [1; 1; 2] [0; 1]) /\ sum_frame sa 32 = Ok [2] /\ max_frame sa 32 = Ok [2].
Proof. repeat split. Qed.

(** * C37: binning of scans *)
Theorem C37_bin_scans sa f h w shape D :
  wf sa -> 0 < f -> 0 <= h -> 0 <= w -> sp_scan sa = [h * f; w * f] ->
  f * f * sp_F sa < 2 ^ sp_bits sa ->
  to_dense sa = Ok (Dense shape D) ->
  exists sa' D', bin_scans sa f = Ok sa' /\
    to_dense sa' = Ok (Dense ([h; w] ++ sp_frame sa) D') /\
    forall i j px, 0 <= i < h -> 0 <= j < w -> 0 <= px < frame_size sa ->
      zat D' ((i * w + j) * frame_size sa + px) =
      tile_sum (fun p => zat D (p * frame_size sa + px)) (w * f) f i j.
Proof.
  intros W Hf Hh Hw Hs HF HD.
  destruct (bin_scans_ok sa f h w W Hf Hs Hh Hw HF) as [sa' [E [W' [S1 [S2 V]]]]].
  destruct (C36_dense_values sa W) as [D0 [E0 [_ V0]]]. rewrite E0 in HD. injection HD as _ ->.
  destruct (C36_dense_values sa' W') as [D' [E' [_ V']]].
  exists sa', D'. split; [exact E|]. split; [rewrite E'; unfold sp_shape; now rewrite S1, S2|].
  assert (FS : frame_size sa' = frame_size sa) by (unfold frame_size; now rewrite S2).
  assert (NS : num_scans sa' = h * w) by (unfold num_scans; rewrite S1; cbn; lia).
  assert (NS0 : num_scans sa = (h * f) * (w * f)) by (unfold num_scans; rewrite Hs; cbn; lia).
  intros i j px Hi Hj Hp. rewrite FS in V'. rewrite V' by (try rewrite NS; nia).
  rewrite V by assumption. unfold tile_sum. apply zsum_map_ext. intros a Ha. apply in_zseq in Ha.
  apply zsum_map_ext. intros b Hb. apply in_zseq in Hb.
  rewrite V0; [reflexivity| |exact Hp]. rewrite NS0.
  assert (0 <= i * f + a < h * f) by nia. assert (0 <= j * f + b < w * f) by nia. nia.
Qed.

Example C37_nonvacuous :
  bin_scans ex_sparse 2 =
  Ok (mkSparse [[[0; 3]; [3]; [1]; []; [0; 1; 2; 3]; [0; 1; 2; 3]; [2]; [2; 0]]] 8 [1; 1] [2; 2] 32 true true).
Proof. reflexivity. Qed.

(** * C38: binning of frames *)
Theorem C38_bin_frames sa f m shape D :
  wf sa -> 0 < f -> 0 < m -> sp_frame sa = [m * f; m * f] ->
  to_dense sa = Ok (Dense shape D) ->
  exists sa', bin_frames sa f = Ok sa' /\ sp_scan sa' = sp_scan sa /\ sp_frame sa' = [m; m] /\
    (sp_F sa' < 2 ^ sp_bits sa ->
     exists D', to_dense sa' = Ok (Dense (sp_scan sa ++ [m; m]) D') /\
       forall p R C, 0 <= p < num_scans sa -> 0 <= R < m -> 0 <= C < m ->
         zat D' (p * (m * m) + (R * m + C)) =
         tile_sum (fun j => zat D (p * frame_size sa + j)) (m * f) f R C).
Proof.
  intros W Hf Hm Hs HD.
  destruct (bin_frames_ok sa f m W Hf Hm Hs) as [sa' [E [S1 [S2 [_ [_ [_ [W' V]]]]]]]].
  destruct (C36_dense_values sa W) as [D0 [E0 [_ V0]]]. rewrite E0 in HD. injection HD as _ ->.
  exists sa'. split; [exact E|]. split; [exact S1|]. split; [exact S2|]. intros HB.
  destruct (C36_dense_values sa' (W' HB)) as [D' [E' [_ V']]]. exists D'.
  split; [rewrite E'; unfold sp_shape; now rewrite S1, S2|].
  assert (FS : frame_size sa' = m * m) by (unfold frame_size; rewrite S2; cbn; lia).
  assert (NS : num_scans sa' = num_scans sa) by (unfold num_scans; now rewrite S1).
  assert (FS0 : frame_size sa = (m * f) * (m * f)) by (unfold frame_size; rewrite Hs; cbn; lia).
  intros p R C Hp HR HC. rewrite FS in V'. rewrite V' by (try rewrite NS; nia).
  rewrite V by assumption. unfold tile_sum. apply zsum_map_ext. intros a Ha. apply in_zseq in Ha.
  apply zsum_map_ext. intros b Hb. apply in_zseq in Hb.
  rewrite V0; [reflexivity|exact Hp|]. rewrite FS0.
  assert (0 <= R * f + a < m * f) by nia. assert (0 <= C * f + b < m * f) by nia. nia.
Qed.

Example C38_nonvacuous :
  exists sa', bin_frames ex_sparse 2 = Ok sa' /\ sp_F sa' = 8 /\
    to_dense sa' = Ok (Dense [2; 2; 1; 1] [3; 1; 8; 3]).
Proof. eexists. repeat split. Qed.

(** Finding: for frames that are not square the bins are wrong.  In a 2 x 4
    frame the event of row 1, column 0 (left bin) is put into the right bin,
    and the one of row 1, column 2 outside of the frame, so that expanding the
    result raises.  In a 4 x 2 frame an event of row 2 (lower bin) is put into
    the upper bin. *)
Theorem C38_not_square_refuted :
  (let sa := mkSparse [[[4]]] 1 [1] [2; 4] 32 true true in
   exists D sa' D', wf sa /\ to_dense sa = Ok (Dense [1; 2; 4] D) /\ bin_frames sa 2 = Ok sa' /\
     to_dense sa' = Ok (Dense [1; 1; 2] D') /\
     zat D' 0 = 0 /\ tile_sum (zat D) 4 2 0 0 = 1) /\
  (let sa := mkSparse [[[6]]] 1 [1] [2; 4] 32 true true in
   exists sa', wf sa /\ bin_frames sa 2 = Ok sa' /\ to_dense sa' = index_error) /\
  (let sa := mkSparse [[[4]]] 1 [1] [4; 2] 32 true true in
   exists D sa' D', wf sa /\ to_dense sa = Ok (Dense [1; 4; 2] D) /\ bin_frames sa 2 = Ok sa' /\
     to_dense sa' = Ok (Dense [1; 2; 1] D') /\
     zat D' 1 = 0 /\ tile_sum (zat D) 2 2 1 0 = 1).
Proof.
  assert (W : forall a b x, 0 <= a -> 0 <= b -> 0 <= x < a * (b * 1) ->
             wf (mkSparse [[[x]]] 1 [1] [a; b] 32 true true)).
  { intros a b x Ha Hb Hx. constructor; cbn [sp_data sp_F sp_scan sp_frame sp_bits].
    - left. exists 1. split; [reflexivity|lia].
    - right. exists a, b. auto.
    - reflexivity.
    - intros row [<-|[]]. reflexivity.
    - lia.
    - lia.
    - intros row fr [<-|[]] [<-|[]]. split; [constructor; [intros []|constructor]|].
      intros y [<-|[]]. cbn [np_prod fold_right]. exact Hx. }
  split; [|split]; cbv zeta.
  - do 3 eexists. split; [apply W; lia|]. repeat split.
  - eexists. split; [apply W; lia|]. repeat split.
  - do 3 eexists. split; [apply W; lia|]. repeat split.
Qed.

(** * C39: slicing *)

(** Keys without repeated indices select every pixel at most once. *)
Lemma slice_positions_nodup n a b s l : slice_positions n a b s = Ok l -> NoDup l.
Proof.
  unfold slice_positions. intros E. destruct (Z.eqb_spec (match s with Some s => s | None => 1 end) 0) as [H|H];
    [discriminate|]. injection E as <-. set (st := match s with Some s => s | None => 1 end) in *.
  apply FinFun.Injective_map_NoDup; [|apply NoDup_zseq]. intros x y Hxy. nia.
Qed.

Lemma np_index_mod n i k : np_index n i = Ok k -> k = i mod n.
Proof.
  unfold np_index. destruct (Z.ltb_spec i 0) as [H|H]; intros E.
  - destruct (Z.leb_spec 0 (i + n)), (Z.ltb_spec (i + n) n); cbn [andb] in E; try discriminate.
    injection E as <-. symmetry. rewrite <- (Z_mod_plus_full i 1 n), Z.mul_1_l. apply Z.mod_small. lia.
  - destruct (Z.leb_spec 0 i), (Z.ltb_spec i n); cbn [andb] in E; try discriminate.
    injection E as <-. symmetry. apply Z.mod_small. lia.
Qed.

Lemma axis_select_nodup n k s :
  match k with KInts l => NoDup (map (fun i => i mod n) l) | _ => True end ->
  axis_select n k = Ok s ->
  match s with AInt _ => True | ABasic l | AAdv l => NoDup l end.
Proof.
  intros H E. destruct k; cbn [axis_select] in E; try discriminate.
  - apply bind_ok in E as [j [_ E]]. injection E as <-. exact I.
  - apply bind_ok in E as [l [E1 E]]. injection E as <-. now apply slice_positions_nodup in E1.
  - apply bind_ok in E as [l' [E1 E]]. injection E as <-.
    replace l' with (map (fun i => i mod n) l); [exact H|]. clear H. revert l' E1.
    induction l as [|x t IH]; intros l' E; cbn [mapM] in E.
    + injection E as <-. reflexivity.
    + apply bind_ok in E as [y [Ey E]]. apply bind_ok in E as [t' [Et E]]. injection E as <-.
      cbn [map]. rewrite (IH _ Et). f_equal. symmetry. now apply np_index_mod.
  - destruct (_ =? _); [|discriminate]. injection E as <-. apply true_positions_nodup.
Qed.

Lemma cross_nodup m a b :
  0 <= m -> (forall c, In c b -> 0 <= c < m) -> NoDup a -> NoDup b -> NoDup (cross m a b).
Proof.
  intros Hm Hb Ha Nb. unfold cross. induction Ha as [|r t Hr Ht IH]; [constructor|]. cbn [flat_map].
  apply StemProofs.NoDup_app_intro; [| exact IH|].
  - apply FinFun.Injective_map_NoDup; [|exact Nb]. intros x y. lia.
  - intros x H1 H2. apply in_map_iff in H1 as [c [<- Hc]]. apply in_flat_map in H2 as [r' [Hr' H2]].
    apply in_map_iff in H2 as [c' [E Hc']]. apply Hb in Hc. apply Hb in Hc'.
    assert (r' = r) by nia. congruence.
Qed.

Lemma axis_select_range n k s :
  0 <= n -> axis_select n k = Ok s ->
  match s with AInt i => 0 <= i < n | ABasic l | AAdv l => forall x, In x l -> 0 <= x < n end.
Proof.
  intros Hn E.
  assert (X : shape_ok [n]) by (left; exists n; auto).
  assert (Y : np_select [n] [k] = Ok (match s with AInt i => ([], [i]) | ABasic l | AAdv l => ([Zlen l], l) end)).
  { cbn [np_select]. rewrite E. cbn [bind]. now destruct s. }
  destruct s as [i|l|l].
  - destruct (np_select_range _ _ _ _ X Y) as [R _]. specialize (R i (or_introl eq_refl)). cbn in R. lia.
  - destruct (np_select_range _ _ _ _ X Y) as [R _]. intros x Hx. specialize (R x Hx). cbn in R. lia.
  - destruct (np_select_range _ _ _ _ X Y) as [R _]. intros x Hx. specialize (R x Hx). cbn in R. lia.
Qed.

Lemma pairs_nodup m (a b : list Z) :
  NoDup a -> (forall y, In y b -> 0 <= y < m) -> NoDup (map (fun p => fst p * m + snd p) (combine a b)).
Proof.
  intros Ha. revert b. induction Ha as [|x t Hx Ht IH]; intros b Hb; [constructor|].
  destruct b as [|y u]; [constructor|]. cbn [combine map fst snd]. constructor.
  - intros H. apply in_map_iff in H as [[x' y'] [E H]]. cbn [fst snd] in E.
    assert (H1 : 0 <= y' < m) by (apply Hb; right; now apply in_combine_r in H).
    assert (H2 : 0 <= y < m) by (apply Hb; now left).
    assert (x' = x) by nia. subst x'. apply in_combine_l in H. contradiction.
  - apply IH. intros z Hz. apply Hb. now right.
Qed.

Theorem C39_no_repeats shape ks shape' l :
  shape_ok shape -> no_repeats shape ks -> np_select shape ks = Ok (shape', l) -> NoDup l.
Proof.
  intros Hs Hk E.
  assert (H0 : ks = [] -> NoDup l).
  { intros ->. destruct shape as [|? [|? [|? ?]]]; cbn [np_select] in E; injection E as _ <-; apply NoDup_zseq. }
  destruct Hs as [[n [-> Hn]]|[n [m [-> [Hn Hm]]]]].
  - destruct ks as [|k1 [|k2 ks]]; [now apply H0| |discriminate].
    cbn [np_select] in E. apply bind_ok in E as [s [Es E]]. destruct Hk as [Hk _].
    pose proof (axis_select_nodup n k1 s Hk Es) as X.
    destruct s; injection E as _ <-; [constructor; [intros []|constructor]|exact X|exact X].
  - destruct ks as [|k1 [|k2 [|k3 ks]]]; [now apply H0| | |destruct k1; discriminate].
    + destruct Hk as [Hk _].
      assert (G : (let* s := axis_select n k1 in
          match s with
          | AInt i => Ok ([m], map (fun c => i * m + c) (zseq m))
          | ABasic l | AAdv l => Ok ([Zlen l; m], cross m l (zseq m))
          end) = Ok (shape', l) -> NoDup l).
      { clear E. intros E. apply bind_ok in E as [s [Es E]].
        pose proof (axis_select_nodup n k1 s Hk Es) as X.
        assert (Y : forall l0, NoDup l0 -> NoDup (cross m l0 (zseq m))).
        { intros l0 H. apply cross_nodup; auto; [|apply NoDup_zseq]. intros c Hc. now apply in_zseq in Hc. }
        destruct s; injection E as _ <-; [|now apply Y|now apply Y].
        apply FinFun.Injective_map_NoDup; [|apply NoDup_zseq]. intros x y. lia. }
      destruct k1; try (now apply G). clear G. cbn [np_select] in E.
      destruct (_ && _); [|discriminate]. injection E as _ <-. apply true_positions_nodup.
    + destruct Hk as [Hk1 [Hk2 _]].
      assert (E' : (let* s1 := axis_select n k1 in
        let* s2 := axis_select m k2 in
        match s1, s2 with
        | AInt i, AInt j => Ok ([], [i * m + j])
        | AInt i, ABasic l | AInt i, AAdv l => Ok ([Zlen l], map (fun c => i * m + c) l)
        | ABasic l, AInt j | AAdv l, AInt j => Ok ([Zlen l], map (fun r => r * m + j) l)
        | ABasic a, ABasic b | ABasic a, AAdv b | AAdv a, ABasic b =>
            Ok ([Zlen a; Zlen b], cross m a b)
        | AAdv a, AAdv b =>
            let* ps := broadcast2 a b in
            Ok ([Zlen ps], map (fun p => fst p * m + snd p) ps)
        end) = Ok (shape', l)) by (destruct k1; exact E). clear E. rename E' into E.
      apply bind_ok in E as [s1 [E1 E]]. apply bind_ok in E as [s2 [E2 E]].
      pose proof (axis_select_nodup n k1 s1 Hk1 E1) as X1. pose proof (axis_select_nodup m k2 s2 Hk2 E2) as X2.
      pose proof (axis_select_range n k1 s1 Hn E1) as R1. pose proof (axis_select_range m k2 s2 Hm E2) as R2.
      assert (Hrow : forall i l0, NoDup l0 -> NoDup (map (fun c => i * m + c) l0)).
      { intros i l0 H. apply FinFun.Injective_map_NoDup; [|exact H]. intros x y. lia. }
      assert (Hcol : forall j l0, 0 <= j < m -> NoDup l0 -> NoDup (map (fun r => r * m + j) l0)).
      { intros j l0 Hj H. apply FinFun.Injective_map_NoDup; [|exact H]. intros x y. nia. }
      destruct s1 as [i|a|a], s2 as [j|b|b]; cbn [bind] in E; try (injection E as _ <-); auto using cross_nodup.
      * constructor; [intros []|constructor].
      * apply bind_ok in E as [ps [Ep E]]. injection E as _ <-. unfold broadcast2 in Ep.
        destruct (Zlen a =? Zlen b).
        { injection Ep as <-.
          apply pairs_nodup; [exact X1|exact R2]. }
        destruct (Zlen a =? 1).
        { injection Ep as <-. rewrite map_map. cbn [fst snd]. now apply Hrow. }
        destruct (Z.eqb_spec (Zlen b) 1) as [Hb|]; [|discriminate].
        injection Ep as <-. rewrite map_map. cbn [fst snd]. apply Hcol; [|exact X1].
        destruct b as [|y u]; [cbn in Hb; lia|]. apply R2. now left.
Qed.

Lemma outer_dense sa sl fl :
  wf sa -> (forall p, In p sl -> 0 <= p < num_scans sa) -> (forall j, In j fl -> 0 <= j < frame_size sa) ->
  forall shape D, to_dense sa = Ok (Dense shape D) -> outer (frame_size sa) D sl fl = dense_of sa sl fl.
Proof.
  intros W Hs Hf shape D HD. destruct (C36_dense_values sa W) as [D0 [E0 [_ V0]]].
  rewrite E0 in HD. injection HD as _ ->. unfold outer, dense_of. induction sl as [|p t IH]; [reflexivity|].
  cbn [flat_map]. rewrite IH by (intros; apply Hs; now right). f_equal. apply map_ext_in.
  intros j Hj. apply V0; auto. apply Hs. now left.
Qed.

(** Slicing sparsely and expanding the result (if it is not dense already)
    gives what slicing the expanded array gives. *)
Theorem C39_slice_sparse sa ks sk fk ss sl fs fl shape D :
  wf sa -> sp_slicing sa = true -> to_dense sa = Ok (Dense shape D) ->
  split_slices sa ks = Ok (sk, fk) ->
  np_select (sp_scan sa) sk = Ok (ss, sl) -> np_select (sp_frame sa) fk = Ok (fs, fl) ->
  NoDup fl ->
  exists r, getitem sa ks = Ok r /\
    (r = Dense (ss ++ fs) (outer (frame_size sa) D sl fl) \/
     exists sa', r = Sparse sa' /\ wf sa' /\
       to_dense sa' = Ok (Dense (ss ++ fs) (outer (frame_size sa) D sl fl))).
Proof.
  intros W Hsl HD Ek Es Ef Hn.
  destruct (np_select_range _ _ _ _ (wf_scan _ W) Es) as [Rs _].
  destruct (np_select_range _ _ _ _ (wf_frame _ W) Ef) as [Rf _].
  rewrite (outer_dense sa sl fl W Rs Rf shape D HD).
  destruct (slice_sparse_ok sa sk fk ss sl fs fl W Es Ef Hn) as [r [E R]].
  exists r. unfold getitem. rewrite Ek. cbn [bind]. rewrite Hsl. split; [exact E|].
  exact R.
Qed.

(** Dense slicing gives the same values, or raises [FullExpansionDenied] when
    the result has the shape of the whole array and this is not allowed. *)
Theorem C39_slice_dense sa ks sk fk ss sl fs fl shape D :
  wf sa -> sp_slicing sa = false -> to_dense sa = Ok (Dense shape D) ->
  split_slices sa ks = Ok (sk, fk) ->
  np_select (sp_scan sa) sk = Ok (ss, sl) -> np_select (sp_frame sa) fk = Ok (fs, fl) ->
  (sp_full sa = false -> ss ++ fs = sp_shape sa -> getitem sa ks = full_denied) /\
  (sp_full sa = true \/ ss ++ fs <> sp_shape sa ->
   getitem sa ks = Ok (Dense (ss ++ fs) (outer (frame_size sa) D sl fl))).
Proof.
  intros W Hsl HD Ek Es Ef.
  destruct (np_select_range _ _ _ _ (wf_scan _ W) Es) as [Rs _].
  destruct (np_select_range _ _ _ _ (wf_frame _ W) Ef) as [Rf _].
  rewrite (outer_dense sa sl fl W Rs Rf shape D HD).
  unfold getitem. rewrite Ek. cbn [bind]. rewrite Hsl.
  rewrite (slice_dense_ok _ _ _ _ _ _ _ W Es Ef).
  assert (Heq : forall a b, shape_eqb a b = true <-> a = b).
  { clear. intros a b. unfold shape_eqb. rewrite andb_true_iff, Z.eqb_eq. split.
    - intros [L F]. revert b L F. induction a as [|x t IH]; intros [|y u] L F; try reflexivity;
        try (unfold Zlen in L; cbn in L; lia).
      cbn [combine forallb fst snd] in F. apply andb_true_iff in F as [F1 F2]. apply Z.eqb_eq in F1. subst.
      f_equal. apply IH; [|exact F2]. rewrite !Zlen_cons in L. lia.
    - intros <-. split; [reflexivity|]. induction a as [|x t IH]; [reflexivity|].
      cbn [combine forallb fst snd]. now rewrite Z.eqb_refl, IH. }
  split.
  - intros Hfull Hshape. apply Heq in Hshape. rewrite Hshape, Hfull. reflexivity.
  - intros [Hfull|Hshape].
    + rewrite Hfull. cbn [negb]. now rewrite andb_false_r.
    + destruct (shape_eqb (ss ++ fs) (sp_shape sa)) eqn:X; [apply Heq in X; contradiction|reflexivity].
Qed.

(** Indexing never runs into undefined behaviour or hangs: a value or an exception. *)
Definition value_or_raise {A} (o : outcome A) : Prop :=
  match o with Ok _ | Throw _ => True | _ => False end.

Lemma vr_bind {A B} (m : outcome A) (k : A -> outcome B) :
  value_or_raise m -> (forall x, m = Ok x -> value_or_raise (k x)) -> value_or_raise (let* x := m in k x).
Proof. destruct m; cbn; auto. Qed.

Lemma vr_mapM {A B} (f : A -> outcome B) l :
  (forall x, In x l -> value_or_raise (f x)) -> value_or_raise (mapM f l).
Proof.
  induction l as [|x t IH]; intros H; [exact I|]. cbn [mapM]. apply vr_bind; [apply H; now left|].
  intros y _. apply vr_bind; [apply IH; intros; apply H; now right|]. intros; exact I.
Qed.

Lemma vr_np_index n i : value_or_raise (np_index n i).
Proof. unfold np_index. destruct (_ && _); exact I. Qed.

Lemma vr_axis n k : value_or_raise (axis_select n k).
Proof.
  destruct k; cbn [axis_select]; try exact I.
  - apply vr_bind; [apply vr_np_index|intros; exact I].
  - apply vr_bind; [unfold slice_positions; destruct (_ =? 0); exact I|intros; exact I].
  - apply vr_bind; [apply vr_mapM; intros; apply vr_np_index|intros; exact I].
  - destruct (_ =? _); exact I.
Qed.

Lemma vr_select s ks : value_or_raise (np_select s ks).
Proof.
  assert (X : forall n (k : key) (F : axis_sel -> outcome (list Z * list Z)),
    (forall a, value_or_raise (F a)) -> value_or_raise (let* a := axis_select n k in F a)).
  { intros n k F H. apply vr_bind; [apply vr_axis|intros; apply H]. }
  assert (Y : forall n m k1 k2 (F : axis_sel -> axis_sel -> outcome (list Z * list Z)),
    (forall a b, value_or_raise (F a b)) ->
    value_or_raise (let* a := axis_select n k1 in let* b := axis_select m k2 in F a b)).
  { intros n m k1 k2 F H. apply X. intros a. apply X. apply H. }
  destruct s as [|n [|m [|? s]]], ks as [|k1 [|k2 [|k3 ks]]]; try exact I; cbn [np_select];
    try (destruct k1; exact I).
  - apply X. intros []; exact I.
  - destruct k1; try (apply X; intros []; exact I). destruct (_ && _); exact I.
  - destruct k1; apply Y; intros [] []; try exact I;
      (apply vr_bind; [unfold broadcast2; repeat (destruct (_ =? _); try exact I)|intros; exact I]).
Qed.

Lemma vr_split sa ks : value_or_raise (split_slices sa ks).
Proof.
  assert (V : forall k n, value_or_raise (validate_adv k n)).
  { intros k n. unfold validate_adv. destruct (_ <? _); exact I. }
  assert (F : forall l n, value_or_raise (validate_frame l n)).
  { induction l as [|k t IH]; intros n; [exact I|]. cbn [validate_frame]. destruct (_ =? 0); [exact I|].
    apply vr_bind; [apply V|]. intros. apply vr_bind; [apply IH|intros; exact I]. }
  assert (C : forall k r, value_or_raise (check_2d k r)).
  { intros k r. destruct k; try exact I. cbn. destruct r as [|a [|b [|? ?]]]; try exact I. destruct (_ && _); exact I. }
  destruct ks as [|first rest]; [exact I|]. unfold split_slices. apply vr_bind; [apply V|]. intros f _.
  apply vr_bind.
  - destruct (_ && _), rest; try exact I. apply vr_bind; [apply V|intros; exact I].
  - intros [sk fr] _. apply vr_bind; [apply F|]. intros fk _. destruct (_ && _); [exact I|].
    apply vr_bind; [apply C|]. intros. apply vr_bind; [apply C|]. intros; exact I.
Qed.

Lemma select_none_ok s sk :
  shape_ok s -> Zlen sk <= Zlen s -> existsb (fun k => negb (is_none_slice k)) sk = false ->
  exists r, np_select s sk = Ok r.
Proof.
  intros Hs L Hn.
  assert (F : forall k, In k sk -> k = KSlice None None None).
  { intros k Hk. apply is_none_eq. destruct (is_none_slice k) eqn:X; [reflexivity|].
    assert (existsb (fun k => negb (is_none_slice k)) sk = true).
    { apply existsb_exists. exists k. rewrite X. auto. }
    congruence. }
  destruct sk as [|k1 [|k2 [|k3 sk]]].
  - destruct s as [|? [|? [|? ?]]]; eexists; reflexivity.
  - rewrite (F k1) by now left. rewrite np_select_all by exact Hs. eauto.
  - rewrite (F k1), (F k2) by (cbn; auto).
    destruct Hs as [[n [-> Hn0]]|[n [m [-> [Hn0 Hm]]]]]; [unfold Zlen in L; cbn in L; lia|].
    cbn [np_select axis_select]. rewrite !slice_positions_all by assumption. cbn [bind]. eauto.
  - exfalso. destruct Hs as [[n [-> Hn0]]|[n [m [-> [Hn0 Hm]]]]]; rewrite !Zlen_cons in L;
      pose proof (Zlen_nonneg sk); change (@Zlen Z []) with 0 in L; lia.
Qed.

Lemma split_len sa ks sk fk : wf sa -> split_slices sa ks = Ok (sk, fk) -> Zlen sk <= Zlen (sp_scan sa).
Proof.
  intros W E.
  assert (L1 : 1 <= Zlen (sp_scan sa)).
  { destruct (wf_scan _ W) as [[n [-> _]]|[n [m [-> _]]]]; unfold Zlen; cbn; lia. }
  destruct ks as [|first rest]; [injection E as <- <-; cbn; lia|]. unfold split_slices in E.
  apply bind_ok in E as [f [_ E]]. apply bind_ok in E as [[sk' fr] [E1 E]].
  apply bind_ok in E as [fk' [_ E]]. destruct (_ && _) in E; [discriminate|].
  apply bind_ok in E as [? [_ E]]. apply bind_ok in E as [? [_ E]]. injection E as <- _.
  destruct (Z.ltb_spec 1 (Zlen (sp_scan sa))) as [H|H]; cbn [andb] in E1.
  - destruct (_ || _), rest; try (injection E1 as <- _; unfold Zlen in *; cbn; lia).
    apply bind_ok in E1 as [? [_ E1]]. injection E1 as <- _. unfold Zlen in *; cbn; lia.
  - injection E1 as <- _. unfold Zlen in *; cbn; lia.
Qed.

Theorem C39_value_or_raise sa ks :
  wf sa ->
  (forall sk fk fs fl, split_slices sa ks = Ok (sk, fk) -> np_select (sp_frame sa) fk = Ok (fs, fl) -> NoDup fl) ->
  value_or_raise (getitem sa ks).
Proof.
  intros W Hn. unfold getitem. apply vr_bind; [apply vr_split|]. intros [sk fk] Ek.
  pose proof (vr_select (sp_scan sa) sk) as V1. pose proof (vr_select (sp_frame sa) fk) as V2.
  destruct (np_select (sp_scan sa) sk) as [[ss sl]|m1|m1|] eqn:Es; try contradiction.
  - destruct (np_select (sp_frame sa) fk) as [[fs fl]|m2|m2|] eqn:Ef; try contradiction.
    + destruct (sp_slicing sa).
      * destruct (slice_sparse_ok sa sk fk ss sl fs fl W Es Ef) as [r [E _]]; [eauto|]. rewrite E. exact I.
      * rewrite (slice_dense_ok _ _ _ _ _ _ _ W Es Ef). destruct (_ && _); exact I.
    + assert (Hd : value_or_raise (slice_dense sa sk fk)).
      { unfold slice_dense. rewrite Es. cbn [bind]. rewrite Ef. exact I. }
      destruct (sp_slicing sa); [|exact Hd].
      unfold slice_sparse. destruct (np_select_range _ _ _ _ (wf_scan _ W) Es) as [Rs _].
      apply vr_bind.
      * destruct (existsb _ sk); [|exact I]. rewrite Es. cbn [bind]. destruct ss; [exact I|].
        rewrite (np_take_ok (sp_data sa) sl []); [exact I|]. intros i Hi. rewrite (wf_len _ W). now apply Rs.
      * intros [ns nr] _. destruct ns; [exact Hd|].
        destruct (existsb _ fk) eqn:Em; [rewrite Ef; exact I|].
        cbn [bind]. destruct (sp_frame sa); [exact Hd|]. cbn [bind]. apply vr_bind; [|intros; exact I].
        unfold sparse_init. destruct (_ =? _); exact I.
  - assert (Hd : value_or_raise (slice_dense sa sk fk)) by (unfold slice_dense; rewrite Es; exact I).
    destruct (sp_slicing sa); [|exact Hd].
    unfold slice_sparse. destruct (existsb _ sk) eqn:Em; [rewrite Es; exact I|].
    exfalso.
    destruct (select_none_ok (sp_scan sa) sk (wf_scan _ W) (split_len sa ks sk fk W Ek) Em) as [r E]. congruence.
Qed.

Definition full_slice := KSlice None None None.

Example C39_nonvacuous :
  (* a[1, :, ::-1, 0], a mask of pixels, and a[[3, 0]] of the flattened scan *)
  np_select (sp_scan ex_sparse) [KInt 1; full_slice] = Ok ([2], [2; 3]) /\
  np_select (sp_frame ex_sparse) [KSlice None None (Some (-1)); KInt 0] = Ok ([2], [2; 0]) /\
  getitem ex_sparse [KInt 1; full_slice; KSlice None None (Some (-1)); KInt 0] =
    Ok (Sparse (mkSparse [[[1; 0]; [1; 0]]; [[0]; [0; 1]]] 2 [2] [2] 32 true true)) /\
  no_repeats (sp_frame ex_sparse) [KInts [1; -2]] /\
  getitem ex_sparse [KInt 0; KInt (-1); KInts [1; -2]] = Ok (Dense [2; 2] [0; 0; 0; 1]) /\
  getitem (mkSparse (sp_data ex_sparse) 2 [2; 2] [2; 2] 32 false false) [full_slice] = full_denied.
Proof.
  repeat split. cbn [no_repeats sp_frame ex_sparse map].
  change (NoDup [1; 0]). repeat (constructor; [cbn; intuition congruence|]). constructor.
Qed.

(** Finding: an integer array that names a frame row twice: sparse slicing
    keeps the events only in the last copy, dense slicing in both. *)
Theorem C39_repeated_index_refuted :
  let sa := mkSparse [[[0]]] 1 [1] [2; 1] 32 true true in
  let keys := [full_slice; KInts [0; 0]] in
  exists sa' D D',
    wf sa /\ getitem sa keys = Ok (Sparse sa') /\ to_dense sa' = Ok (Dense [1; 2; 1] D') /\
    getitem (mkSparse (sp_data sa) 1 [1] [2; 1] 32 false true) keys = Ok (Dense [1; 2; 1] D) /\
    D = [1; 1] /\ D' = [0; 1].
Proof.
  cbv zeta. do 3 eexists. split; [|repeat split].
  constructor; cbn [sp_data sp_F sp_scan sp_frame sp_bits].
  - left. exists 1. split; [reflexivity|lia].
  - right. exists 2, 1. repeat split; lia.
  - reflexivity.
  - intros row [<-|[]]. reflexivity.
  - lia.
  - lia.
  - intros row fr [<-|[]] [<-|[]]. split; [constructor; [intros []|constructor]|].
    intros y [<-|[]]. cbn. lia.
Qed.

(** * Reshaping keeps the dense values *)
Theorem C39_reshape sa shape sa' :
  wf sa -> (forall x, In x shape -> 0 <= x) -> reshape sa shape = Ok sa' ->
  wf sa' /\ exists D, to_dense sa = Ok (Dense (sp_shape sa) D) /\ to_dense sa' = Ok (Dense shape D).
Proof.
  intros W Hp E. unfold reshape in E.
  destruct (negb ((Zlen shape =? 3) || (Zlen shape =? 4))) eqn:E1; [discriminate|].
  destruct (Z.eqb_spec (np_prod (firstn (Z.to_nat (Zlen shape - 2)) shape)) (np_prod (sp_scan sa))) as [Q1|]; [|discriminate].
  destruct (Z.eqb_spec (np_prod (skipn (Z.to_nat (Zlen shape - 2)) shape)) (np_prod (sp_frame sa))) as [Q2|]; [|discriminate].
  cbn [negb] in E. injection E as E.
  assert (Hl : Zlen shape = 3 \/ Zlen shape = 4).
  { apply negb_false_iff, orb_true_iff in E1. rewrite !Z.eqb_eq in E1. exact E1. }
  assert (S1 : shape_ok (firstn (Z.to_nat (Zlen shape - 2)) shape)).
  { destruct Hl as [Hl|Hl]; rewrite Hl; destruct shape as [|a [|b [|c [|d [|e t]]]]]; unfold Zlen in Hl; cbn in Hl; try lia.
    - left. exists a. split; [reflexivity|apply Hp; cbn; auto].
    - right. exists a, b. split; [reflexivity|]. split; apply Hp; cbn; auto. }
  assert (S2 : shape_ok (skipn (Z.to_nat (Zlen shape - 2)) shape)).
  { destruct Hl as [Hl|Hl]; rewrite Hl; destruct shape as [|a [|b [|c [|d [|e t]]]]]; unfold Zlen in Hl; cbn in Hl; try lia.
    - right. exists b, c. split; [reflexivity|]. split; apply Hp; cbn; auto.
    - right. exists c, d. split; [reflexivity|]. split; apply Hp; cbn; auto. }
  assert (W' : wf sa').
  { subst sa'. constructor; cbn [sp_data sp_F sp_scan sp_frame sp_bits]; try apply W; auto.
    - rewrite Q1. apply W.
    - rewrite Q2. apply W. }
  split; [exact W'|]. eexists. split; [now apply to_dense_ok|].
  rewrite (to_dense_ok sa' W'). subst sa'. unfold sp_shape, num_scans, frame_size.
  cbn [sp_scan sp_frame]. rewrite firstn_skipn, Q1, Q2. do 2 f_equal.
Qed.

Theorem C39_ravel_scans sa :
  wf sa -> Zlen (sp_frame sa) = 2 ->
  exists sa' D, ravel_scans sa = Ok sa' /\ to_dense sa = Ok (Dense (sp_shape sa) D) /\
    to_dense sa' = Ok (Dense (num_scans sa :: sp_frame sa) D).
Proof.
  intros W H2.
  assert (E : exists sa', ravel_scans sa = Ok sa').
  { unfold ravel_scans, reshape. rewrite Zlen_cons, H2. change (1 + 2 =? 3) with true. cbn [orb negb].
    change (Z.to_nat (1 + 2 - 2)) with 1%nat. cbn [firstn skipn np_prod fold_right].
    rewrite Z.mul_1_r. fold (np_prod (sp_scan sa)). rewrite !Z.eqb_refl. cbn [negb]. eauto. }
  destruct E as [sa' E]. exists sa'.
  assert (X : forall x, In x (np_prod (sp_scan sa) :: sp_frame sa) -> 0 <= x).
  { intros x [<-|Hx]; [apply np_prod_nonneg; apply W|].
    destruct (wf_frame _ W) as [[n [Ef Hn]]|[n [m [Ef [Hn Hm]]]]]; rewrite Ef in Hx; cbn in Hx; intuition lia. }
  destruct (C39_reshape sa _ sa' W X E) as [_ [D [E1 E2]]]. exists D. auto.
Qed.

Example C39_reshape_nonvacuous :
  exists sa', reshape ex_sparse [1; 4; 4; 1] = Ok sa' /\ sp_scan sa' = [1; 4] /\ sp_frame sa' = [4; 1].
Proof. eexists. repeat split. Qed.

Print Assumptions C36_dense_values.
Print Assumptions C36_sum_scan.
Print Assumptions C36_sum_frame.
Print Assumptions C36_max_scan.
Print Assumptions C36_min_scan.
Print Assumptions C36_max_frame.
Print Assumptions C36_max_frame_empty_refuted.
Print Assumptions C36_min_frame.
Print Assumptions C36_mean_scan.
Print Assumptions C36_mean_frame.
Print Assumptions C36_mean_scan_saturates_refuted.
Print Assumptions C36_duplicate_in_frame_refuted.
Print Assumptions C37_bin_scans.
Print Assumptions C38_bin_frames.
Print Assumptions C38_not_square_refuted.
Print Assumptions C39_no_repeats.
Print Assumptions C39_slice_sparse.
Print Assumptions C39_slice_dense.
Print Assumptions C39_value_or_raise.
Print Assumptions C39_repeated_index_refuted.
Print Assumptions C39_reshape.
Print Assumptions C39_ravel_scans.
