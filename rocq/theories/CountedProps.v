(** Property C56: from detector frames to the SparseArray. *)
From Coq Require Import String ZArith List Bool Lia Permutation QArith.
From Verif Require Import Base BaseFacts BlockModel ElectronModel ElectronSpec ElectronProps CountSpec CountModel
  CountProps SparseModel SparseSpec SparseProofs SparseSlice SparseReduce SparseProps CountedModel CountedSpec.
Import ListNotations.
Open Scope Z_scope.

Local Arguments Z.mul : simpl never.
Local Arguments Z.add : simpl never.
Local Arguments Z.pow : simpl never.

Lemma events_app a b j : events (a ++ b) j = events a j + events b j.
Proof. unfold events. now rewrite map_app, zsum_app. Qed.

Lemma events_repeat n j : events (repeat [] n) j = 0.
Proof. unfold events. induction n as [|n IH]; [reflexivity|]. cbn [repeat map zsum]. rewrite IH. reflexivity. Qed.

Lemma nth_error_zseq_map {A} (l : list A) p : 0 <= p < Zlen l -> exists x, nth_error l (Z.to_nat p) = Some x.
Proof.
  intros H. destruct (nth_error l (Z.to_nat p)) as [x|] eqn:E; [eauto|]. apply nth_error_None in E. unfold Zlen in H. lia.
Qed.

Section wrap.
  Variables (count : (Z * Z) -> list Z -> outcome (list Z)) (blocks : list block) (r : list (list (list Z))).
  Variables (sw sh w h : Z).
  Hypothesis Hs : 0 < sw /\ 0 < sh.
  Hypothesis Hf : 0 < w /\ 0 < h.
  Hypothesis R : counted_once count (sw * sh) blocks r.
  Hypothesis few : Zlen (flat_map frames_of blocks) < 2 ^ 32.
  Hypothesis sound : forall f ev, In f (flat_map frames_of blocks) ->
    count (fst (snd f)) (snd (snd f)) = Ok ev -> NoDup ev /\ forall x, In x ev -> 0 <= x < w * h.

  Lemma frames_at_in p f : In f (frames_at p blocks) -> In (p, f) (flat_map frames_of blocks).
  Proof.
    unfold frames_at. intros H. apply in_map_iff in H as ([q g] & <- & H). apply filter_In in H as [H E].
    cbn [fst snd] in *. apply Z.eqb_eq in E. now subst q.
  Qed.

  Lemma row_shape : exists m, 0 <= m < 2 ^ 32 /\
    forall row, In row r -> Zlen row = m /\ forall ev, In ev row -> frame_ok (w * h) ev.
  Proof.
    destruct R as (L & _ & m & (M1 & M2) & V).
    assert (Hm : forall p, 0 <= Zlen (frames_at p blocks) < 2 ^ 32).
    { intros p. split; [apply Zlen_nonneg|]. apply Z.le_lt_trans with (2 := few). unfold frames_at. rewrite Zlen_map.
      unfold Zlen. apply inj_le. clear. generalize (flat_map frames_of blocks).
      induction l as [|f t IH]; [reflexivity|].
      cbn [filter]. destruct (_ =? _); cbn [List.length]; lia. }
    exists m. split.
    { destruct M2 as [->|(p & _ & <-)]; [lia|apply Hm]. }
    intros row Hr. apply In_nth_error in Hr as (k & Hk).
    assert (Hk' : (k < List.length r)%nat) by (apply nth_error_Some; congruence).
    assert (Hp : 0 <= Z.of_nat k < sw * sh) by (unfold Zlen in L; lia).
    destruct (V (Z.of_nat k) Hp) as (evs & E & P). rewrite Nat2Z.id, Hk in E. injection E as ->.
    assert (Le : Zlen evs = Zlen (frames_at (Z.of_nat k) blocks)).
    { apply Permutation_length in P. rewrite !map_length in P. unfold Zlen. lia. }
    specialize (M1 _ Hp). split.
    - rewrite Zlen_app, Zlen_repeat, Le. lia.
    - intros ev He. apply in_app_or in He as [He|He].
      + assert (In (Ok ev) (map (fun f => count (fst f) (snd f)) (frames_at (Z.of_nat k) blocks))) as Q
          by (apply (Permutation_in _ P); now apply in_map).
        apply in_map_iff in Q as (f & Q & Hin). apply frames_at_in in Hin.
        apply (sound _ ev Hin Q).
      + apply repeat_spec in He. subst ev. split; [constructor|intros x []].
  Qed.

  Lemma row_events p j row : 0 <= p < sw * sh -> nth_error r (Z.to_nat p) = Some row ->
    events row j = frames_hitting count blocks p j.
  Proof.
    destruct R as (L & _ & m & _ & V). intros Hp Hr. destruct (V p Hp) as (evs & E & P). rewrite Hr in E. injection E as ->.
    rewrite events_app, events_repeat, Z.add_0_r.
    assert (G : Permutation evs (map (reported count) (frames_at p blocks))).
    { apply (Permutation_map (fun o => match o with Ok ev => ev | _ => [] end)) in P. rewrite !map_map in P.
      rewrite map_id in P. exact P. }
    unfold events. rewrite (zsum_perm _ _ (Permutation_map (fun fr => cnt fr j) G)). rewrite map_map.
    unfold frames_hitting.
    assert (Q : forall f, In f (frames_at p blocks) ->
      cnt (reported count f) j = if existsb (Z.eqb j) (reported count f) then 1 else 0).
    { intros f Hin. apply frames_at_in in Hin. unfold reported.
      destruct (count (fst f) (snd f)) as [ev| | |] eqn:Ec; try reflexivity.
      destruct (sound _ ev Hin Ec) as [N _]. rewrite cnt_nodup by exact N. reflexivity. }
    revert Q. generalize (frames_at p blocks). induction l as [|f t IH]; intros Q; [reflexivity|].
    cbn [map zsum filter]. rewrite Q by (now left).
    destruct (existsb _ _); rewrite ?Zlen_cons, IH by (intros; apply Q; now right); lia.
  Qed.

  Theorem wrap_ok :
    exists sa, wrap_counted r (sw, sh) (w, h) = Ok sa /\ wf sa /\
      sp_scan sa = [sh; sw] /\ sp_frame sa = [w; h] /\
      exists D, to_dense sa = Ok (Dense [sh; sw; w; h] D) /\
        forall p j, 0 <= p < sw * sh -> 0 <= j < w * h ->
          zat D (p * (w * h) + j) = frames_hitting count blocks p j.
  Proof.
    destruct row_shape as (m & Hm & S). pose proof R as (L & _).
    assert (Hne : exists row0 t, r = row0 :: t).
    { destruct r as [|a t]; [unfold Zlen in L; cbn in L; nia|eauto]. }
    destruct Hne as (row0 & t & E0).
    unfold wrap_counted. cbn [fst snd]. set (F := match r with [] => 0 | row :: _ => Zlen row end).
    assert (HF : F = m) by (unfold F; rewrite E0; apply S; rewrite E0; now left).
    assert (existsb (fun row => F <? Zlen row) r = false) as ->.
    { rewrite HF. destruct (existsb _ r) eqn:X; [|reflexivity]. apply existsb_exists in X as (row & Hr & X).
      apply Z.ltb_lt in X. rewrite (proj1 (S row Hr)) in X. lia. }
    assert (existsb (fun row => Zlen row <? F) r = false) as ->.
    { rewrite HF. destruct (existsb _ r) eqn:X; [|reflexivity]. apply existsb_exists in X as (row & Hr & X).
      apply Z.ltb_lt in X. rewrite (proj1 (S row Hr)) in X. lia. }
    assert (PS : np_prod [sh; sw] = sw * sh) by (unfold np_prod; cbn [fold_right]; lia).
    assert (PF : np_prod [w; h] = w * h) by (unfold np_prod; cbn [fold_right]; lia).
    unfold sparse_init. rewrite PS, L, Z.eqb_refl.
    set (sa := mkSparse r F [sh; sw] [w; h] 32 true false).
    assert (W : wf sa).
    { constructor; cbn [sa sp_scan sp_frame sp_data sp_F sp_bits].
      - right. exists sh, sw. repeat split; lia.
      - right. exists w, h. repeat split; lia.
      - rewrite PS. exact L.
      - intros row Hr. rewrite HF. apply S, Hr.
      - rewrite HF. exact Hm.
      - lia.
      - intros row fr Hr. rewrite PF. intros Hfr. now apply (proj2 (S row Hr)). }
    exists sa. split; [reflexivity|]. split; [exact W|]. split; [reflexivity|]. split; [reflexivity|].
    destruct (C36_dense_values sa W) as (D & ED & _ & V). exists D. split; [exact ED|].
    intros p j Hp Hj. unfold num_scans, frame_size in V. cbn [sa sp_scan sp_frame] in V. rewrite PS, PF in V.
    rewrite V by assumption. unfold row_at. cbn [sa sp_data].
    destruct (nth_error_zseq_map r p) as (row & Er); [lia|]. rewrite (nth_error_nth _ _ _ Er).
    now apply row_events.
  Qed.
End wrap.

(** The array built from a complete set of counted frames is well formed (so
    the theorems C36 - C42 and C50 - C53 apply to it), and expanding it gives,
    for every scan position and flat pixel index, the number of delivered
    frames in which the pixel was reported as an event. *)
Theorem C56_sparse_array count blocks r sw sh w h :
  0 < sw /\ 0 < sh -> 0 < w /\ 0 < h ->
  counted_once count (sw * sh) blocks r ->
  Zlen (flat_map frames_of blocks) < 2 ^ 32 ->
  (forall f ev, In f (flat_map frames_of blocks) -> count (fst (snd f)) (snd (snd f)) = Ok ev ->
     NoDup ev /\ forall x, In x ev -> 0 <= x < w * h) ->
  exists sa, wrap_counted r (sw, sh) (w, h) = Ok sa /\ wf sa /\
    sp_scan sa = [sh; sw] /\ sp_frame sa = [w; h] /\
    exists D, to_dense sa = Ok (Dense [sh; sw; w; h] D) /\
      forall p j, 0 <= p < sw * sh -> 0 <= j < w * h ->
        zat D (p * (w * h) + j) = frames_hitting count blocks p j.
Proof. intros. now apply wrap_ok. Qed.

(** * End to end, for uint16 frames with or without a dark reference *)

Lemma In_firstn_sub {A} n (l : list A) x : In x (firstn n l) -> In x l.
Proof. intros H. rewrite <- (firstn_skipn n l). apply in_or_app. now left. Qed.


Definition u16_count (dark : option (list Q)) (t : Q * Q) (d : Z * Z) (f : list Z) : outcome (list Z) :=
  electronCountFrame u16_ops (if dark then true else false) dark None (fst t) (snd t) false 0%Q false d f.

(** A dark reference covers the frame and its values fit in 16 bits. *)
Definition dark_ok (dark : option (list Q)) (n : Z) : Prop :=
  match dark with
  | None => True
  | Some d => Zlen d = n /\ forall j, 0 <= j < n -> 0 <= dark_level dark j < 2 ^ 16
  end.

Lemma zat_pixel (f : list Z) w x y v : 0 <= y * w + x -> pixel f w x y = Some v -> zat f (y * w + x) = v.
Proof.
  unfold pixel, zat. intros H E. destruct (Z.ltb_spec (y * w + x) 0); [lia|]. now apply nth_error_nth.
Qed.

Lemma peak_spec dark bg xray w h f f' x y :
  0 < w -> 0 < h -> 0 <= x < w -> 0 <= y < h ->
  frame_is f' w h (fun x y => kept u16_ops bg xray
    ((zat f (y * w + x) - dark_level dark (y * w + x)) mod 2 ^ 16)) ->
  peak dark bg xray w h f x y = true <-> strict_local_max (op_gt u16_ops) f' w h x y.
Proof.
  intros Hw Hh Hx Hy (_ & V). unfold peak, strict_local_max. rewrite forallb_forall. split.
  - intros H. split; [exact Hx|]. split; [exact Hy|].
    intros x' y' v v' (Hx' & Hy' & Dx & Dy & N) E E'.
    rewrite (V x y Hx Hy) in E. rewrite (V x' y' Hx' Hy') in E'. injection E as <-. injection E' as <-.
    specialize (H y' ltac:(now apply in_zseq)). rewrite forallb_forall in H.
    specialize (H x' ltac:(now apply in_zseq)).
    destruct (Z.leb_spec (Z.abs (x' - x)) 1); [|lia]. destruct (Z.leb_spec (Z.abs (y' - y)) 1); [|lia]. cbn [andb] in H.
    destruct (Z.eqb_spec x' x) as [Ex|]; destruct (Z.eqb_spec y' y) as [Ey|]; cbn [andb negb] in H;
      try (now (rewrite Ex, Ey in N)); exact H.
  - intros (_ & _ & H) y' Hy'. apply in_zseq in Hy'. rewrite forallb_forall. intros x' Hx'. apply in_zseq in Hx'.
    destruct (Z.leb_spec (Z.abs (x' - x)) 1); [|reflexivity].
    destruct (Z.leb_spec (Z.abs (y' - y)) 1); [|reflexivity]. cbn [andb].
    destruct (negb _) eqn:N; [|reflexivity].
    apply (H x' y' _ _); [|exact (V x y Hx Hy)|exact (V x' y' Hx' Hy')].
    split; [exact Hx'|]. split; [exact Hy'|]. split; [lia|]. split; [lia|]. intros E. injection E as -> ->.
    rewrite !Z.eqb_refl in N. discriminate.
Qed.

Lemma u16_count_ok dark bg xray w h f :
  1 <= w < 65536 -> 1 <= h < 65536 -> w * h < 2 ^ 32 -> Zlen f = w * h -> Forall is_u16 f -> dark_ok dark (w * h) ->
  exists ev, u16_count dark (bg, xray) (w, h) f = Ok ev /\ NoDup ev /\ (forall i, In i ev -> 0 <= i < w * h) /\
    forall x y, 0 <= x < w -> 0 <= y < h -> existsb (Z.eqb (y * w + x)) ev = peak dark bg xray w h f x y.
Proof.
  intros Hw Hh Hwh L Hu Hd.
  set (val := fun j => (zat f j - dark_level dark j) mod 2 ^ 16).
  set (c := fun x y => val (y * w + x)).
  set (f' := map (fun j => kept u16_ops bg xray (val j)) (zseq (w * h))).
  assert (FI : frame_is f' w h (fun x y => kept u16_ops bg xray (c x y))).
  { split; [unfold f'; rewrite Zlen_map; apply Zlen_zseq; nia|]. intros x y Hx Hy. unfold pixel, f'.
    assert (0 <= y * w + x < w * h) by nia.
    rewrite nth_error_map. unfold zseq. rewrite nth_error_map, (nth_error_nth' _ 0%nat) by (rewrite seq_length; lia).
    rewrite seq_nth by lia. cbn [option_map]. rewrite Nat.add_0_l, Z2Nat.id by lia. reflexivity. }
  destruct (count_frame_correct Z Q Q u16_ops dark None bg xray 0%Q false w h f c f') as (ev & E & A & S);
    try exact I; try lia; try exact FI.
  { destruct dark as [d|]; [exact (proj1 Hd)|exact I]. }
  { intros x y v Hx Hy Hv. assert (Hj : 0 <= y * w + x < w * h) by nia.
    assert (Ev : zat f (y * w + x) = v) by (apply zat_pixel; [lia|exact Hv]).
    assert (Uv : is_u16 v).
    { rewrite Forall_forall in Hu. apply Hu. eapply nth_error_In, Hv. }
    unfold c, val. rewrite Ev. destruct dark as [d|].
    - destruct Hd as [Ld Bd]. specialize (Bd _ Hj). cbn [dark_level ref_at] in *.
      unfold pixel. rewrite (nth_error_nth' d 0%Q) by (unfold Zlen in Ld; lia).
      apply u16_dark_subtraction_wraps; [exact Uv|exact Bd].
    - cbn [ref_at dark_level]. rewrite Z.sub_0_r, Z.mod_small by (unfold is_u16 in Uv; lia).
      exists v. split; reflexivity. }
  exists ev. split; [exact E|]. split; [now apply ascending_NoDup|]. split.
  - intros i Hi. apply S in Hi as (x & y & -> & (Hx & Hy & _)). nia.
  - intros x y Hx Hy. apply eq_true_iff_eq. rewrite existsb_exists.
    rewrite (peak_spec dark bg xray w h f f' x y) by (auto; lia). split.
    + intros (i & Hi & Ei). apply Z.eqb_eq in Ei. subst i. apply S in Hi as (x' & y' & Ei & M).
      pose proof M as (Hx' & Hy' & _). assert (y' = y /\ x' = x) as [-> ->]; [|exact M].
      { assert (y' = y) by nia. subst y'. lia. }
    + intros M. exists (y * w + x). split; [|apply Z.eqb_refl]. apply S. eauto.
Qed.

(** Every terminating run of the threaded counter, whatever the number of
    workers and the interleaving, yields an array whose expansion is, at every
    scan position and pixel, the number of frames of that position with a peak
    there, for thresholds computed from the sampled blocks. *)
Theorem C56_threaded_end_to_end (thresholds_of : list block -> outcome (Q * Q)) nsamples scan_opt
    dark nw blocks cs s r sw sh w h :
  0 < sw /\ 0 < sh /\ sw * sh < 2 ^ 32 -> 1 <= w < 65536 -> 1 <= h < 65536 -> w * h < 2 ^ 32 ->
  dark_ok dark (w * h) ->
  (forall b, In b blocks -> block_ok b /\ frame_dims (hdr b) = (w, h) /\ scan_in_effect scan_opt b = (sw, sh) /\
     (forall d, data b = Some d -> Forall is_u16 d)) ->
  Zlen (flat_map frames_of blocks) < 2 ^ 32 ->
  count_run thresholds_of (u16_count dark) nsamples scan_opt cs (count_init nw blocks) = Some (Ok s) ->
  c_main s = MDone r ->
  exists samples rest bg xray sa D,
    Permutation blocks (samples ++ rest) /\ thresholds_of samples = Ok (bg, xray) /\
    wrap_counted r (sw, sh) (w, h) = Ok sa /\ wf sa /\
    to_dense sa = Ok (Dense [sh; sw; w; h] D) /\
    forall p x y, 0 <= p < sw * sh -> 0 <= x < w -> 0 <= y < h ->
      zat D (p * (w * h) + (y * w + x)) = peaks_at dark bg xray w h blocks p x y.
Proof.
  intros Hs Hw Hh Hwh Hd Hb few Hrun Hmain.
  destruct (threaded_count_correct thresholds_of (u16_count dark) nsamples scan_opt nw blocks cs s r)
    as (samples & rest & (bg & xray) & b0 & P & _ & _ & T & B0 & R); auto.
  { intros b Hin. apply (Hb b Hin). }
  assert (Hin0 : In b0 blocks).
  { apply (Permutation_in _ (Permutation_sym P)). apply in_or_app. left. eapply nth_error_In, B0. }
  rewrite (proj1 (proj2 (proj2 (Hb b0 Hin0)))) in R. cbn [fst snd] in R. rewrite u32_id in R by (unfold is_u32; nia).
  assert (FR : forall f, In f (flat_map frames_of blocks) ->
    fst (snd f) = (w, h) /\ Zlen (snd (snd f)) = w * h /\ Forall is_u16 (snd (snd f))).
  { intros f Hf. apply in_flat_map in Hf as (b & Hin & Hf). destruct (Hb b Hin) as (K & Ed & _ & Ud).
    destruct (bk_data b K) as (d & Edat & Ld & _). specialize (Ud d Edat). unfold frames_of in Hf. rewrite Edat in Hf.
    apply in_map_iff in Hf as (i & <- & Hi). apply in_zseq in Hi. cbn [fst snd]. rewrite Ed in *. cbn [fst snd] in *.
    split; [reflexivity|]. split.
    - unfold image, Zlen in *. rewrite firstn_length, skipn_length. nia.
    - rewrite Forall_forall in *. intros v Hv. apply Ud. unfold image in Hv.
      rewrite <- (firstn_skipn (Z.to_nat (i * (w * h))) d). apply in_or_app. right.
      eapply (In_firstn_sub _ _ _ Hv). }
  assert (G := fun f (Hf : In f (flat_map frames_of blocks)) =>
    u16_count_ok dark bg xray w h (snd (snd f)) Hw Hh Hwh (proj1 (proj2 (FR f Hf))) (proj2 (proj2 (FR f Hf))) Hd).
  destruct (C56_sparse_array (u16_count dark (bg, xray)) blocks r sw sh w h) as (sa & E & W & _ & _ & D & ED & V);
    try lia; auto.
  { intros f ev Hf Ev. destruct (G f Hf) as (ev' & E' & N & B & _). rewrite (proj1 (FR f Hf)) in Ev.
    rewrite E' in Ev. injection Ev as <-. auto. }
  exists samples, rest, bg, xray, sa, D. do 5 (split; [assumption|]).
  intros p x y Hp Hx Hy. rewrite V by (auto; nia). unfold frames_hitting, peaks_at.
  assert (Q : forall f, In f (frames_at p blocks) ->
    existsb (Z.eqb (y * w + x)) (reported (u16_count dark (bg, xray)) f) = peak dark bg xray w h (snd f) x y).
  { intros f Hf. apply frames_at_in in Hf. destruct (G (p, f) Hf) as (ev & Ev & _ & _ & S). unfold reported.
    pose proof (proj1 (FR (p, f) Hf)) as Ef. cbn [fst snd] in *. rewrite Ef, Ev. now apply S. }
  f_equal. apply filter_ext_in. exact Q.
Qed.

(** ** Non-vacuity: the run of [ex_run_u16] *)
Definition ex_thresholds (_ : list block) : outcome (Q * Q) := Ok (inject_Z 5, inject_Z 100).

Example C56_nonvacuous : exists cs s r,
  count_run ex_thresholds (u16_count None) 1 (0, 0) cs (count_init 1 ex_blocks) = Some (Ok s) /\
  c_main s = MDone r /\ r = [[[]]; [[0]]; [[0]]] /\
  wrap_counted r (3, 1) (2, 1) = Ok (mkSparse r 1 [1; 3] [2; 1] 32 true false).
Proof.
  exists [Take 0 0; Work 0; Work 0; Work 0; MainStep; MainStep;
          MainStep; MainStep; MainStep; MainStep; MainStep;
          Take 0 0; Work 0; Work 0; Work 0; Work 0; Work 0;
          Take 0 0; Work 0; Work 0; Work 0; Work 0; Work 0; MainStep].
  eexists. exists [[[]]; [[0]]; [[0]]]. split; [vm_compute; reflexivity|]. split; [reflexivity|].
  split; reflexivity.
Qed.

Example C56_example_blocks : forall b, In b ex_blocks ->
  block_ok b /\ frame_dims (hdr b) = (2, 1) /\ scan_in_effect (0, 0) b = (3, 1) /\
  (forall d, data b = Some d -> Forall is_u16 d).
Proof.
  intros b Hb. split; [exact (dl_block _ _ _ ex_delivery b Hb)|].
  destruct Hb as [<-|[<-|[<-|[]]]]; (split; [reflexivity|]; split; [reflexivity|]);
    intros d E; injection E as <-; repeat constructor; unfold is_u16; lia.
Qed.

(** Finding: the frame shape is passed as (width, height), while event indices
    are row * width + column.  For frames that are not square the expanded
    array shows an electron at another place: here x = 0, y = 1 of a 3 x 2
    frame (index 3) appears in the 3-row, 2-column expansion at row 1, column 1,
    whereas the correct 2-row, 3-column array has it at row 1, column 0. *)
Theorem C56_frame_shape_refuted : exists sa D,
  wrap_counted [[[3]]] (1, 1) (3, 2) = Ok sa /\ sp_frame sa = [3; 2] /\
  to_dense sa = Ok (Dense [1; 1; 3; 2] D) /\
  (* row 1, column 1 of the array the user gets, and row 1, column 0 *)
  zat D (1 * 2 + 1) = 1 /\ zat D (1 * 2 + 0) = 0 /\ 3 = 1 * 3 + 0.
Proof.
  do 2 eexists. split; [reflexivity|]. split; [reflexivity|]. split; [vm_compute; reflexivity|].
  repeat split.
Qed.

Print Assumptions C56_sparse_array.
Print Assumptions C56_threaded_end_to_end.
Print Assumptions C56_frame_shape_refuted.
