(** C67: the image functions of the Python package over a plain reader. *)
From Coq Require Import String ZArith List Lia Bool Reals Lra.
From Flocq Require Import Core.
From Verif Require Import Base BaseFacts BlockModel Double Float32 FloatConv PoolModel ImageModel ImageSpec ImageProofs ImageProps
  StemModel StemSpec StemProofs StemProps RadialModel RadialSpec RadialProps HistSpec HistProofs HistProps
  SparseModel HelperModel PyModel PySpec PyProofs StreamModel StreamSpec
  ClassicPyModel ClassicPySpec ClassicPyProofs ClassicPyProps ReaderImageModel ReaderImageSpec ReaderImageProofs.
Import ListNotations.
Open Scope Z_scope.
Local Arguments Z.mul : simpl never.
Local Arguments Z.add : simpl never.
Local Arguments Z.sub : simpl never.
Local Arguments Z.pow : simpl never.

(** ** Each function works on the blocks after the reader's position *)
(** Whatever was done with the reader before: [k] blocks were read since the last
    reset; the average is that of the frames of all later blocks, rounded once. *)
Theorem C67_average {R} (ops : reader_ops R) r bs fuel cs w h :
  reader_of ops r bs -> (forall b, In b bs -> real_block b) -> (List.length bs < fuel)%nat ->
  let rest := skipn (since_reset cs) bs in let N := frame_count rest in
  frames_input rest w h -> 0 < N -> 65535 * N <= 2 ^ 53 ->
  exists a, py_calculate_average ops fuel (run_calls ops cs r) =
      (Ok a, run_calls ops (cs ++ repeat CRead (S (List.length rest))) r) /\
    ia_dims a = (w, h) /\ Zlen (ia_values a) = w * h /\ ia_image a = Some (ia_values a) /\ ia_shared a = true /\
    forall x y, 0 <= x < w -> 0 <= y < h ->
      dval (dat (ia_values a) (y * w + x)) (d_rnd (IZR (pixel_total rest w h x y) / IZR N)).
Proof.
  intros Hrd Rb Hf rest N Hin HN HM. destruct (iterate_rest ops r bs Hrd Rb fuel cs Hf) as (r' & E & _ & ->). fold rest in E |- *.
  destruct (average_correct rest w h Hin HN HM) as (img & Ei & L & V).
  exists (image_array_of ((w, h), img)). unfold py_calculate_average. rewrite E. cbn [obind]. rewrite Ei. cbn [bind].
  repeat split; auto; apply (V x y); auto.
Qed.

(** The maximum diffraction pattern, without a dark reference. *)
Theorem C67_maximum {R} (ops : reader_ops R) kind r bs fuel cs w h :
  reader_of ops r bs -> (forall b, In b bs -> real_block b) -> (List.length bs < fuel)%nat ->
  let rest := skipn (since_reset cs) bs in
  frames_input rest w h ->
  exists a, py_maximum_diffraction_pattern ops kind fuel NoDark (run_calls ops cs r) =
      (Ok a, run_calls ops (cs ++ repeat CRead (S (List.length rest))) r) /\
    ia_dims a = (w, h) /\ Zlen (ia_values a) = w * h /\ ia_image a = Some (ia_values a) /\
    forall x y, 0 <= x < w -> 0 <= y < h ->
      exists m, is_max0 (map (pixel_of w h x y) (all_frames rest)) m /\ dval (dat (ia_values a) (y * w + x)) (IZR m).
Proof.
  intros Hrd Rb Hf rest Hin. destruct (iterate_rest ops r bs Hrd Rb fuel cs Hf) as (r' & E & _ & ->). fold rest in E |- *.
  destruct (maximum_pattern_correct rest w h Hin) as (img & Ei & L & V).
  exists (image_array_of ((w, h), img)). unfold py_maximum_diffraction_pattern.
  replace (accepted [CIterator kind; CIterator kind]) with true by now destruct kind.
  rewrite E. cbn [obind]. rewrite Ei. cbn [bind]. auto 10.
Qed.

(** The radial sum, for every complete execution of the pool. *)
Theorem C67_radial_sum {R} (ops : reader_ops R) r bs fuel cs center_x center_y scan sched res r' w h sw sh radii :
  reader_of ops r bs -> (forall b, In b bs -> real_block b) -> (List.length bs < fuel)%nat ->
  let rest := skipn (since_reset cs) bs in
  radial_input rest scan w h sw sh center_x center_y radii ->
  py_radial_sum ops fuel (center_x, center_y) scan sched (run_calls ops cs r) = (Some res, r') ->
  r' = run_calls ops (cs ++ repeat CRead (S (List.length rest))) r /\
  exists mem, res = Ok (radii, mem) /\ Zlen mem = radii * (sw * sh) /\
    forall ring p, 0 <= ring < radii -> 0 <= p < sw * sh ->
      zat mem (ring * (sw * sh) + p) =
      u64 (over_frames_at w h rest p
             (fun pix => ring_sum w h pix (axis_center w center_x) (axis_center h center_y) ring)).
Proof.
  intros Hrd Rb Hf rest Hin Er. destruct (iterate_rest ops r bs Hrd Rb fuel cs Hf) as (r1 & E & _ & Q). fold rest in E, Q.
  unfold py_radial_sum in Er. rewrite E in Er. injection Er as Er <-. split; [exact Q|].
  exact (radial_sum_correct rest scan w h sw sh center_x center_y radii Hin sched res Er).
Qed.

(** The histograms of the images of the annular detectors. *)
Theorem C67_histogram {R} (ops : reader_ops R) r bs fuel cs N inner outer scan cx cy sched res r' w h sw sh :
  reader_of ops r bs -> (forall b, In b bs -> real_block b) -> (List.length bs < fuel)%nat ->
  let rest := skipn (since_reset cs) bs in
  stem_input rest inner outer scan w h sw sh -> distinct_positions rest -> sw * sh < 2 ^ 31 -> 0 < N < 2 ^ 31 ->
  py_create_stem_histogram ops fuel N inner outer scan (cx, cy) sched (run_calls ops cs r) = (Some res, r') ->
  r' = run_calls ops (cs ++ repeat CRead (S (List.length rest))) r /\
  exists imgs bins freqs, detector_images imgs rest inner outer w h sw sh cx cy /\
    res = Ok (bins, freqs) /\ List.length bins = List.length inner /\ List.length freqs = List.length inner /\
    forall k, (k < List.length inner)%nat -> histogram_of (nth k imgs []) N (nth k bins []) (nth k freqs []).
Proof.
  intros Hrd Rb Hf rest Hin Hd Hs HN Er. destruct (iterate_rest ops r bs Hrd Rb fuel cs Hf) as (r1 & E & _ & Q). fold rest in E, Q.
  unfold py_create_stem_histogram in Er. rewrite E in Er.
  destruct (createSTEMImages rest inner outer scan (cx, cy) sched) as [o|] eqn:Ec; [|discriminate].
  injection Er as Er <-. split; [exact Q|].
  destruct (stem_images_correct rest inner outer scan w h sw sh cx cy Hin Hd sched o Ec) as (imgs & -> & L & V).
  cbn [bind] in Er. pose proof (proj1 (si_scan _ _ _ _ _ _ _ _ Hin)) as Hsc. unfold effective_scan in Hsc.
  assert (Ed : (if (fst scan =? 0) || (snd scan =? 0) then match rest with b0 :: _ => scan_dims (hdr b0) | [] => scan end
                else scan) = (sw, sh)) by (destruct ((fst scan =? 0) || (snd scan =? 0)); exact Hsc).
  rewrite Ed in Er.
  assert (DI : detector_images imgs rest inner outer w h sw sh cx cy) by (split; [exact L|exact V]).
  destruct (histograms_ok sw sh N HN imgs) as (bins & freqs & Eh & L1 & L2 & Vh).
  { intros img Himg. apply In_nth with (d := []) in Himg as (k & Hk & <-).
    apply (detector_u64 imgs rest inner outer scan w h sw sh cx cy k Hin Hs DI). lia. }
  exists imgs, bins, freqs. split; [exact DI|]. rewrite <- Er, Eh, <- L. auto.
Qed.

(** Both always have complete executions, in every state of the reader. *)
Theorem C67_terminates {R} (ops : reader_ops R) fuel r :
  (forall center scan, exists sched res r', py_radial_sum ops fuel center scan sched r = (Some res, r')) /\
  (forall N inner outer scan center, exists sched res r',
     py_create_stem_histogram ops fuel N inner outer scan center sched r = (Some res, r')).
Proof.
  split; intros; unfold py_radial_sum, py_create_stem_histogram; destruct (ro_iterate ops fuel r) as [[blocks|m|m|] r'];
    try (exists []; do 2 eexists; reflexivity).
  - destruct (radial_sum_terminates blocks scan center) as (sched & res & E). exists sched, res, r'. now rewrite E.
  - destruct (stem_images_terminates blocks inner outer scan center) as (sched & res & E). exists sched. rewrite E. do 2 eexists. reflexivity.
Qed.

(** ** Histories *)
(** After a reset each function gives what it gives for a new reader. *)
Theorem C67_reset_is_new {R} (ops : reader_ops R) r bs fuel cs :
  reader_of ops r bs -> (forall b, In b bs -> real_block b) -> (List.length bs < fuel)%nat ->
  let again := ro_reset ops (run_calls ops cs r) in
  fst (py_calculate_average ops fuel again) = fst (py_calculate_average ops fuel r) /\
  (forall kind dark, fst (py_maximum_diffraction_pattern ops kind fuel dark again) =
                     fst (py_maximum_diffraction_pattern ops kind fuel dark r)) /\
  (forall center scan sched, fst (py_radial_sum ops fuel center scan sched again) =
                             fst (py_radial_sum ops fuel center scan sched r)) /\
  (forall N inner outer scan center sched, fst (py_create_stem_histogram ops fuel N inner outer scan center sched again) =
                                           fst (py_create_stem_histogram ops fuel N inner outer scan center sched r)).
Proof.
  intros Hrd Rb Hf again.
  pose proof (iterate_reset ops r bs Hrd Rb fuel cs Hf) as E1. fold again in E1.
  pose proof (iterate_new ops r bs Hrd Rb fuel Hf) as E2.
  destruct (ro_iterate ops fuel again) as [o1 r1] eqn:I1. destruct (ro_iterate ops fuel r) as [o2 r2] eqn:I2.
  cbn [fst] in E1, E2. subst o1 o2.
  assert (D1 : delivers ops again bs) by (apply Hrd). assert (D2 : delivers ops r bs) by (apply Hrd).
  assert (RD : fst (ro_read ops again) = fst (ro_read ops r)).
  { specialize (D1 1%nat). specialize (D2 1%nat). cbn [ro_reads] in D1, D2. congruence. }
  split; [unfold py_calculate_average; now rewrite I1, I2|]. split; [|split].
  - intros kind dark. unfold py_maximum_diffraction_pattern.
    assert (T : forall A (m : string), fst (obind (ro_read ops again) (fun _ r' => (@Throw A m, r'))) =
                         fst (obind (ro_read ops r) (fun _ r' => (@Throw A m, r')))).
    { intros A m. destruct (ro_read ops again) as [[]], (ro_read ops r) as [[]]; cbn in *; congruence. }
    destruct dark as [|p|a]; [|reflexivity|].
    + destruct (accepted _); [rewrite I1, I2; reflexivity|apply T].
    + destruct (ia_image a); [|apply T]. destruct (accepted _); [rewrite I1, I2; reflexivity|apply T].
  - intros. unfold py_radial_sum. now rewrite I1, I2.
  - intros. unfold py_create_stem_histogram. now rewrite I1, I2.
Qed.

(** A second function without a reset in between sees no data: the average and the
    maximum are then silently an image without pixels, the others raise. *)
Theorem C67_second_call_empty {R} (ops : reader_ops R) r bs fuel cs a r' kind :
  reader_of ops r bs -> (forall b, In b bs -> real_block b) -> (List.length bs < fuel)%nat ->
  py_calculate_average ops fuel (run_calls ops cs r) = (Ok a, r') ->
  fst (py_calculate_average ops fuel r') = Ok (mkImage (0, 0) [] (Some []) true) /\
  fst (py_maximum_diffraction_pattern ops kind fuel NoDark r') = Ok (mkImage (0, 0) [] (Some []) true) /\
  (forall center scan sched, fst (py_radial_sum ops fuel center scan sched r') = Some (Throw "No blocks to read!")) /\
  (forall N inner outer scan center sched,
     fst (py_create_stem_histogram ops fuel N inner outer scan center sched r') = Some (Throw "No blocks to read!")).
Proof.
  intros Hrd Rb Hf Ea. destruct (iterate_rest ops r bs Hrd Rb fuel cs Hf) as (r1 & E & D & _).
  unfold py_calculate_average in Ea. rewrite E in Ea. cbn [obind] in Ea. injection Ea as _ <-.
  pose proof (iterate_empty ops fuel r1 ltac:(lia) D) as E2. destruct (ro_iterate ops fuel r1) as [o r2] eqn:I. cbn [fst] in E2. subst o.
  split; [unfold py_calculate_average; now rewrite I|]. split; [|split].
  - unfold py_maximum_diffraction_pattern.
    replace (accepted [CIterator kind; CIterator kind]) with true by now destruct kind. now rewrite I.
  - intros. unfold py_radial_sum. now rewrite I.
  - intros. unfold py_create_stem_histogram. now rewrite I.
Qed.

(** ** The dark reference of maximum_diffraction_pattern *)
(** It should be subtracted (the C++ function does that: C09).  From Python every
    call with one raises, for every reader, data set and dark reference; a block
    is read all the same unless the argument is a plain array. *)
Theorem C67_maximum_dark_refuted {R} (ops : reader_ops R) kind fuel dark r b r1 :
  dark <> NoDark -> ro_read ops r = (Ok b, r1) ->
  py_maximum_diffraction_pattern ops kind fuel dark r = (Throw "TypeError", r1) \/
  py_maximum_diffraction_pattern ops kind fuel dark r = (Throw "AttributeError", r).
Proof.
  intros Hd E. destruct dark as [|p|a]; [congruence|now right|left].
  unfold py_maximum_diffraction_pattern. rewrite E.
  replace (accepted [CIterator kind; CIterator kind; CImageDouble]) with false by now destruct kind.
  now destruct (ia_image a).
Qed.

(** ** A case that meets the hypotheses *)
Lemma ex_good : good_py ex_arr [2; 0; 1] 2 3.
Proof. unfold good_py, contiguous, ex_arr, Zlen; cbn; repeat split; lia. Qed.
Definition ex_bs := py_blocks ex_arr [2; 0; 1] (3, 1) 2 3.

Example ex_average_hypotheses :
  reader_of py_ops ex_reader ex_bs /\ (forall b, In b ex_bs -> real_block b) /\
  frames_input ex_bs 3 3 /\ frame_count ex_bs = 3 /\ frames_input (skipn 1 ex_bs) 3 3 /\
  radial_input ex_bs (0, 0) 3 3 3 1 (-1) (-1) 4 /\
  stem_input ex_bs [0; 1] [1; 4] (0, 0) 3 3 3 1 /\ distinct_positions ex_bs.
Proof.
  assert (Hu : forall n, Forall is_u16 (skipn n (nd_buf ex_arr))).
  { intros n. apply Forall_forall. intros x Hx. apply In_skipn in Hx. revert x Hx. apply Forall_forall.
    cbn. repeat constructor; unfold is_u16; lia. }
  assert (F : Forall (block_of_frames 3 3) ex_bs).
  { repeat constructor; cbn; try lia.
    - exists (skipn 2 (nd_buf ex_arr)). split; [reflexivity|]. split; [vm_compute; discriminate|]. split; [reflexivity|]. apply (Hu 2%nat).
    - exists (skipn 20 (nd_buf ex_arr)). split; [reflexivity|]. split; [vm_compute; discriminate|]. split; [reflexivity|]. apply (Hu 20%nat). }
  assert (Hold : Forall (block_holds 3 3 (3 * 1)) ex_bs).
  { repeat constructor.
    - exists (skipn 2 (nd_buf ex_arr)). split; [reflexivity|]. split; [vm_compute; discriminate|]. split; [reflexivity|]. split; [apply (Hu 2%nat)|].
      apply Forall_forall; intros p Hp; vm_compute in Hp; lia.
    - exists (skipn 20 (nd_buf ex_arr)). split; [reflexivity|]. split; [vm_compute; discriminate|]. split; [reflexivity|]. split; [apply (Hu 20%nat)|].
      apply Forall_forall; intros p Hp; vm_compute in Hp; lia. }
  split; [exact (proj1 (py_reader_of ex_arr [2; 0; 1] (3, 1) 2 3 ex_good))|].
  split; [intros b [<-|[<-|[]]]; split; vm_compute; discriminate|].
  split; [split; [discriminate|exact F|lia]|]. split; [reflexivity|].
  split; [split; [discriminate|now inversion F|lia]|].
  split; [|split].
  - constructor; try lia; try exact Hold; try discriminate.
    + split; [reflexivity|lia].
    + split; [lia|]. split; [vm_compute; discriminate|]. right. reflexivity.
  - constructor; [discriminate|exact Hold|lia|split; [reflexivity|lia]|split; [discriminate|reflexivity]|..]; repeat constructor; unfold radius_ok; lia.
  - unfold distinct_positions. change (NoDup [2; 0; 1]). repeat constructor; cbn; intuition discriminate.
Qed.

(** Sums of the three frames at the centre pixel: 9 + 1 + 5 = 15. *)
Example ex_average_value :
  match fst (py_calculate_average py_ops 10 ex_reader) with
  | Ok a => d_eq (dat (ia_values a) 4) (d_of_Z 5)
  | _ => false
  end = true.
Proof. vm_compute. reflexivity. Qed.

Print Assumptions C67_average.
Print Assumptions C67_maximum.
Print Assumptions C67_radial_sum.
Print Assumptions C67_histogram.
Print Assumptions C67_terminates.
Print Assumptions C67_reset_is_new.
Print Assumptions C67_second_call_empty.
Print Assumptions C67_maximum_dark_refuted.
