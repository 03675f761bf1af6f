(** Properties C40 and C41: conversion of old electron count formats, and the
    HDF5 round trip of sparse arrays. *)
From Coq Require Import String ZArith List Bool Lia.
From Verif Require Import Base BaseFacts SparseModel SparseSpec SparseProofs SparseSlice
  SparseReduce SparseBin SparseProps SparseFileModel SparseFileSpec SparseFileProofs.
Import ListNotations.
Open Scope Z_scope.

Local Arguments Z.mul : simpl never.
Local Arguments Z.add : simpl never.
Local Arguments Z.pow : simpl never.

(** * C40 *)

(** Version 2 to 3: every position keeps its frames, in order, and every row
    is filled up with empty frames. *)
Theorem C40_v2_to_v3 data positions shape :
  shape_ok shape -> List.length data = List.length positions -> positions <> [] ->
  (forall q, In q positions -> 0 <= q < np_prod shape) ->
  exists rows F, convert_data_format (Flat data positions) shape 2 3 = Ok (Rows rows F) /\
    Zlen rows = np_prod shape /\ (forall row, In row rows -> Zlen row = F) /\
    (forall p, 0 <= p < np_prod shape -> exists n,
       nth (Z.to_nat p) rows [] =
       map fst (filter (fun x => snd x =? p) (combine data positions)) ++ repeat [] n) /\
    forall p k, 0 <= p < np_prod shape ->
      events (nth (Z.to_nat p) rows []) k = recorded data positions p k.
Proof.
  intros Hs L Hne HR.
  destruct (v2_to_v3_ok data positions shape Hs L Hne HR) as [rows [F [E [Lr [_ [_ [V Hrow]]]]]]].
  exists rows, F. unfold convert_data_format. cbn [Z.eqb Pos.eqb andb]. rewrite E. cbn [bind].
  split; [reflexivity|]. split; [exact Lr|]. split; [exact Hrow|]. split.
  - intros p Hp. eexists. now apply V.
  - intros p k Hp. rewrite (V p Hp), events_app, events_nils, Z.add_0_r.
    change (map fst (filter (fun x => snd x =? p) (combine data positions))) with (at_pos (combine data positions) p).
    rewrite events_at_pos. symmetry. now apply recorded_eq.
Qed.

(** Version 1 (at most one row per position) to 2: the rows of the result have
    no repeated events, and nothing is lost if the rows are in the order of the
    scan positions or if there was nothing to separate. *)
Theorem C40_v1_to_v2 data positions shape :
  List.length data = List.length positions -> Zlen data <= np_prod shape ->
  positions = zseq (Zlen data) \/ duplicate_free data ->
  exists data' positions',
    convert_data_format (Flat data positions) shape 1 2 = Ok (Flat data' positions') /\
    List.length data' = List.length positions' /\ duplicate_free data' /\
    (forall q, In q positions' -> In q positions) /\
    forall p k, recorded data' positions' p k = recorded data positions p k.
Proof.
  intros L HL H. unfold convert_data_format. cbn [Z.eqb Pos.eqb andb].
  destruct (is_data_v1_format data shape) eqn:Hv.
  - destruct (v1_to_v2_arange data positions shape Hv) as [d' [p' [E [L' [R [_ [N [_ V]]]]]]]].
    rewrite E. cbn [bind]. exists d', p'. split; [reflexivity|].
    destruct H as [->|H].
    + split; [exact L'|]. split; [exact N|]. split; [|exact V]. intros q Hq. apply in_zseq. auto.
    + assert (X : is_data_v1_format data shape = false) by (apply v1_test; now right). congruence.
  - unfold convert_data_v1_to_v2. rewrite Hv. cbn [negb bind].
    exists data, positions. split; [reflexivity|]. split; [exact L|]. split; [|auto].
    apply v1_test in Hv as [X|X]; [lia|exact X].
Qed.

Theorem C40_v1_to_v3 data positions shape :
  shape_ok shape -> data <> [] ->
  List.length data = List.length positions -> Zlen data <= np_prod shape ->
  (forall q, In q positions -> 0 <= q < np_prod shape) ->
  positions = zseq (Zlen data) \/ duplicate_free data ->
  exists rows F, convert_data_format (Flat data positions) shape 1 3 = Ok (Rows rows F) /\
    Zlen rows = np_prod shape /\ (forall row, In row rows -> Zlen row = F) /\
    (forall row fr, In row rows -> In fr row -> NoDup fr) /\
    forall p k, 0 <= p < np_prod shape ->
      events (nth (Z.to_nat p) rows []) k = recorded data positions p k.
Proof.
  intros Hs Hne L HL HR H.
  destruct (C40_v1_to_v2 data positions shape L HL H) as [d' [p' [E [L' [N [Hsub V]]]]]].
  unfold convert_data_format in E. cbn [Z.eqb Pos.eqb andb] in E.
  apply bind_ok in E as [[d2 p2] [E E2]]. injection E2 as -> ->.
  assert (Hp' : p' <> []).
  { destruct (is_data_v1_format data shape) eqn:Hv.
    - destruct (v1_to_v2_arange data positions shape Hv) as [d3 [p3 [E3 [_ [_ [N3 _]]]]]].
      rewrite E3 in E. injection E as <- <-. exact N3.
    - unfold convert_data_v1_to_v2 in E. rewrite Hv in E. cbn [negb] in E. injection E as <- <-.
      intros X. apply Hne. rewrite X in L. destruct data; [reflexivity|discriminate]. }
  destruct (C40_v2_to_v3 d' p' shape Hs L' Hp') as [rows [F [E3 [Lr [Hrow [Hfr He]]]]]].
  { intros q Hq. apply HR, Hsub, Hq. }
  unfold convert_data_format in E3. cbn [Z.eqb Pos.eqb andb] in E3.
  apply bind_ok in E3 as [[r2 F2] [E3 X]]. injection X as -> ->.
  exists rows, F. unfold convert_data_format. cbn [Z.eqb Pos.eqb andb].
  unfold convert_data_v1_to_v3. rewrite E. cbn [bind]. rewrite E3. cbn [bind].
  split; [reflexivity|]. split; [exact Lr|]. split; [exact Hrow|]. split.
  - intros row fr Hr Hf. apply In_nth with (d := []) in Hr as [n [Hn <-]].
    destruct (Hfr (Z.of_nat n)) as [m Em].
    { rewrite <- Lr. unfold Zlen. lia. }
    rewrite Nat2Z.id in Em. rewrite Em in Hf. apply in_app_or in Hf as [Hf|Hf].
    + apply in_map_iff in Hf as [[d q] [<- Hd]]. cbn [fst]. apply filter_In in Hd as [Hd _].
      apply N. now apply in_combine_l in Hd.
    + apply repeat_spec in Hf. subst fr. constructor.
  - intros p k Hp. rewrite He by exact Hp. apply V.
Qed.

(** Other versions are refused, the same version is left alone. *)
Theorem C40_dispatch d shape v w :
  (v = w -> convert_data_format d shape v w = Ok d) /\
  (v <> w -> ~ (v = 1 /\ w = 2) -> ~ (v = 1 /\ w = 3) -> ~ (v = 2 /\ w = 3) ->
   convert_data_format d shape v w = not_implemented).
Proof.
  unfold convert_data_format. split.
  - intros ->. now rewrite Z.eqb_refl.
  - intros H0 H1 H2 H3. destruct (Z.eqb_spec v w); [contradiction|].
    destruct d; [|reflexivity].
    destruct (Z.eqb_spec v 1), (Z.eqb_spec w 2), (Z.eqb_spec v 2), (Z.eqb_spec w 3); cbn [andb]; try reflexivity;
      try (exfalso; tauto); lia.
Qed.

Example C40_nonvacuous :
  convert_data_format (Flat [[5]; [1; 2]; [7]] [2; 0; 2]) [2; 2] 2 3 =
    Ok (Rows [[[1; 2]; []]; [[]; []]; [[5]; [7]]; [[]; []]] 2) /\
  convert_data_format (Flat [[1; 1; 1; 2; 2]; [4]] [0; 1]) [2; 1] 1 3 =
    Ok (Rows [[[1; 2]; [1; 2]; [1]]; [[4]; []; []]] 3).
Proof. split; reflexivity. Qed.

(** Finding: with a repeated event anywhere, the scan positions of a version-1
    data set are replaced by 0, 1, 2, ...: data recorded in another order end
    up at the wrong positions. *)
Theorem C40_v1_permuted_refuted :
  exists data positions shape rows F,
    shape_ok shape /\ List.length data = List.length positions /\ Zlen data <= np_prod shape /\
    (forall q, In q positions -> 0 <= q < np_prod shape) /\ NoDup positions /\
    convert_data_format (Flat data positions) shape 1 3 = Ok (Rows rows F) /\
    recorded data positions 1 5 = 2 /\ events (nth 1 rows []) 5 = 0 /\
    events (nth 0 rows []) 5 = 2.
Proof.
  exists [[5; 5]; [6]], [1; 0], [2; 1]. do 2 eexists.
  split; [right; exists 2, 1; repeat split; lia|]. split; [reflexivity|]. split; [cbn; lia|].
  split; [intros q [<-|[<-|[]]]; cbn; lia|].
  split; [repeat (constructor; [cbn; intuition congruence|]); constructor|].
  repeat split.
Qed.

(** Finding: data without any row cannot be converted to version 3. *)
Theorem C40_empty_raises shape : convert_data_format (Flat [] []) shape 2 3 = value_error.
Proof. reflexivity. Qed.

(** Finding: more rows than scan positions are taken for version 2 even if they
    are not; repeated events then stay in one frame, where the expansion counts
    them once. *)
Theorem C40_long_v1_refuted :
  exists rows F sa,
    convert_data_format (Flat [[0; 0]; [1]] [0; 0]) [1] 1 3 = Ok (Rows rows F) /\
    recorded [[0; 0]; [1]] [0; 0] 0 0 = 2 /\
    sparse_init rows F [1] [1; 2] 32 false true = Ok sa /\
    to_dense sa = Ok (Dense [1; 1; 2] [1; 1]).
Proof. do 3 eexists. repeat split. Qed.

(** * C41 *)

(** Writing and reading back gives the same frames in the same slots, the
    shapes and the metadata. *)
Theorem C41_round_trip sa h w fh fw metadata bits slicing full :
  wf sa -> sp_scan sa = [h; w] -> sp_frame sa = [fh; fw] -> 0 < h * w ->
  frame_size sa <= 2 ^ 32 -> meta_ok (MDict metadata) ->
  exists f metadata',
    write_to_hdf5 None sa metadata = Ok f /\
    from_hdf5 f true bits slicing full =
      Ok (mkSparse (sp_data sa) (sp_F sa) (sp_scan sa) (sp_frame sa) bits slicing full, metadata') /\
    forall path, look path (MDict metadata') = look path (MDict metadata).
Proof.
  intros W Hs Hf HP HN Hm. unfold write_to_hdf5. rewrite Hs, Hf.
  do 2 eexists. split; [reflexivity|].
  assert (E32 : map (map u32) (concat (sp_data sa)) = concat (sp_data sa)).
  { rewrite <- (map_id (concat (sp_data sa))) at 2. apply map_ext_in. intros fr Hfr.
    apply in_concat in Hfr as [row [Hr Hfr]]. apply map_u32_id. intros x Hx.
    destruct (wf_frames sa W row fr Hr Hfr) as [_ R]. specialize (R x Hx). unfold frame_size in HN. lia. }
  assert (Hlen : Zlen (sp_data sa) = h * w) by (rewrite (wf_len sa W), Hs; cbn; lia).
  assert (HF := wf_F sa W).
  unfold from_hdf5. cbn [h_version h_frames h_positions h_scan_Nx h_scan_Ny h_frame_Nx h_frame_Ny h_meta bind].
  rewrite E32. change (3 <=? 3) with true. change (3 =? 3) with true. cbv iota.
  replace (np_prod [h; w]) with (h * w) by (cbn; lia).
  rewrite (total_len (sp_F sa) (sp_data sa) (wf_rows sa W)), Hlen.
  replace (h * w * sp_F sa / (h * w)) with (sp_F sa) by (symmetry; rewrite Z.mul_comm; apply Z.div_mul; lia).
  rewrite <- Hlen at 1. rewrite reshape_concat by (try apply (wf_rows sa W); lia). cbn [bind].
  unfold sparse_init. replace (np_prod [h; w]) with (h * w) by (cbn; lia). rewrite Hlen, Z.eqb_refl. cbn [bind].
  split; [reflexivity|]. intros path.
  apply (meta_round_trip (S (msize (MDict metadata))) (MDict metadata)) with (l := metadata); auto.
Qed.

(** Removing the flyback column: position (r, c) of the result is position
    (r, c) of the array, for all columns but the last. *)
Theorem C41_flyback sa h w fh fw metadata f bits slicing full :
  wf sa -> sp_scan sa = [h; w] -> sp_frame sa = [fh; fw] -> 1 <= h -> 2 <= w ->
  frame_size sa <= 2 ^ 32 -> write_to_hdf5 None sa metadata = Ok f ->
  exists sa' metadata', from_hdf5 f false bits slicing full = Ok (sa', metadata') /\
    sp_scan sa' = [h; w - 1] /\ sp_frame sa' = sp_frame sa /\ sp_F sa' = sp_F sa /\
    Zlen (sp_data sa') = h * (w - 1) /\
    forall r c, 0 <= r < h -> 0 <= c < w - 1 ->
      row_at sa' (r * (w - 1) + c) = row_at sa (r * w + c).
Proof.
  intros W Hs Hf Hh Hw HN E. unfold write_to_hdf5 in E. rewrite Hs, Hf in E. injection E as <-.
  assert (E32 : map (map u32) (concat (sp_data sa)) = concat (sp_data sa)).
  { rewrite <- (map_id (concat (sp_data sa))) at 2. apply map_ext_in. intros fr Hfr.
    apply in_concat in Hfr as [row [Hr Hfr]]. apply map_u32_id. intros x Hx.
    destruct (wf_frames sa W row fr Hr Hfr) as [_ R]. specialize (R x Hx). unfold frame_size in HN. lia. }
  assert (Hlen : Zlen (sp_data sa) = h * w) by (rewrite (wf_len sa W), Hs; cbn; lia).
  assert (HF := wf_F sa W).
  unfold from_hdf5. cbn [h_version h_frames h_positions h_scan_Nx h_scan_Ny h_frame_Nx h_frame_Ny h_meta].
  rewrite E32. rewrite crop_ok by lia. cbn [bind].
  assert (Hnum : Zlen (concat (sp_data sa)) / (w * h) = sp_F sa).
  { rewrite (total_len (sp_F sa) (sp_data sa) (wf_rows sa W)), Hlen.
    replace (h * w * sp_F sa) with (sp_F sa * (w * h)) by lia. apply Z.div_mul. nia. }
  rewrite Hnum. change (3 <=? 3) with true. change (3 =? 3) with true. cbv iota.
  replace (np_prod [h; w - 1]) with (h * (w - 1)) by (cbn; lia).
  assert (HL : w * h * sp_F sa <= Zlen (concat (sp_data sa))).
  { rewrite (total_len (sp_F sa) (sp_data sa) (wf_rows sa W)), Hlen. nia. }
  set (K := kept (concat (sp_data sa)) w (sp_F sa) h).
  assert (LK : Zlen K = h * (w - 1) * sp_F sa).
  { unfold K. rewrite (kept_len _ w h) by (assumption || lia). lia. }
  rewrite LK. replace (h * (w - 1) * sp_F sa / (h * (w - 1))) with (sp_F sa)
    by (symmetry; rewrite Z.mul_comm; apply Z.div_mul; nia).
  unfold reshape_rows. rewrite LK, Z.eqb_refl. cbn [bind].
  unfold sparse_init. replace (np_prod [h; w - 1]) with (h * (w - 1)) by (cbn; lia).
  rewrite Zlen_map, Zlen_zseq by nia. rewrite Z.eqb_refl. cbn [bind].
  do 2 eexists. split; [reflexivity|]. cbn [sp_scan sp_frame sp_F sp_data].
  split; [reflexivity|]. split; [now rewrite Hf|]. split; [reflexivity|].
  split; [rewrite Zlen_map, Zlen_zseq by nia; reflexivity|].
  intros r c Hr Hc. unfold row_at. cbn [sp_data].
  assert (Hp : 0 <= r * (w - 1) + c < h * (w - 1)) by nia.
  set (g := fun p => np_slice K (p * sp_F sa) ((p + 1) * sp_F sa)).
  rewrite (nth_indep _ [] (g 0)) by (rewrite map_length, zseq_length; lia). rewrite map_nth.
  assert (Enth : nth (Z.to_nat (r * (w - 1) + c)) (zseq (h * (w - 1))) 0 = r * (w - 1) + c).
  { pose proof (zat_zseq _ _ Hp) as Z0. unfold zat in Z0. destruct (Z.ltb_spec (r * (w - 1) + c) 0); [lia|exact Z0]. }
  rewrite Enth. unfold g, K. rewrite (kept_slot _ w h (sp_F sa) r c) by (assumption || lia).
  apply slice_concat; [lia|apply (wf_rows sa W)|]. rewrite Hlen. nia.
Qed.

(** Reading an old file with the flyback column kept is the conversion of C40. *)
Theorem C41_old_versions f v rows F bits slicing full :
  h_version f = v -> v = Some 2 \/ v = Some 1 \/ v = None ->
  convert_data_format (Flat (h_frames f) (h_positions f)) [h_scan_Ny f; h_scan_Nx f]
    (match v with Some v => v | None => 1 end) 3 = Ok (Rows rows F) ->
  Zlen rows = h_scan_Ny f * h_scan_Nx f ->
  exists metadata,
    from_hdf5 f true bits slicing full =
    Ok (mkSparse rows F [h_scan_Ny f; h_scan_Nx f] [h_frame_Nx f; h_frame_Ny f] bits slicing full, metadata).
Proof.
  intros Hv Hc E L. unfold from_hdf5. rewrite Hv. cbn [bind].
  eexists.
  assert (X : (match v with Some v => v | None => 1 end) = 1 \/ (match v with Some v => v | None => 1 end) = 2).
  { destruct Hc as [->|[->| ->]]; auto. }
  set (ver := match v with Some v => v | None => 1 end) in *.
  replace (3 <=? ver) with false by (symmetry; apply Z.leb_gt; lia). cbn [bind].
  replace (ver =? 3) with false by (symmetry; apply Z.eqb_neq; lia).
  rewrite E. cbn [bind]. unfold sparse_init.
  replace (np_prod [h_scan_Ny f; h_scan_Nx f]) with (h_scan_Ny f * h_scan_Nx f) by (cbn; lia).
  rewrite L, Z.eqb_refl. reflexivity.
Qed.

(** A version the reader does not know is refused. *)
Theorem C41_newer_version f v keep bits slicing full :
  h_version f = Some v -> 3 < v -> 1 <= h_scan_Nx f -> 1 <= h_scan_Ny f ->
  from_hdf5 f keep bits slicing full = not_implemented \/
  from_hdf5 f keep bits slicing full = value_error.
Proof.
  intros Hv H3 Hx Hy. unfold from_hdf5. rewrite Hv.
  assert (T : 3 <=? v = true /\ (v =? 3) = false) by (split; [apply Z.leb_le|apply Z.eqb_neq]; lia).
  destruct T as [T1 T2]. rewrite T1, T2.
  destruct keep; [|rewrite crop_ok by assumption]; cbn [bind]; unfold reshape_rows;
    match goal with |- context [if ?a =? ?b then _ else _] => destruct (a =? b) end;
    try (right; reflexivity); left; cbn [bind];
    rewrite (proj2 (C40_dispatch _ _ v 3)) by lia; reflexivity.
Qed.

Definition ex_meta : list (Z * meta) := [(7, MLeaf 70); (3, MDict [(1, MLeaf 5); (2, MDict [])])].

Example C41_nonvacuous :
  exists f, write_to_hdf5 None ex_sparse ex_meta = Ok f /\
    from_hdf5 f true 32 true true = Ok (ex_sparse, ex_meta) /\
    (exists sa', from_hdf5 f false 32 true true = Ok (sa', ex_meta) /\
       sp_scan sa' = [2; 1] /\ sp_data sa' = [[[0; 3]; [3]]; [[0; 1; 2; 3]; [0; 1; 2; 3]]]) /\
    meta_ok (MDict ex_meta).
Proof.
  eexists. split; [reflexivity|]. split; [reflexivity|]. split; [eexists; repeat split|].
  repeat constructor; cbn; try intuition congruence.
  intros k m [E|[E|[]]]; injection E as <- <-; [constructor|].
  constructor; [repeat (constructor; [cbn; intuition congruence|]); constructor|].
  intros k m [E|[E|[]]]; injection E as <- <-; constructor; [constructor|intros ? ? []].
Qed.

(** Finding: an array with a one-dimensional scan cannot be written. *)
Theorem C41_flat_scan_refuted sa n metadata :
  sp_scan sa = [n] -> write_to_hdf5 None sa metadata = index_error.
Proof. intros H. unfold write_to_hdf5. now rewrite H. Qed.

(** Finding: reading a version-2 file without the flyback column ignores the
    recorded scan positions and drops the rows beyond the number of positions. *)
Theorem C41_flyback_v2_refuted :
  exists f sa sa' m m',
    h_version f = Some 2 /\ h_scan_Nx f = 2 /\ h_scan_Ny f = 1 /\
    from_hdf5 f true 32 true true = Ok (sa, m) /\
    from_hdf5 f false 32 true true = Ok (sa', m') /\
    events (row_at sa 0) 3 = 2 /\ events (row_at sa' 0) 3 = 1.
Proof.
  exists (mkH5 (Some 2) [[3]; [1]; [3]] 2 2 [0; 1; 0] 2 1 None). do 4 eexists. repeat split.
Qed.

(** Writing to a file that already holds electron events raises (by definition
    here; C77 derives it from the steps of the function). *)
Lemma rewrite_raises f sa metadata : write_to_hdf5 (Some f) sa metadata = value_error.
Proof. reflexivity. Qed.

Print Assumptions C40_v2_to_v3.
Print Assumptions C40_v1_to_v2.
Print Assumptions C40_v1_to_v3.
Print Assumptions C40_dispatch.
Print Assumptions C40_v1_permuted_refuted.
Print Assumptions C40_empty_raises.
Print Assumptions C40_long_v1_refuted.
Print Assumptions C41_round_trip.
Print Assumptions C41_flyback.
Print Assumptions C41_old_versions.
Print Assumptions C41_newer_version.
Print Assumptions C41_flat_scan_refuted.
Print Assumptions C41_flyback_v2_refuted.
