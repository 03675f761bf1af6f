(** C82: saving and opening a sparse array in the middle of any work on it.  Vocabulary
    in SessionSpec.v. *)
From Coq Require Import String ZArith List Bool Lia.
From Verif Require Import Base BaseFacts Float32 SparseModel SparseSpec SparseProofs SparseReduce SparseBin SparseSlice SparseProps
  SparseFileModel SparseFileSpec SparseFileProofs SparseFileProps
  AxisModel AxisSpec MeanModel CallsModel CallsSpec CallsProps SessionModel SessionSpec.
Import ListNotations.
Open Scope Z_scope.

Lemma reopen_fields f keep bits slicing full sa' m : from_hdf5 f keep bits slicing full = Ok (sa', m) ->
  sp_bits sa' = bits /\ sp_slicing sa' = slicing /\ sp_full sa' = full.
Proof.
  unfold from_hdf5. intros E.
  match type of E with bind ?o _ = _ => destruct o as [[data [pos nx]]| | |]; cbn [bind] in E; try discriminate end.
  match type of E with bind ?o _ = _ => destruct o as [d| | |]; cbn [bind] in E; try discriminate end.
  match type of E with bind ?o _ = _ => destruct o as [[rows F|]| | |]; cbn [bind] in E; try discriminate end.
  destruct (sparse_init _ _ _ _ _ _ _) eqn:I; cbn [bind] in E; try discriminate.
  apply sparse_init_inv in I. injection E as <- _. subst. auto.
Qed.

Lemma flat_map_flat_map {A B C} (f : A -> list B) (g : B -> list C) l :
  flat_map g (flat_map f l) = flat_map (fun x => flat_map g (f x)) l.
Proof. induction l as [|x t IH]; [reflexivity|]. cbn [flat_map]. now rewrite flat_map_app, IH. Qed.
Lemma flat_map_map {A B C} (f : A -> B) (g : B -> list C) l : flat_map g (map f l) = flat_map (fun x => g (f x)) l.
Proof. induction l as [|x t IH]; [reflexivity|]. cbn [flat_map map]. now rewrite IH. Qed.
Lemma flat_map_ext_zseq {A} (f g : Z -> list A) n : (forall i, 0 <= i < n -> f i = g i) -> flat_map f (zseq n) = flat_map g (zseq n).
Proof. intros H. rewrite !flat_map_concat_map. f_equal. apply map_ext_in. intros i Hi. apply H. now apply in_zseq. Qed.

(** An array with the rows of another one except the last column. *)
Lemma cropped_holds sa sa' h w D : wf sa -> sp_scan sa = [h; w] -> 1 <= h -> 2 <= w ->
  to_dense sa = Ok (Dense (sp_shape sa) D) ->
  sp_scan sa' = [h; w - 1] -> sp_frame sa' = sp_frame sa -> sp_F sa' = sp_F sa -> Zlen (sp_data sa') = h * (w - 1) ->
  (forall r c, 0 <= r < h -> 0 <= c < w - 1 -> row_at sa' (r * (w - 1) + c) = row_at sa (r * w + c)) ->
  0 <= sp_bits sa' -> sp_F sa < 2 ^ sp_bits sa' ->
  wf sa' /\ to_dense sa' = Ok (Dense ([h; w - 1] ++ sp_frame sa) (without_last_column h w (frame_size sa) D)).
Proof.
  intros W S Hh Hw HD S' F' FF L R B0 B1.
  assert (Hl : Zlen (sp_data sa) = h * w) by (rewrite (wf_len sa W), S; cbn; lia).
  assert (Rows : forall row, In row (sp_data sa') -> In row (sp_data sa)).
  { intros row Hr. destruct (In_nth _ _ [] Hr) as (k & Hk & Q). unfold Zlen in L, Hl.
    set (p := Z.of_nat k). assert (Hp : 0 <= p < h * (w - 1)) by lia.
    assert (Hd : 0 <= p / (w - 1) < h) by (split; [apply Z.div_pos; lia|apply Z.div_lt_upper_bound; lia]).
    pose proof (Z.mod_pos_bound p (w - 1) ltac:(lia)) as Hm. pose proof (Z.div_mod p (w - 1) ltac:(lia)) as Dm.
    specialize (R _ _ Hd Hm). unfold row_at in R.
    replace (Z.to_nat (p / (w - 1) * (w - 1) + p mod (w - 1))) with k in R by (rewrite (Z.mul_comm (p / (w - 1))), <- Dm; lia).
    rewrite Q in R. rewrite R. apply nth_In. nia. }
  assert (W' : wf sa').
  { constructor.
    - rewrite S'. right. exists h, (w - 1). repeat split; lia.
    - rewrite F'. apply wf_frame, W.
    - rewrite L, S'. cbn. lia.
    - intros row Hr. rewrite FF. apply (wf_rows _ W). auto.
    - rewrite FF. split; [apply (wf_F _ W)|exact B1].
    - exact B0.
    - intros row fr Hr Hf. rewrite F'. apply (wf_frames _ W row); auto. }
  split; [exact W'|].
  destruct (C36_dense_values sa W) as (D0 & E0 & L0 & V0). rewrite HD in E0. injection E0 as <-.
  rewrite (to_dense_ok sa' W'). unfold sp_shape. rewrite S', F'. do 2 f_equal.
  assert (FS : frame_size sa' = frame_size sa) by (unfold frame_size; now rewrite F').
  assert (NS : num_scans sa = h * w) by (unfold num_scans; rewrite S; cbn; lia).
  assert (NS' : num_scans sa' = h * (w - 1)) by (unfold num_scans; rewrite S'; cbn; lia).
  rewrite FS, NS', <- cross_all by lia. unfold dense_of, cross, without_last_column. rewrite flat_map_flat_map.
  apply flat_map_ext_zseq. intros r Hr. rewrite flat_map_map.
  apply flat_map_ext_zseq. intros c Hc. apply map_ext_in. intros j Hj. apply in_zseq in Hj.
  rewrite R by assumption. symmetry. apply V0; [rewrite NS; nia|exact Hj].
Qed.

Lemma reopen_holds sa d se : savable sa se -> holds sa d ->
  exists sa', reopen sa se = Ok sa' /\ holds sa' (dense_reopen d se).
Proof.
  intros ((h & w & S & Hh & Hw) & (a & b & F) & HN & HM & B0 & B1) (W & S0 & F0 & Sl & Fu & HD).
  destruct d as [ds df dv dsl dfu]; cbn [d_scan d_frame d_vals d_slicing d_full] in *. subst ds df dsl dfu.
  unfold dense_reopen, reopen. cbn [d_scan d_frame d_vals]. rewrite S. destruct se as [meta keep bits slicing full ops]; cbn [se_meta se_keep se_bits se_slicing se_full] in *.
  destruct keep.
  - destruct (C41_round_trip sa h w a b meta bits slicing full W S F ltac:(nia) HN HM) as (f & m & E1 & E2 & _).
    rewrite E1. cbn [bind]. rewrite E2. cbn [bind]. eexists. split; [reflexivity|].
    unfold holds. cbn [sp_scan sp_frame sp_slicing sp_full d_scan d_frame d_vals d_slicing d_full].
    match goal with |- wf ?x /\ _ => assert (W' : wf x) end.
    { destruct W. constructor; cbn [sp_scan sp_frame sp_data sp_F sp_bits]; auto. intuition. }
    split; [exact W'|]. rewrite <- S. do 4 (split; [auto|]).
    rewrite (to_dense_ok _ W'). rewrite (to_dense_ok _ W) in HD. exact HD.
  - destruct (write_to_hdf5 None sa meta) as [f| | |] eqn:E1;
      try (exfalso; destruct (C41_round_trip sa h w a b meta bits slicing full W S F ltac:(nia) HN HM) as (? & ? & Q & _); congruence).
    destruct (C41_flyback sa h w a b meta f bits slicing full W S F Hh Hw HN E1) as (sa' & m & E2 & S' & F' & FF & L & R).
    cbn [bind]. rewrite E2. cbn [bind]. exists sa'. split; [reflexivity|].
    destruct (reopen_fields _ _ _ _ _ _ _ E2) as (Q1 & Q2 & Q3).
    destruct (cropped_holds sa sa' h w dv W S Hh Hw HD S' F' FF L R ltac:(congruence) ltac:(congruence)) as [W' T].
    unfold holds. cbn [d_scan d_frame d_vals d_slicing d_full]. do 5 (split; [assumption|]). exact T.
Qed.

(** C82.  Work in any number of sessions, with any calls in each, leaves in the array
    what it leaves in the dense array; the files between the sessions lose nothing but
    the column that is asked to be left out. *)
Theorem C82_sessions order l : forall sa d, holds sa d -> sound_sessions order sa l ->
  exists sa', run_sessions order sa l = Ok sa' /\ holds sa' (dense_sessions d l).
Proof.
  induction l as [|se t IH]; intros sa d H C; [exists sa; auto|]. destruct C as [C1 C2].
  destruct (reopen_holds sa d se C1 H) as (sa1 & E1 & H1). destruct (C2 sa1 E1) as [C3 C4].
  cbn [run_sessions dense_sessions]. rewrite E1. cbn [bind].
  apply IH; [|exact C4]. now apply C81_history.
Qed.

(** C82.  Keeping the last column, the files make no difference: the work in sessions is
    the same calls on one array, with the settings changed where a file was opened. *)
Definition joined (l : list session) : list op :=
  flat_map (fun se => OSlicing (se_slicing se) :: OFull (se_full se) :: se_ops se) l.
Lemma joined_dense l : forall d, (forall se, In se l -> se_keep se = true) ->
  (forall n d', (n < length l)%nat -> d' = dense_sessions d (firstn n l) -> Zlen (d_scan d') = 2) -> dense_sessions d l = run_dense d (joined l).
Proof.
  induction l as [|se t IH]; intros d K Z; [reflexivity|]. cbn [dense_sessions joined flat_map].
  unfold run_dense. rewrite fold_left_app. cbn [fold_left]. fold (joined t).
  assert (E : dense_reopen d se = dense_op (dense_op d (OSlicing (se_slicing se))) (OFull (se_full se))).
  { pose proof (Z O _ ltac:(cbn; lia) eq_refl) as Q. cbn [firstn dense_sessions] in Q. unfold dense_reopen. rewrite (K se) by now left.
    destruct d as [s f v a b]; cbn [d_scan d_frame d_vals d_slicing d_full dense_op] in *. destruct s as [|x [|y [|z s]]]; try reflexivity; try discriminate.
    unfold Zlen in Q; cbn [length] in Q; lia. }
  rewrite <- E. apply (IH (run_dense (dense_reopen d se) (se_ops se))).
  - intros; apply K; now right.
  - intros n d' Hn ->. exact (Z (S n) _ ltac:(cbn; lia) eq_refl).
Qed.
Lemma sessions_flat order l : forall sa d, holds sa d -> sound_sessions order sa l ->
  forall n d', (n < length l)%nat -> d' = dense_sessions d (firstn n l) -> Zlen (d_scan d') = 2.
Proof.
  induction l as [|se t IH]; intros sa d H C n d' Hn ->; [cbn in Hn; lia|].
  destruct C as [C1 C2]. destruct n as [|n].
  - cbn [firstn dense_sessions]. destruct C1 as ((h & w & S & _) & _). destruct H as (_ & S0 & _). rewrite <- S0, S. reflexivity.
  - destruct (reopen_holds sa d se C1 H) as (sa1 & E1 & H1). destruct (C2 sa1 E1) as [C3 C4].
    cbn [firstn dense_sessions]. apply (IH _ _ (C81_history order _ _ _ H1 C3) C4 n); [cbn in Hn; lia|reflexivity].
Qed.

Theorem C82_files_make_no_difference order l sa d : holds sa d -> sound_sessions order sa l ->
  (forall se, In se l -> se_keep se = true) -> sound_history order sa (joined l) ->
  exists sa', run_sessions order sa l = Ok sa' /\
    sp_shape sa' = sp_shape (run_ops order sa (joined l)) /\ to_dense sa' = to_dense (run_ops order sa (joined l)) /\
    sp_slicing sa' = sp_slicing (run_ops order sa (joined l)) /\ sp_full sa' = sp_full (run_ops order sa (joined l)).
Proof.
  intros H C K Hs. destruct (C82_sessions order l sa d H C) as (sa' & E & (_ & S & F & Sl & Fu & HD)).
  exists sa'. split; [exact E|]. rewrite (joined_dense l d K (sessions_flat order l sa d H C)) in *.
  destruct (C81_history order _ sa d H Hs) as (_ & S' & F' & Sl' & Fu' & HD'). unfold sp_shape.
  repeat split; congruence.
Qed.

(** ** Findings *)

(** C82.  After ravel_scans an array cannot be saved: whatever was done before, and
    whatever it holds, write_to_hdf5 raises IndexError. *)
Theorem C82_raveled_refuted order ops sa d se t : holds sa d -> sound_history order sa ops ->
  Zlen (sp_frame (run_ops order sa ops)) = 2 ->
  run_sessions order (run_ops order sa (ops ++ [ORavel])) (se :: t) = index_error.
Proof.
  intros H C F. unfold run_ops. rewrite fold_left_app. fold (run_ops order sa ops). cbn [fold_left].
  destruct (C81_history order ops sa d H C) as (W & _). set (a := run_ops order sa ops) in *.
  destruct (C39_ravel_scans a W F) as (a' & D & E & _). cbn [do_op]. rewrite E. cbn [or_same].
  cbn [run_sessions]. unfold reopen, write_to_hdf5.
  assert (S : sp_scan a' = [np_prod (sp_scan a)]); [|rewrite S; reflexivity].
  unfold ravel_scans, reshape in E. rewrite Zlen_cons, F in E. cbn [Z.add Z.eqb Pos.add Pos.eqb orb negb] in E.
  destruct (negb _); [discriminate|]. destruct (negb _); [discriminate|]. injection E as <-. reflexivity.
Qed.

(** ** Concrete cases *)

Definition ex_sessions : list session :=
  [mkSession ex_meta true 32 true false [OSelect [KSlice (Some 1) None None]; OReshape [1; 2; 1; 4]; ORead RdDense];
   mkSession [] false 16 false true [OBinScans 3; OReshape [1; 1; 2; 2]; OBinFrames 2]].
Example ex_sessions_sound : sound_sessions ex_order ex_sparse ex_sessions.
Proof.
  cbn [sound_sessions ex_sessions se_ops]. split.
  { split; [exists 2, 2; cbn; repeat split; lia|]. split; [exists 2, 2; reflexivity|]. split; [vm_compute; discriminate|].
    split; [destruct C41_nonvacuous as (f & _ & _ & _ & M); exact M|]. split; [vm_compute; discriminate|vm_compute; reflexivity]. }
  intros sa' E. vm_compute in E. injection E as <-. split.
  { cbn [sound_history]. split.
    { intros sk fk E. vm_compute in E. injection E as <- <-. split; [vm_compute; discriminate|].
      intros fs fl E. vm_compute in E. injection E as <- <-. repeat constructor; cbn; intuition lia. }
    split; [intros x Hx; cbn in Hx; intuition lia|]. split; exact I. }
  split.
  { split; [exists 1, 2; vm_compute; repeat split; discriminate|]. split; [exists 1, 4; reflexivity|]. split; [vm_compute; discriminate|].
    split; [constructor; [constructor|intros k m []]|]. split; [vm_compute; discriminate|vm_compute; reflexivity]. }
  intros sa' E. vm_compute in E. injection E as <-. split; [|exact I].
  cbn [sound_history]. split; [vm_compute; reflexivity|]. split; [intros x Hx; cbn in Hx; intuition lia|].
  split; [|exact I]. split; [exists 2; split; [lia|reflexivity]|intros sa' E; vm_compute in E; injection E as <-; reflexivity].
Qed.
Example ex_sessions_dense : dense_sessions ex_dense ex_sessions = mkDense [1; 1] [1; 1] [8] false true.
Proof. vm_compute. reflexivity. Qed.
Example ex_crop : dense_reopen ex_dense (mkSession [] false 32 true true []) = mkDense [2; 1] [2; 2] [1; 0; 0; 2; 2; 2; 2; 2] true true.
Proof. vm_compute. reflexivity. Qed.

Print Assumptions C82_sessions.
Print Assumptions C82_files_make_no_difference.
Print Assumptions C82_raveled_refuted.
