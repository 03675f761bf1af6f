(** Property C42: the centre of mass of electron events. *)
From Coq Require Import Lra String ZArith List Bool Lia Reals.
From Verif Require Import Base BaseFacts Double Float32 FloatConv SparseModel SparseSpec SparseProofs
  SparseSlice SparseReduce SparseProps ComModel ComSpec ComProofs.
Import ListNotations.
Open Scope Z_scope.

Local Arguments Z.mul : simpl never.
Local Arguments Z.add : simpl never.
Local Arguments Z.pow : simpl never.

(** Both versions return the same numbers, bit for bit, with and without
    cropping around a given centre and with and without replacement of NaNs
    (whatever mean replaces them). *)
Theorem C42_versions_agree sa fx fy crop_to init nanmean :
  shaped sa -> 0 < sp_F sa ->
  crop_to = None \/ init <> None ->
  com_limits sa fx fy (crop_args crop_to init) ->
  nanmean = None \/ (exists p e, 0 <= p < num_scans sa /\ In e (events_at sa p)) ->
  exists r, com_sparse sa crop_to init nanmean 0 = Ok r /\
            com_sparse sa crop_to init nanmean 1 = Ok r.
Proof.
  intros W HF Ha Lim Hn. unfold com_sparse. cbn [Z.eqb].
  eexists. split; [exact (v0_ok sa fx fy crop_to init W Ha _ eq_refl Lim nanmean HF)|].
  etransitivity; [exact (v1_ok sa fx fy crop_to init W Ha _ eq_refl Lim nanmean)|].
  f_equal. destruct Hn as [->|(p & e & Hp & He)].
  - destruct (tagged _ _); reflexivity.
  - assert (I : In (p, e) (tagged (num_scans sa) (events_at sa))) by (apply in_tagged; auto).
    destruct (tagged _ _); [inversion I|reflexivity].
Qed.

(** What the numbers are: at every position the mean column and the mean row
    (event / fx, see [C42_not_square_refuted]) of the events kept. *)
Theorem C42_values sa fx fy crop_to init version :
  shaped sa -> 0 < sp_F sa -> version = 0 \/ version = 1 ->
  crop_to = None \/ init <> None ->
  com_limits sa fx fy (crop_args crop_to init) ->
  exists c0 c1, com_sparse sa crop_to init None version = Ok (c0, c1) /\
    Zlen c0 = num_scans sa /\ Zlen c1 = num_scans sa /\
    forall p, 0 <= p < num_scans sa ->
      let l := kept (fun e => e / fx) (fun e => e mod fy) (crop_args crop_to init) (events_at sa p) in
      exists v0 v1, entry c0 p = Some v0 /\ entry c1 p = Some v1 /\
        is_mean (fun e => e mod fy) l v0 /\ is_mean (fun e => e / fx) l v1.
Proof.
  intros W HF Hv Ha Lim.
  assert (E : com_sparse sa crop_to init None version =
    Ok (com_row (num_scans sa) (fun e => e mod fy)
          (fun p => kept (fun e => e / fx) (fun e => e mod fy) (crop_args crop_to init) (events_at sa p)),
        com_row (num_scans sa) (fun e => e / fx)
          (fun p => kept (fun e => e / fx) (fun e => e mod fy) (crop_args crop_to init) (events_at sa p)))).
  { unfold com_sparse. destruct Hv as [->| ->]; cbn [Z.eqb].
    - exact (v0_ok sa fx fy crop_to init W Ha _ eq_refl Lim None HF).
    - etransitivity; [exact (v1_ok sa fx fy crop_to init W Ha _ eq_refl Lim None)|].
      destruct (tagged _ _); reflexivity. }
  do 2 eexists. split; [exact E|].
  pose proof (np_prod_nonneg _ (sh_scan _ W) : 0 <= num_scans sa) as HP.
  split; [unfold com_row; rewrite Zlen_map; now apply Zlen_zseq|].
  split; [unfold com_row; rewrite Zlen_map; now apply Zlen_zseq|].
  intros p Hp l. do 2 eexists.
  split; [exact (entry_com_row sa fx fy (crop_args crop_to init) _ p Hp)|].
  split; [exact (entry_com_row sa fx fy (crop_args crop_to init) _ p Hp)|].
  split; apply (entry_mean sa fx fy crop_to init _ eq_refl Lim _ p Hp); intros e He;
    now destruct (KE_range sa fx fy crop_to init W _ eq_refl Lim p e Hp He).
Qed.

Lemma is_mean_number g l v : l <> [] -> is_mean g l v -> f_nan v = false.
Proof.
  intros Hl M. destruct l as [|x t]; [congruence|]. destruct M as [M _].
  destruct v; try discriminate; reflexivity.
Qed.

(** Replacing NaNs leaves the positions with events alone and gives all other
    positions one value per component. *)
Theorem C42_replace_nans sa fx fy crop_to init nanmean version :
  shaped sa -> 0 < sp_F sa -> version = 0 \/ version = 1 ->
  crop_to = None \/ init <> None ->
  com_limits sa fx fy (crop_args crop_to init) ->
  (exists p e, 0 <= p < num_scans sa /\ In e (events_at sa p)) ->
  exists a b a' b' u v,
    com_sparse sa crop_to init None version = Ok (a, b) /\
    com_sparse sa crop_to init (Some nanmean) version = Ok (a', b') /\
    forall p, 0 <= p < num_scans sa ->
      let l := kept (fun e => e / fx) (fun e => e mod fy) (crop_args crop_to init) (events_at sa p) in
      (l <> [] -> entry a' p = entry a p /\ entry b' p = entry b p) /\
      (l = [] -> entry a' p = Some u /\ entry b' p = Some v).
Proof.
  intros W HF Hv Ha Lim Hex.
  set (KE := fun p => kept (fun e => e / fx) (fun e => e mod fy) (crop_args crop_to init) (events_at sa p)).
  set (A := com_row (num_scans sa) (fun e => e mod fy) KE).
  set (B := com_row (num_scans sa) (fun e => e / fx) KE).
  assert (E : forall nm, com_sparse sa crop_to init nm version = Ok (replace_nans_if nm (A, B))).
  { intros nm. unfold com_sparse. destruct Hv as [->| ->]; cbn [Z.eqb].
    - exact (v0_ok sa fx fy crop_to init W Ha _ eq_refl Lim nm HF).
    - etransitivity; [exact (v1_ok sa fx fy crop_to init W Ha _ eq_refl Lim nm)|].
      destruct Hex as (p & e & Hp & He).
      assert (I : In (p, e) (tagged (num_scans sa) (events_at sa))) by (apply in_tagged; auto).
      destruct (tagged _ _); [inversion I|reflexivity]. }
  exists A, B, (fill_nans nanmean A), (fill_nans nanmean B), (nanmean A), (nanmean B).
  split; [apply (E None)|]. split; [apply (E (Some nanmean))|].
  intros p Hp l.
  assert (G : forall g, (forall e, In e (KE p) -> 0 <= g e < 2 ^ 24) ->
    let C := com_row (num_scans sa) g KE in
    (l <> [] -> entry (fill_nans nanmean C) p = entry C p) /\
    (l = [] -> entry (fill_nans nanmean C) p = Some (nanmean C))).
  { intros g Hg C.
    pose proof (entry_com_row sa fx fy (crop_args crop_to init) g p Hp : entry C p = Some (com_entry g l)) as EC.
    pose proof (entry_mean sa fx fy crop_to init _ eq_refl Lim g p Hp Hg : is_mean g l (com_entry g l)) as M.
    assert (EF : entry (fill_nans nanmean C) p =
      Some (if f_nan (com_entry g l) then nanmean C else com_entry g l)).
    { unfold entry, fill_nans. now rewrite (map_nth_error _ _ _ EC). }
    rewrite EF, EC. split; intros Hl.
    - now rewrite (is_mean_number g _ _ Hl M).
    - rewrite Hl in M |- *. cbn [is_mean] in M. now rewrite M. }
  assert (RX : forall e, In e (KE p) -> 0 <= e / fx < 2 ^ 24) by
    (intros e He; now destruct (KE_range sa fx fy crop_to init W _ eq_refl Lim p e Hp He)).
  assert (RY : forall e, In e (KE p) -> 0 <= e mod fy < 2 ^ 24) by
    (intros e He; now destruct (KE_range sa fx fy crop_to init W _ eq_refl Lim p e Hp He)).
  destruct (G _ RX) as [GX1 GX2]. destruct (G _ RY) as [GY1 GY2].
  split; intros Hl; split; auto.
Qed.

(** For square frames the sparse centre of mass is the centre of mass of the
    expanded frame (column in the first row of the result, row in the second)
    rounded to single precision. *)
Theorem C42_dense sa w version shape D :
  wf sa -> 0 < sp_F sa -> version = 0 \/ version = 1 ->
  com_limits sa w w None ->
  to_dense sa = Ok (Dense shape D) ->
  exists c0 c1, com_sparse sa None None None version = Ok (c0, c1) /\
    forall p, 0 <= p < num_scans sa ->
      let dp := map (fun j => zat D (p * (w * w) + j)) (zseq (w * w)) in
      entry c0 p = Some (f_of_d (fst (com_dense_frame w dp))) /\
      entry c1 p = Some (f_of_d (snd (com_dense_frame w dp))).
Proof.
  intros W HF Hv Lim HD. pose proof (wf_shaped sa W) as W'.
  assert (Ha : @None Z = None \/ @None (Z * Z) <> None) by now left.
  assert (E : com_sparse sa None None None version =
    Ok (com_row (num_scans sa) (fun e => e mod w)
          (fun p => kept (fun e => e / w) (fun e => e mod w) None (events_at sa p)),
        com_row (num_scans sa) (fun e => e / w)
          (fun p => kept (fun e => e / w) (fun e => e mod w) None (events_at sa p)))).
  { unfold com_sparse. destruct Hv as [->| ->]; cbn [Z.eqb].
    - exact (v0_ok sa w w None None W' Ha _ eq_refl Lim None HF).
    - etransitivity; [exact (v1_ok sa w w None None W' Ha _ eq_refl Lim None)|].
      destruct (tagged _ _); reflexivity. }
  do 2 eexists. split; [exact E|]. intros p Hp dp.
  pose proof (cl_frame _ _ _ _ Lim) as F. pose proof (cl_fx _ _ _ _ Lim) as Hw.
  assert (FS : frame_size sa = w * w).
  { unfold frame_size. rewrite F. cbn. now rewrite Z.mul_1_r. }
  pose proof (along_frame_eq sa shape D W HD p Hp) as AF. unfold along_frame in AF. rewrite FS in AF.
  fold dp in AF. rewrite AF.
  pose proof (com_dense_ok sa w p W F (proj1 Hw) Hp) as C. cbv zeta in C. rewrite FS in C. destruct C as [C1 C2].
  split; (etransitivity; [exact (entry_com_row sa w w None _ p Hp)|]); f_equal; [exact C1|exact C2].
Qed.

(** An unknown version is refused. *)
Theorem C42_unknown_version sa crop_to init nanmean version :
  version <> 0 -> version <> 1 -> com_sparse sa crop_to init nanmean version = value_error.
Proof.
  intros H0 H1. unfold com_sparse. apply Z.eqb_neq in H0, H1. now rewrite H0, H1.
Qed.

(** * The hypotheses hold of the example array *)
Example ex_com_limits : com_limits ex_sparse 2 2 (Some (1, (0, 1))).
Proof.
  constructor; try (cbn; lia); try reflexivity.
  - exists 2, 2. reflexivity.
  - intros p Hp. change (num_scans ex_sparse) with 4 in Hp.
    assert (p = 0 \/ p = 1 \/ p = 2 \/ p = 3) as [->|[->|[->| ->]]] by lia; vm_compute; discriminate.
  - split; [lia|]. split; [lia|]. split; [lia|]. intros p e Hp He.
    change (num_scans ex_sparse) with 4 in Hp.
    assert (p = 0 \/ p = 1 \/ p = 2 \/ p = 3) as [->|[->|[->| ->]]] by lia; vm_compute in He;
    repeat (destruct He as [<-|He]; [vm_compute; discriminate|]); contradiction.
Qed.

Example ex_com_values : exists r,
  com_sparse ex_sparse (Some 1) (Some (0, 1)) None 0 = Ok r /\
  com_sparse ex_sparse (Some 1) (Some (0, 1)) None 1 = Ok r.
Proof.
  apply (C42_versions_agree ex_sparse 2 2).
  - apply wf_shaped, ex_sparse_wf.
  - reflexivity.
  - right. discriminate.
  - exact ex_com_limits.
  - now left.
Qed.

(** * What does not hold *)

(** Frames that are not square: the row of an event is computed with the number
    of rows instead of the number of columns.  One electron in row 0, column 3
    of a frame of 2 rows and 4 columns gets row 1. *)
Definition ex_wide : sparse := mkSparse [[[3]]] 1 [1; 1] [2; 4] 32 true true.

Theorem C42_not_square_refuted : exists c0 c1 v,
  com_sparse ex_wide None None None 0 = Ok (c0, c1) /\ entry c1 0 = Some v /\
  fval v (IZR 1) /\ events_at ex_wide 0 = [0 * 4 + 3].
Proof.
  destruct (C42_values ex_wide 2 4 None None 0) as (c0 & c1 & E & _ & _ & V).
  - constructor.
    + right. exists 1, 1. repeat split; lia.
    + reflexivity.
    + intros row [<-|[]]. reflexivity.
    + intros row fr e [<-|[]] [<-|[]] [<-|[]]. vm_compute. now split.
  - reflexivity.
  - now left.
  - now left.
  - constructor.
    + reflexivity.
    + lia.
    + lia.
    + exists 1, 1. reflexivity.
    + change (num_scans ex_wide) with 1. lia.
    + intros p Hp. change (num_scans ex_wide) with 1 in Hp. replace p with 0 by lia. change (events_at ex_wide 0) with [3].
      change (Zlen [3]) with 1. lia.
    + exact I.
  - destruct (V 0) as (x & y & _ & E1 & _ & M); [vm_compute; split; [discriminate|reflexivity]|].
    exists c0, c1, y. split; [exact E|]. split; [exact E1|]. split; [|reflexivity].
    change (fval y (f_rnd (d_rnd (IZR 1 / IZR 1)))) in M.
    replace (IZR 1 / IZR 1)%R with (IZR 1) in M by lra.
    rewrite (d_rnd_int 1), (f_rnd_int 1) in M by lia. exact M.
Qed.

(** Without any frame slot version 0 raises and version 1 returns NaNs. *)
Theorem C42_no_frames_refuted :
  let sa := mkSparse [[]] 0 [1; 1] [2; 2] 32 true true in
  shaped sa /\ com_sparse sa None None None 0 = value_error /\
  com_sparse sa None None None 1 = Ok ([f_NaN], [f_NaN]).
Proof.
  cbv zeta. split; [|split; vm_compute; reflexivity]. constructor.
  - right. exists 1, 1. repeat split; lia.
  - reflexivity.
  - intros row [<-|[]]. reflexivity.
  - intros row fr e [<-|[]] [].
Qed.

(** Cropping around the centre of the whole frame: version 1 computes the
    distances in single precision and can drop an electron that version 0
    keeps.  Five electrons of an 8 x 8 frame, radius 1: version 0 returns a
    centre, version 1 finds no electron. *)
Definition ex_tie : sparse := mkSparse [[[13; 27; 29; 12; 36]]] 1 [1; 1] [8; 8] 32 true true.

Definition first_is_nan (r : outcome (list float32 * list float32)) : option bool :=
  match r with Ok (v :: _, _) => Some (f_nan v) | _ => None end.

Theorem C42_crop_own_center_refuted :
  wf ex_tie /\
  first_is_nan (com_sparse ex_tie (Some 1) None None 0) = Some false /\
  first_is_nan (com_sparse ex_tie (Some 1) None None 1) = Some true.
Proof.
  split; [|split; vm_compute; reflexivity].
  constructor.
  - right. exists 1, 1. repeat split; lia.
  - right. exists 8, 8. repeat split; lia.
  - reflexivity.
  - intros row [<-|[]]. reflexivity.
  - cbn. lia.
  - cbn. lia.
  - intros row fr [<-|[]] [<-|[]]. split.
    + repeat (constructor; [cbn; intuition congruence|]). constructor.
    + intros x H. cbn in H. unfold np_prod. cbn. intuition lia.
Qed.

Print Assumptions C42_versions_agree.
Print Assumptions C42_values.
Print Assumptions C42_replace_nans.
Print Assumptions C42_dense.
Print Assumptions C42_unknown_version.
Print Assumptions C42_not_square_refuted.
Print Assumptions C42_no_frames_refuted.
Print Assumptions C42_crop_own_center_refuted.
