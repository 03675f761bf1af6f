(** C63 and C64: the Python function create_stem_images on raw data, files of
    raw data and counted events. *)
From Coq Require Import String ZArith List Lia Bool.
From Verif Require Import Base BaseFacts BlockModel PyModel PySpec PyProofs PoolModel StemModel
  StemSpec StemProofs StemProps SparseStemProps SparseModel SparseSpec SparseProofs SparseReduce SparseProps CountedModel
  StemPyModel StemPySpec StemPyProofs.
Import ListNotations.
Open Scope Z_scope.

Local Arguments Z.add : simpl never.
Local Arguments Z.mul : simpl never.
Local Arguments Z.sub : simpl never.
Local Arguments Z.pow : simpl never.

(** ** C63: raw data *)

(** A file open for appending that has no raw data yet. *)
Definition no_raw (f : h5file) : Prop := h5_frames f = None /\ h5_positions f = None.

(** Saving raw data stores an array with the same elements, whatever the memory
    layout of the argument, its scan dimensions and its positions. *)
Theorem save_raw_data_stores :
  forall f a dims positions, no_raw f -> array_ok a ->
  exists f' b, save_raw_data f a dims positions = (f', Ok tt) /\
    h5_frames f' = Some b /\ same_array b a /\ contiguous b /\
    h5_dims f' = dims /\ h5_positions f' = positions /\ h5_stem f' = h5_stem f.
Proof.
  intros f a dims positions (N1 & N2) (A0 & A1 & A2 & _). unfold save_raw_data. rewrite N1, N2.
  pose proof (copy_same a). pose proof (copy_contiguous a A0 A1 A2).
  destruct positions as [l|]; do 2 eexists; (split; [reflexivity|]); cbn; auto 10.
Qed.

(** Saving again to the same file raises and changes nothing. *)
Theorem save_raw_data_again :
  forall f a dims positions a' dims' positions',
    let f' := fst (save_raw_data f a dims positions) in
    fst (save_raw_data f' a' dims' positions') = f' /\
    exists why, snd (save_raw_data f' a' dims' positions') = Throw why.
Proof.
  intros f a dims positions a' dims' positions' f'.
  assert (X : h5_frames f' <> None).
  { unfold f', save_raw_data. destruct (h5_frames f) eqn:E.
    - cbn. rewrite E. discriminate.
    - destruct positions, (h5_positions f); cbn; discriminate. }
  unfold save_raw_data at 1 2. destruct (h5_frames f') eqn:E; [|congruence].
  cbn. split; [reflexivity|]. eexists; reflexivity.
Qed.

(** The scan dimensions a reader of the file uses: those saved, or for an older
    file those of its STEM images, stored as (images, rows, columns). *)
Definition recorded_scan (dims : option (Z * Z)) (stem : option (Z * Z * Z)) (scan : Z * Z) : Prop :=
  dims = Some scan \/ (dims = None /\ exists n, stem = Some (n, snd scan, fst scan)).

Lemma forallb_u32 l : Forall is_u32 l -> forallb is_u32b l = true.
Proof.
  intros H. apply forallb_forall. intros x Hx. rewrite Forall_forall in H.
  specialize (H x Hx). unfold is_u32 in H. unfold is_u32b.
  apply andb_true_intro. split; [apply Z.leb_le|apply Z.ltb_lt]; lia.
Qed.

Lemma is_u32b_true z : is_u32 z -> is_u32b z = true.
Proof.
  unfold is_u32, is_u32b. intros. apply andb_true_intro. split; [apply Z.leb_le|apply Z.ltb_lt]; lia.
Qed.

(** The image numbers a reader uses. *)
Definition numbers_for (positions : option (list Z)) (n : Z) : list Z :=
  match positions with Some l => l | None => zseq n end.

Lemma numbers_facts positions n npos : 0 <= n <= 2 ^ 32 ->
  positions_ok positions n npos ->
  Zlen (numbers_for positions n) = n /\ NoDup (numbers_for positions n) /\
  Forall is_u32 (numbers_for positions n) /\
  Forall (fun p => 0 <= p < npos) (numbers_for positions n) /\
  forall i, 0 <= i < n -> zat (numbers_for positions n) i = position positions i.
Proof.
  intros Hn. destruct positions as [l|]; cbn [positions_ok numbers_for position].
  - intros (H1 & H2 & H3 & H4). auto.
  - intros H. split; [apply Zlen_zseq; lia|]. split; [apply NoDup_zseq|].
    split; [|split].
    + apply Forall_forall. intros x Hx. apply in_zseq in Hx. unfold is_u32. lia.
    + apply Forall_forall. intros x Hx. apply in_zseq in Hx. lia.
    + intros i Hi. apply zat_zseq; lia.
Qed.

Lemma shows_transfer imgs a b positions n inner outer npos cx cy :
  same_array b a -> n = nd_count a ->
  (forall i, 0 <= i < n -> zat (numbers_for positions n) i = position positions i) ->
  shows_frames imgs b (Some (numbers_for positions n)) inner outer npos cx cy ->
  shows_frames imgs a positions inner outer npos cx cy.
Proof.
  intros (Sh & Px) -> Hp (L & V). assert (E : nd_count b = nd_count a /\ nd_rows b = nd_rows a /\ nd_cols b = nd_cols a).
  { unfold nd_count, nd_rows, nd_cols. now rewrite Sh. }
  destruct E as (E1 & E2 & E3). rewrite E1, E2, E3 in *.
  split; [exact L|]. intros k Hk. destruct (V k Hk) as (V1 & V2). split; [exact V1|].
  intros p Hpp. destruct (V2 p Hpp) as (V3 & V4). cbn [position] in V3, V4. split.
  - intros i Hi Hip. rewrite (V3 i Hi) by (rewrite Hp; auto).
    apply annulus_sum_ext. intros x y Hx Hy. now apply Px.
  - intros Hno. apply V4. intros i Hi. rewrite Hp by auto. now apply Hno.
Qed.

(** Raw data saved to a file, of any memory layout, and then given to
    create_stem_images as an open file: the images show every frame at its
    position. *)
Theorem raw_file_stem_images :
  forall f a dims positions scan0 scan sw sh inner outer cx cy frame,
    no_raw f -> array_ok a -> sizes_ok a ->
    recorded_scan dims (h5_stem f) scan0 -> is_u32 (fst scan0) -> is_u32 (snd scan0) ->
    scan_or scan scan0 = (sw, sh) -> 0 < sw -> 0 < sh -> sw * sh < 2 ^ 32 ->
    positions_ok positions (nd_count a) (sw * sh) ->
    radii_ok (radii_list inner) (radii_list outer) ->
    let f' := fst (save_raw_data f a dims positions) in
    (exists cs r, create_stem_images (InFile f') inner outer scan (cx, cy) frame cs = Some r) /\
    forall cs r, create_stem_images (InFile f') inner outer scan (cx, cy) frame cs = Some r ->
    exists imgs, r = Ok imgs /\
      shows_frames imgs a positions (radii_list inner) (radii_list outer) (sw * sh) cx cy.
Proof.
  intros f a dims positions scan0 scan sw sh inner outer cx cy frame (N1 & N2)
    (A0 & A1 & A2 & A3 & A4 & A5) S Rc U1 U2 Sc Hsw Hsh Hss Po Rd f'.
  destruct S as (S1 & S2 & S3 & S4 & S5).
  destruct (numbers_facts positions (nd_count a) (sw * sh) ltac:(lia) Po) as (M1 & M2 & M3 & M4 & M5).
  destruct (copy_dims a) as (E1 & E2 & E3).
  assert (G : get_hdf5_reader f' =
    Ok (py_new (nd_copy a) (numbers_for positions (nd_count a)) scan0 32 (nd_count a))).
  { unfold f', save_raw_data, get_hdf5_reader. rewrite N1, N2.
    assert (X : new_pyreader (nd_copy a) (numbers_for positions (nd_count a)) scan0 32 (nd_count a)
      = Ok (py_new (nd_copy a) (numbers_for positions (nd_count a)) scan0 32 (nd_count a))).
    { unfold new_pyreader. rewrite forallb_u32 by exact M3. rewrite !is_u32b_true; auto.
      unfold is_u32; lia. }
    destruct Rc as [-> | (-> & m & Hm)]; destruct positions as [l|];
      cbn [fst h5_frames h5_dims h5_positions h5_stem]; rewrite E1; cbn [bind]; try exact X;
      rewrite Hm; cbn [bind]; destruct scan0; exact X. }
  assert (R : forall cs r,
    match py_blocks (py_new (nd_copy a) (numbers_for positions (nd_count a)) scan0 32 (nd_count (nd_copy a))) with
    | Ok bs => createSTEMImages bs (radii_list inner) (radii_list outer) scan (cx, cy) cs
    | Throw m => Some (Throw m) | UB m => Some (UB m) | OutOfFuel => Some OutOfFuel
    end = Some r ->
    exists imgs, r = Ok imgs /\
    shows_frames imgs (nd_copy a) (Some (numbers_for positions (nd_count a)))
      (radii_list inner) (radii_list outer) (sw * sh) cx cy).
  { intros cs r. apply raw_stem; auto.
    - now apply copy_contiguous.
    - now apply copy_u16.
    - rewrite copy_len; lia.
    - unfold sizes_ok. rewrite E1, E2, E3. auto.
    - lia. }
  rewrite E1 in R.
  assert (X : forall cs, create_stem_images (InFile f') inner outer scan (cx, cy) frame cs =
    match py_blocks (py_new (nd_copy a) (numbers_for positions (nd_count a)) scan0 32 (nd_count a)) with
    | Ok bs => createSTEMImages bs (radii_list inner) (radii_list outer) scan (cx, cy) cs
    | Throw m => Some (Throw m) | UB m => Some (UB m) | OutOfFuel => Some OutOfFuel
    end).
  { intros cs. unfold create_stem_images. rewrite G. cbn [bind].
    now destruct (py_blocks _). }
  split.
  - destruct (py_blocks (py_new (nd_copy a) (numbers_for positions (nd_count a)) scan0 32 (nd_count a))) as [bs|m|m|].
    + destruct (stem_images_terminates bs (radii_list inner) (radii_list outer) scan (cx, cy))
        as (cs & r & E). exists cs, r. now rewrite X.
    + exists []. eexists. rewrite X. reflexivity.
    + exists []. eexists. rewrite X. reflexivity.
    + exists []. eexists. rewrite X. reflexivity.
  - intros cs r E. rewrite X in E. destruct (R cs r E) as (imgs & -> & Sw).
    exists imgs. split; [reflexivity|].
    apply (shows_transfer imgs a (nd_copy a) positions (nd_count a)); auto using copy_same.
Qed.

(** The same for a C-contiguous array passed directly; its frames are at the
    positions 0, 1, ... *)
Theorem raw_array_stem_images :
  forall a sw sh inner outer cx cy,
    array_ok a -> contiguous a -> sizes_ok a ->
    0 < sw < 2 ^ 32 -> 0 < sh < 2 ^ 32 -> sw * sh < 2 ^ 32 -> nd_count a <= sw * sh ->
    radii_ok (radii_list inner) (radii_list outer) ->
    (exists cs r, create_stem_images (InRaw a) inner outer (sw, sh) (cx, cy) None cs = Some r) /\
    forall cs r, create_stem_images (InRaw a) inner outer (sw, sh) (cx, cy) None cs = Some r ->
    exists imgs, r = Ok imgs /\
      shows_frames imgs a None (radii_list inner) (radii_list outer) (sw * sh) cx cy.
Proof.
  intros a sw sh inner outer cx cy (A0 & A1 & A2 & A3 & A4 & A5) C S Hsw Hsh Hss Hn Rd.
  pose proof S as (S1 & S2 & S3 & S4 & S5).
  destruct (numbers_facts None (nd_count a) (sw * sh) ltac:(lia) Hn) as (M1 & M2 & M3 & M4 & M5).
  cbn [numbers_for] in *.
  assert (G : new_pyreader a (zseq (nd_count a)) (sw, sh) 32 (nd_count a)
      = Ok (py_new a (zseq (nd_count a)) (sw, sh) 32 (nd_count a))).
  { unfold new_pyreader. rewrite forallb_u32 by exact M3. cbn [fst snd].
    rewrite !is_u32b_true; auto; unfold is_u32; lia. }
  assert (X : forall cs, create_stem_images (InRaw a) inner outer (sw, sh) (cx, cy) None cs =
    match py_blocks (py_new a (zseq (nd_count a)) (sw, sh) 32 (nd_count a)) with
    | Ok bs => createSTEMImages bs (radii_list inner) (radii_list outer) (sw, sh) (cx, cy) cs
    | Throw m => Some (Throw m) | UB m => Some (UB m) | OutOfFuel => Some OutOfFuel
    end).
  { intros cs. unfold create_stem_images. cbn [fst snd].
    destruct (Z.eqb_spec sw 0); [lia|]. cbn [andb]. rewrite G. cbn [bind].
    now destruct (py_blocks _). }
  split.
  - destruct (py_blocks (py_new a (zseq (nd_count a)) (sw, sh) 32 (nd_count a))) as [bs|m|m|].
    + destruct (stem_images_terminates bs (radii_list inner) (radii_list outer) (sw, sh) (cx, cy))
        as (cs & r & E). exists cs, r. now rewrite X.
    + exists []. eexists. rewrite X. reflexivity.
    + exists []. eexists. rewrite X. reflexivity.
    + exists []. eexists. rewrite X. reflexivity.
  - intros cs r E. rewrite X in E.
    destruct (raw_stem a (zseq (nd_count a)) (sw, sh) (sw, sh) (radii_list inner) (radii_list outer) sw sh cx cy)
      with (cs := cs) (r := r) as (imgs & -> & Sw); auto; try lia.
    + unfold scan_or. cbn [fst snd]. destruct (Z.eqb_spec sw 0); [lia|].
      destruct (Z.eqb_spec sh 0); [lia|reflexivity].
    + exists imgs. split; [reflexivity|].
      apply (shows_transfer imgs a a None (nd_count a)); auto.
      split; auto.
Qed.

(** Non-vacuity: three 2 x 2 frames, saved from a Fortran-ordered array to an
    empty file with positions 3, 0, 2 of a 2 x 2 scan. *)
Definition ex_fortran : ndarray :=
  mkNd [1; 5; 9; 3; 7; 11; 2; 6; 10; 4; 8; 12] 0 (3, 2, 2) (1, 3, 6).
Definition empty_h5 : h5file := mkH5 None None None None.
Definition ex_h5 : h5file :=
  fst (save_raw_data empty_h5 ex_fortran (Some (2, 2)) (Some [3; 0; 2])).

Example ex_fortran_ok : array_ok ex_fortran /\ sizes_ok ex_fortran /\ no_raw empty_h5 /\
  recorded_scan (Some (2, 2)) (h5_stem empty_h5) (2, 2) /\
  positions_ok (Some [3; 0; 2]) (nd_count ex_fortran) (2 * 2) /\
  radii_ok (radii_list (RMany [0; 1])) (radii_list (RMany [1; 2])).
Proof.
  unfold array_ok, sizes_ok, no_raw, recorded_scan, positions_ok, radii_ok, ex_fortran, Zlen, nd_count, nd_rows, nd_cols, is_u32, radius_ok.
  cbn -[Z.pow]. repeat split; try lia; try reflexivity; try discriminate; auto;
    try (repeat constructor; unfold is_u16; cbn; intuition lia).
Qed.

Example ex_raw_file :
  h5_frames ex_h5 = Some (mkNd [1; 2; 3; 4; 5; 6; 7; 8; 9; 10; 11; 12] 0 (3, 2, 2) (4, 2, 1)) /\
  create_stem_images (InFile ex_h5) (RMany [0; 1]) (RMany [1; 2]) (0, 0) (-1, -1) None
    (Main :: Main :: repeat (Worker 0) 8)
  = Some (Ok [[8; 0; 12; 4]; [18; 0; 30; 6]]).
Proof. split; vm_compute; reflexivity. Qed.

(** Passed directly, the Fortran-ordered array is read in memory order: the
    image does not show its frames, although the file made from it does. *)
Theorem raw_array_strided_refuted :
  exists a sw sh inner outer cx cy cs imgs imgs',
    array_ok a /\ sizes_ok a /\ nd_count a <= sw * sh /\
    radii_ok (radii_list inner) (radii_list outer) /\
    create_stem_images (InRaw a) inner outer (sw, sh) (cx, cy) None cs = Some (Ok imgs) /\
    create_stem_images (InFile (fst (save_raw_data empty_h5 a (Some (sw, sh)) None)))
      inner outer (0, 0) (cx, cy) None cs = Some (Ok imgs') /\
    shows_frames imgs' a None (radii_list inner) (radii_list outer) (sw * sh) cx cy /\
    ~ shows_frames imgs a None (radii_list inner) (radii_list outer) (sw * sh) cx cy.
Proof.
  exists ex_fortran, 3, 1, (ROne 0), (ROne 1), 1, 1,
    (Main :: repeat (Worker 0) 4),
    [[3; 6; 12]], [[4; 8; 12]].
  destruct ex_fortran_ok as (A & S & N & _). split; [exact A|]. split; [exact S|].
  split; [unfold nd_count; cbn; lia|].
  assert (R : radii_ok (radii_list (ROne 0)) (radii_list (ROne 1))).
  { unfold radii_ok, radius_ok. cbn. repeat split; try discriminate; repeat constructor; lia. }
  split; [exact R|]. split; [vm_compute; reflexivity|].
  assert (E : create_stem_images (InFile (fst (save_raw_data empty_h5 ex_fortran (Some (3, 1)) None)))
      (ROne 0) (ROne 1) (0, 0) (1, 1) None
      (Main :: repeat (Worker 0) 4)
      = Some (Ok [[4; 8; 12]])) by (vm_compute; reflexivity).
  split; [exact E|].
  assert (V : forall imgs,
    shows_frames imgs ex_fortran None [0] [1] (3 * 1) 1 1 -> zat (nth 0 imgs []) 0 = 4).
  { intros imgs (_ & V). destruct (V O ltac:(cbn; lia)) as (_ & V').
    destruct (V' 0 ltac:(lia)) as (V1 & _). rewrite (V1 0); [vm_compute; reflexivity| |reflexivity].
    unfold nd_count; cbn; lia. }
  split.
  - destruct (raw_file_stem_images empty_h5 ex_fortran (Some (3, 1)) None (3, 1) (0, 0) 3 1
      (ROne 0) (ROne 1) 1 1 None) as (_ & T); auto; try (unfold is_u32; cbn; lia).
    + now left.
    + destruct (T _ _ E) as (imgs & [= <-] & Sw). exact Sw.
  - intros Sw. apply V in Sw. discriminate Sw.
Qed.

(** Raw data without scan dimensions is refused. *)
Theorem raw_array_needs_dimensions :
  forall a inner outer center cs,
    exists why, create_stem_images (InRaw a) inner outer (0, 0) center None cs = Some (Throw why).
Proof. intros. eexists. reflexivity. Qed.

(** ** C64: counted events *)

Lemma occurrences_cnt e l : occurrences e l = cnt l e.
Proof.
  unfold occurrences. induction l as [|x l IH]; [reflexivity|].
  rewrite cnt_cons. cbn [count_occ]. destruct (Z.eq_dec x e) as [->|N].
  - rewrite Z.eqb_refl. lia.
  - destruct (Z.eqb_spec e x); [congruence|]. lia.
Qed.

Lemma sparse_shows sparse inner outer w h sw sh cx cy ev :
  sparse_input sparse w h sw sh -> radii_ok inner outer ->
  (forall p x y, 0 <= p < sw * sh -> 0 <= x < w -> 0 <= y < h ->
     events (nth (Z.to_nat p) sparse []) (y * w + x) = ev p x y) ->
  exists imgs,
    createSTEMImagesSparse sparse inner outer (sw, sh) (w, h) (cx, cy) = Ok imgs /\
    shows_events imgs ev w h inner outer (sw * sh) cx cy.
Proof.
  intros SI (R1 & R2 & R3 & R4) Hev.
  destruct (sparse_stem_images_correct sparse inner outer w h sw sh cx cy SI R1 R2 R3 R4)
    as (imgs & E & L & V).
  exists imgs. split; [exact E|]. split; [exact L|]. intros k Hk.
  destruct (V k Hk) as (V1 & V2). split; [exact V1|]. intros p Hp. rewrite (V2 p Hp).
  f_equal. apply annulus_sum_ext. intros x y Hx Hy. unfold event_count.
  rewrite occurrences_cnt, cnt_concat. now apply Hev.
Qed.

(** Sizes of a sparse array the code can represent: [fw] is the first and [fh]
    the second dimension of frame_shape. *)
Definition sparse_sizes (sa : sparse) (sw sh fw fh : Z) : Prop :=
  sp_scan sa = [sh; sw] /\ sp_frame sa = [fw; fh] /\
  0 < sw < 2 ^ 32 /\ 0 < sh < 2 ^ 32 /\ sw * sh < 2 ^ 32 /\
  fw < 2 ^ 31 /\ fh < 2 ^ 31 /\ fw * fh < 2 ^ 32 /\
  65535 * (sp_F sa * (fw * fh)) < 2 ^ 64.

Lemma concat_length_le (N : Z) (frames : list (list Z)) :
  Forall (fun fr => Zlen fr <= N) frames -> Zlen (concat frames) <= Zlen frames * N.
Proof.
  induction 1 as [|fr t H _ IH]; [reflexivity|]. cbn [concat].
  rewrite Zlen_cons. unfold Zlen in *. rewrite app_length. lia.
Qed.

Lemma frame_ok_length N fr : 0 <= N -> frame_ok N fr -> Zlen fr <= N.
Proof.
  intros HN (ND & R). rewrite <- (Zlen_zseq N HN). unfold Zlen.
  apply inj_le. apply NoDup_incl_length; [exact ND|].
  intros x Hx. apply in_zseq. now apply R.
Qed.

Lemma wf_sparse_input sa sw sh fw fh : wf sa -> sparse_sizes sa sw sh fw fh ->
  sparse_input (sp_data sa) fw fh sw sh.
Proof.
  intros W (E1 & E2 & H1 & H2 & H3 & H4 & H5 & H6 & H7).
  assert (HF : 0 <= fw /\ 0 <= fh).
  { destruct (wf_frame sa W) as [(n & E & _)|(n & m & E & Hn & Hm)]; rewrite E2 in E.
    - discriminate.
    - injection E as -> ->. now split. }
  destruct HF as (HF1 & HF2).
  assert (NP : np_prod (sp_frame sa) = fw * fh) by (rewrite E2; cbn; lia).
  unfold sparse_input. do 6 (split; [lia|]). split.
  - rewrite (wf_len sa W), E1. cbn. lia.
  - apply Forall_forall. intros row Hrow. split.
    + apply Forall_forall. intros fr Hfr. apply Forall_forall. intros e He.
      destruct (wf_frames sa W row fr Hrow Hfr) as (_ & R). rewrite NP in R. now apply R.
    + assert (B : Zlen (concat row) <= Zlen row * (fw * fh)).
      { apply concat_length_le. apply Forall_forall. intros fr Hfr.
        rewrite <- NP. apply frame_ok_length; [rewrite NP; nia|].
        now apply (wf_frames sa W row fr). }
      rewrite (wf_rows sa W row Hrow) in B. lia.
Qed.

(** STEM images of a SparseArray: 65535 times the events of each position whose
    flat index [y * fw + x] has (x, y) in the annulus, where [fw] is the first
    dimension of frame_shape. *)
Theorem sparse_array_stem_images :
  forall sa sw sh fw fh inner outer scan cx cy frame cs,
    wf sa -> sparse_sizes sa sw sh fw fh -> radii_ok (radii_list inner) (radii_list outer) ->
    exists imgs,
      create_stem_images (InSparse sa None) inner outer scan (cx, cy) frame cs = Some (Ok imgs) /\
      shows_events imgs (fun p x y => events (row_at sa p) (y * fw + x)) fw fh
        (radii_list inner) (radii_list outer) (sw * sh) cx cy.
Proof.
  intros sa sw sh fw fh inner outer scan cx cy frame cs W S Rd.
  pose proof (wf_sparse_input sa sw sh fw fh W S) as SI.
  destruct S as (E1 & E2 & H1 & H2 & H3 & H4 & H5 & H6 & H7).
  destruct (sparse_shows (sp_data sa) (radii_list inner) (radii_list outer) fw fh sw sh cx cy
    (fun p x y => events (row_at sa p) (y * fw + x)) SI Rd) as (imgs & E & V); [reflexivity|].
  exists imgs. split; [|exact V]. unfold create_stem_images. rewrite E1, E2. cbn [rev app as_pair].
  destruct SI as (I1 & I2 & _).
  rewrite !is_u32b_true by (unfold is_u32; lia). cbn [andb bind]. now rewrite E.
Qed.

(** For square frames these are the images of the dense array: 65535 times the
    sum of the entries (p, y, x) inside the annulus. *)
Theorem sparse_array_stem_images_dense :
  forall sa sw sh n inner outer scan cx cy frame cs shape D,
    wf sa -> sparse_sizes sa sw sh n n -> radii_ok (radii_list inner) (radii_list outer) ->
    to_dense sa = Ok (Dense shape D) ->
    exists imgs,
      create_stem_images (InSparse sa None) inner outer scan (cx, cy) frame cs = Some (Ok imgs) /\
      shows_events imgs (fun p x y => zat D (p * (n * n) + (y * n + x))) n n
        (radii_list inner) (radii_list outer) (sw * sh) cx cy.
Proof.
  intros sa sw sh n inner outer scan cx cy frame cs shape D W S Rd HD.
  destruct (sparse_array_stem_images sa sw sh n n inner outer scan cx cy frame cs W S Rd)
    as (imgs & E & L & V).
  exists imgs. split; [exact E|]. split; [exact L|]. intros k Hk. destruct (V k Hk) as (V1 & V2).
  split; [exact V1|]. intros p Hp. rewrite (V2 p Hp). f_equal. apply annulus_sum_ext.
  intros x y Hx Hy. destruct (C36_dense_values sa W) as (D0 & E0 & _ & V0).
  rewrite E0 in HD. injection HD as _ ->.
  destruct S as (E1 & E2 & _).
  assert (NS : num_scans sa = sw * sh) by (unfold num_scans; rewrite E1; cbn; lia).
  assert (FS : frame_size sa = n * n) by (unfold frame_size; rewrite E2; cbn; lia).
  rewrite NS, FS in V0. rewrite V0; [reflexivity|exact Hp|nia].
Qed.

(** Finding: for other frames they are not, since frame_shape (rows, columns)
    is passed as (width, height). *)
Definition dense_shows (imgs : list (list Z)) (D : list Z) (rows cols : Z)
  (inner outer : list Z) (npos cx cy : Z) : Prop :=
  shows_events imgs (fun p x y => zat D (p * (rows * cols) + (y * cols + x))) cols rows
    inner outer npos cx cy.

Theorem sparse_array_not_square_refuted :
  exists sa rows cols inner outer cx cy cs imgs shape D,
    wf sa /\ sparse_sizes sa 1 1 rows cols /\ radii_ok (radii_list inner) (radii_list outer) /\
    to_dense sa = Ok (Dense shape D) /\ shape = [1; 1; rows; cols] /\
    create_stem_images (InSparse sa None) inner outer (0, 0) (cx, cy) None cs = Some (Ok imgs) /\
    ~ dense_shows imgs D rows cols (radii_list inner) (radii_list outer) 1 cx cy.
Proof.
  exists (mkSparse [[[2]]] 1 [1; 1] [2; 3] 32 true false), 2, 3, (ROne 0), (ROne 1), 0, 1, [],
    [[65535]], [1; 1; 2; 3], [0; 0; 1; 0; 0; 0].
  split.
  { constructor; cbn -[Z.pow]; try lia; try reflexivity.
    - right. exists 1, 1. repeat split; lia.
    - right. exists 2, 3. repeat split; lia.
    - intros row [<-|[]]. reflexivity.
    - intros row fr [<-|[]] [<-|[]]. split; [repeat constructor; easy|].
      intros x [<-|[]]. lia. }
  split. { unfold sparse_sizes. cbn -[Z.pow]. repeat split; lia. }
  split. { unfold radii_ok, radius_ok. cbn. repeat split; try discriminate; repeat constructor; lia. }
  split; [reflexivity|]. split; [reflexivity|]. split; [vm_compute; reflexivity|].
  intros (_ & V). destruct (V O ltac:(cbn; lia)) as (_ & V').
  specialize (V' 0 ltac:(lia)). vm_compute in V'. discriminate V'.
Qed.

(** The array electron_count returns: the images come from the C++ object it
    carries and are those of the array. *)
Theorem counted_array_stem_images :
  forall c sa i, counted_array c = Ok i -> i = InSparse sa (Some c) ->
    is_u32 (fst (cd_scan c)) -> is_u32 (snd (cd_scan c)) ->
    is_u32 (fst (cd_frame c)) -> is_u32 (snd (cd_frame c)) ->
    forall inner outer scan center frame cs,
      create_stem_images i inner outer scan center frame cs =
      create_stem_images (InSparse sa None) inner outer scan center frame cs.
Proof.
  intros c sa i E -> U1 U2 U3 U4 inner outer scan center frame cs.
  unfold counted_array in E.
  destruct (wrap_counted (cd_data c) (cd_scan c) (cd_frame c)) as [sa'| | |] eqn:Ew; try discriminate.
  cbn [bind] in E. injection E as ->. unfold wrap_counted in Ew.
  destruct (existsb _ _); [discriminate|]. destruct (existsb _ _); [discriminate|].
  unfold sparse_init in Ew. destruct (_ =? _); [|discriminate]. injection Ew as <-.
  unfold create_stem_images. cbn [sp_scan sp_frame sp_data rev app as_pair].
  rewrite !is_u32b_true by assumption. cbn [andb bind].
  destruct c as [d [s1 s2] [f1 f2]]. reflexivity.
Qed.

(** Finding: in-place binning and reshaping do not touch the C++ object, so the
    images of the changed array are those of the array before the change. *)
Lemma in_place_stale c sa o i' :
  do_in_place o (InSparse sa (Some c)) = Ok i' ->
  forall inner outer scan center frame cs,
    create_stem_images i' inner outer scan center frame cs =
    create_stem_images (InSparse sa (Some c)) inner outer scan center frame cs.
Proof.
  unfold do_in_place. destruct (in_place_op o sa) as [sa'| | |]; try discriminate.
  cbn [bind]. intros [= <-]. reflexivity.
Qed.

Theorem counted_array_in_place_refuted :
  exists c sa o sa' inner outer center imgs imgs',
    counted_array c = Ok (InSparse sa (Some c)) /\ wf sa /\ wf sa' /\
    do_in_place o (InSparse sa (Some c)) = Ok (InSparse sa' (Some c)) /\
    (forall scan frame cs,
       create_stem_images (InSparse sa' None) inner outer scan center frame cs = Some (Ok imgs)) /\
    (forall scan frame cs,
       create_stem_images (InSparse sa' (Some c)) inner outer scan center frame cs = Some (Ok imgs')) /\
    imgs <> imgs' /\ np_prod (sp_scan sa') = 1 /\ Zlen (nth 0 imgs []) = 1 /\ Zlen (nth 0 imgs' []) = 4.
Proof.
  exists (mkCounted [[[0]]; [[1]]; [[]]; [[1; 2]]] (2, 2) (2, 2)),
    (mkSparse [[[0]]; [[1]]; [[]]; [[1; 2]]] 1 [2; 2] [2; 2] 32 true false), (IBinScans 2),
    (mkSparse [[[0]; [1]; []; [1; 2]]] 4 [1; 1] [2; 2] 32 true false),
    (ROne 0), (ROne 5), (-1, -1), [[4 * 65535]], [[65535; 65535; 0; 2 * 65535]].
  split; [reflexivity|].
  split; [|split].
  - constructor; cbn -[Z.pow]; try lia; try reflexivity.
    + right. exists 2, 2. repeat split; lia.
    + right. exists 2, 2. repeat split; lia.
    + intros row Hr. intuition (subst; reflexivity).
    + intros row fr Hr Hf. intuition (subst; cbn in Hf; intuition (subst; frames_ok_tac)).
  - constructor; cbn -[Z.pow]; try lia; try reflexivity.
    + right. exists 1, 1. repeat split; lia.
    + right. exists 2, 2. repeat split; lia.
    + intros row Hr. intuition (subst; reflexivity).
    + intros row fr Hr Hf. intuition (subst; cbn in Hf; intuition (subst; frames_ok_tac)).
  - split; [reflexivity|]. repeat split; try (intros; vm_compute; reflexivity). discriminate.
Qed.

(** Events as a one-dimensional object array, one array of events per position:
    through an ElectronCountedData tuple or as a NumPy array with
    frame_dimensions. *)
Definition listed_ok (l : list (list Z)) (w h sw sh : Z) : Prop :=
  0 <= w < 2 ^ 31 /\ 0 <= h < 2 ^ 31 /\ w * h < 2 ^ 32 /\
  0 <= sw /\ 0 <= sh /\ sw * sh < 2 ^ 32 /\ Zlen l <= sw * sh /\
  Forall (fun ev => Forall (fun e => 0 <= e < w * h) ev /\ 65535 * Zlen ev < 2 ^ 64) l.

Lemma nth_map_nil {A B} (f : list A -> list B) n l : f [] = [] ->
  nth n (map f l) [] = f (nth n l []).
Proof. intros H. rewrite <- H at 1. apply map_nth. Qed.

Lemma events_singletons l j : events (map (fun e => [e]) l) j = cnt l j.
Proof.
  rewrite <- cnt_concat. f_equal. induction l; cbn; [reflexivity|]. now rewrite IHl.
Qed.

Lemma concat_singletons (l : list Z) : concat (map (fun e => [e]) l) = l.
Proof. induction l; cbn; [reflexivity|]. now rewrite IHl. Qed.

Theorem listed_events_stem_images :
  forall l w h sw sh inner outer cx cy cs,
    listed_ok l w h sw sh -> radii_ok (radii_list inner) (radii_list outer) ->
    exists imgs,
      (forall scan frame,
        create_stem_images (InCounted (E1 l) (sw, sh) (w, h)) inner outer scan (cx, cy) frame cs
        = Some (Ok imgs)) /\
      create_stem_images (InEvents (E1 l)) inner outer (sw, sh) (cx, cy) (Some (w, h)) cs
        = Some (Ok imgs) /\
      shows_events imgs (listed l w) w h (radii_list inner) (radii_list outer) (sw * sh) cx cy.
Proof.
  intros l w h sw sh inner outer cx cy cs (H1 & H2 & H3 & H4 & H5 & H6 & H7 & H8) Rd.
  rewrite Forall_forall in H8.
  assert (SI1 : sparse_input (map (map (fun e => [e])) l) w h sw sh).
  { unfold sparse_input. do 6 (split; [lia|]). split; [rewrite Zlen_map; lia|].
    apply Forall_forall. intros row Hr. apply in_map_iff in Hr. destruct Hr as (ev & <- & Hev).
    destruct (H8 ev Hev) as (R & B). rewrite concat_singletons. split; [|exact B].
    apply Forall_forall. intros fr Hfr. apply in_map_iff in Hfr. destruct Hfr as (e & <- & He).
    rewrite Forall_forall in R. constructor; [now apply R|constructor]. }
  assert (SI2 : sparse_input (map (fun fr => [fr]) l) w h sw sh).
  { unfold sparse_input. do 6 (split; [lia|]). split; [rewrite Zlen_map; lia|].
    apply Forall_forall. intros row Hr. apply in_map_iff in Hr. destruct Hr as (ev & <- & Hev).
    destruct (H8 ev Hev) as (R & B). cbn [concat]. rewrite app_nil_r. split; [|exact B].
    constructor; [exact R|constructor]. }
  destruct (sparse_shows _ (radii_list inner) (radii_list outer) w h sw sh cx cy (listed l w) SI1 Rd)
    as (imgs & E & V).
  { intros p x y Hp Hx Hy. rewrite nth_map_nil by reflexivity. apply events_singletons. }
  assert (E2 : createSTEMImagesSparse (map (fun fr => [fr]) l) (radii_list inner) (radii_list outer) (sw, sh) (w, h) (cx, cy) = Ok imgs).
  { rewrite <- E. destruct Rd as (R1 & R2 & R3 & R4). apply sparse_stem_order_independent; auto.
    intros p. rewrite (nth_map_nil (map (fun e => [e]))) by reflexivity. rewrite concat_singletons.
    destruct (Nat.lt_ge_cases p (List.length l)) as [L|L].
    - rewrite nth_indep with (d' := [[]]) by (rewrite map_length; exact L).
      change [[]] with ((fun fr : list Z => [fr]) []). rewrite map_nth. cbn [concat].
      rewrite app_nil_r. apply Permutation.Permutation_refl.
    - rewrite nth_overflow by (rewrite map_length; exact L).
      rewrite nth_overflow by exact L. apply Permutation.Permutation_refl. }
  exists imgs. split; [|split; [|exact V]].
  - intros. unfold create_stem_images. cbn [as_frames]. now rewrite E.
  - unfold create_stem_images. cbn [newaxis]. now rewrite E2.
Qed.

(** Non-vacuity. *)
Example ex_events_ok : listed_ok [[0; 3; 3]; []; [2]] 2 2 2 2.
Proof.
  unfold listed_ok, Zlen. cbn -[Z.pow]. repeat split; try lia.
  repeat constructor; cbn; lia.
Qed.

Example ex_events_images :
  create_stem_images (InCounted (E1 [[0; 3; 3]; []; [2]]) (2, 2) (2, 2)) (RMany [0; 1]) (RMany [1; 2])
    (0, 0) (1, 1) None []
  = Some (Ok [[65535 * 2; 0; 0; 0]; [65535; 0; 65535; 0]]).
Proof. vm_compute. reflexivity. Qed.

Example ex_sparse_sizes : sparse_sizes ex_sparse 2 2 2 2.
Proof. unfold sparse_sizes, ex_sparse. cbn -[Z.pow]. repeat split; lia. Qed.

Example ex_sparse_images :
  create_stem_images (InSparse ex_sparse None) (ROne 0) (ROne 1) (0, 0) (1, 1) None []
  = Some (Ok [[131070; 0; 131070; 0]]).
Proof. vm_compute. reflexivity. Qed.

Print Assumptions raw_file_stem_images.
Print Assumptions raw_array_stem_images.
Print Assumptions sparse_array_stem_images_dense.
Print Assumptions listed_events_stem_images.
Print Assumptions counted_array_in_place_refuted.
