(** C81: whatever is done with a sparse array, it holds what the same calls leave in a
    dense array.  Vocabulary in CallsSpec.v. *)
From Coq Require Import String ZArith List Bool Lia.
From Verif Require Import Base BaseFacts Float32 SparseModel SparseSpec SparseReduce SparseBin SparseSlice SparseProps
  AxisModel AxisSpec AxisProps MeanModel MeanSpec MeanProps CallsModel CallsSpec.
Import ListNotations.
Open Scope Z_scope.

Lemma or_same_fail sa o : (forall x, o <> Ok x) -> or_same sa o = sa.
Proof. destruct o; intros H; try reflexivity. now destruct (H a). Qed.

Lemma reshape_holds sa d shape : (forall x, In x shape -> 0 <= x) -> holds sa d ->
  holds (or_same sa (reshape sa shape)) (dense_reshape d shape).
Proof.
  intros Hp (W & S & F & Sl & Fu & HD). destruct d as [ds df dv dsl dfu]; cbn [d_scan d_frame d_vals d_slicing d_full] in *.
  pose proof (C39_reshape sa shape) as R. unfold reshape in *. unfold dense_reshape. cbn [d_scan d_frame d_vals d_slicing d_full].
  rewrite <- S, <- F in *.
  destruct ((Zlen shape =? 3) || (Zlen shape =? 4)); cbn [negb andb or_same] in *; [|unfold holds; auto 10].
  destruct (_ =? np_prod (sp_scan sa)); cbn [negb andb or_same] in *; [|unfold holds; auto 10].
  destruct (_ =? np_prod (sp_frame sa)); cbn [negb andb or_same] in *; [|unfold holds; auto 10].
  destruct (R _ W Hp eq_refl) as (W' & D & E1 & E2). assert (D = dv) by (rewrite HD in E1; injection E1; congruence). subst D.
  unfold holds. cbn [sp_scan sp_frame sp_slicing sp_full d_scan d_frame d_vals d_slicing d_full].
  rewrite firstn_skipn. auto 10.
Qed.

Lemma sparse_init_inv data F scan frame bits s f sa' : sparse_init data F scan frame bits s f = Ok sa' ->
  sa' = mkSparse data F scan frame bits s f.
Proof. unfold sparse_init. destruct (_ =? _); [|discriminate]. congruence. Qed.

Lemma bin_scans_flags sa f sa' : bin_scans sa f = Ok sa' -> sp_slicing sa' = sp_slicing sa /\ sp_full sa' = sp_full sa.
Proof.
  unfold bin_scans. destruct (f <=? 0); [discriminate|]. destruct (negb _); [discriminate|].
  destruct (sp_scan sa) as [|h [|w [|]]]; try discriminate.
  destruct (for_loop _ _ _) as [nd| | |]; cbn [bind]; try discriminate.
  intros E. apply sparse_init_inv in E. subst. auto.
Qed.

Lemma divides_div f x : 0 < f -> 0 <= x -> (x mod f =? 0) = true -> x = x / f * f /\ 0 <= x / f.
Proof.
  intros Hf Hx E. apply Z.eqb_eq in E. pose proof (Z.div_mod x f ltac:(lia)). split; [lia|]. apply Z.div_pos; lia.
Qed.

Lemma bin_scans_holds sa d f : f * f * sp_F sa < 2 ^ sp_bits sa -> holds sa d ->
  holds (or_same sa (bin_scans sa f)) (dense_op d (OBinScans f)).
Proof.
  intros HF (W & S & Fr & Sl & Fu & HD). destruct d as [ds df dv dsl dfu]; cbn [d_scan d_frame d_vals d_slicing d_full dense_op] in *.
  subst ds df dsl dfu.
  assert (Same : holds sa (mkDense (sp_scan sa) (sp_frame sa) dv (sp_slicing sa) (sp_full sa))) by (unfold holds; auto 10).
  destruct (sp_scan sa) as [|H [|Wd [|z t]]] eqn:S.
  - rewrite or_same_fail; [exact Same|]. intros x E. unfold bin_scans in E. rewrite S in E.
    destruct (f <=? 0); [discriminate|]. destruct (negb _); discriminate.
  - rewrite or_same_fail; [exact Same|]. intros x E. unfold bin_scans in E. rewrite S in E.
    destruct (f <=? 0); [discriminate|]. destruct (negb _); discriminate.
  - unfold divides. destruct (Z.ltb_spec 0 f); cbn [andb];
      [|rewrite or_same_fail; [exact Same|]; intros x E; unfold bin_scans in E; destruct (Z.leb_spec f 0); [discriminate|lia]].
    destruct (forallb _ _) eqn:Dv;
      [|rewrite or_same_fail; [exact Same|]; intros x E; unfold bin_scans in E; rewrite S, Dv in E; destruct (f <=? 0); discriminate].
    cbn [forallb] in Dv. apply andb_prop in Dv as [D1 D2]. apply andb_prop in D2 as [D2 _].
    assert (Hn : 0 <= H /\ 0 <= Wd).
    { destruct (wf_scan _ W) as [(n & E & _)|(n & m & E & ? & ?)]; rewrite S in E; [discriminate|]. injection E as -> ->. auto. }
    destruct (divides_div f H ltac:(lia) (proj1 Hn) D1) as [EH Hh]. destruct (divides_div f Wd ltac:(lia) (proj2 Hn) D2) as [EW Hw].
    assert (S' : sp_scan sa = [H / f * f; Wd / f * f]) by (rewrite S; congruence).
    destruct (bin_scans_ok sa f (H / f) (Wd / f) W ltac:(lia) S' Hh Hw HF) as (sa' & E & W' & S1 & S2 & _).
    destruct (C37_bin_scans sa f (H / f) (Wd / f) _ dv W ltac:(lia) Hh Hw S' HF HD) as (sa2 & D' & E' & HD' & V).
    rewrite E in E'. injection E' as <-. rewrite E. cbn [or_same]. destruct (bin_scans_flags _ _ _ E) as [Q1 Q2].
    destruct (C36_dense_values sa' W') as (D0 & E0 & L0 & _). assert (D0 = D') by (rewrite HD' in E0; injection E0; congruence). subst D0. clear E0.
    assert (HN := frame_size_nonneg sa W). unfold num_scans, frame_size in *. rewrite S1, S2 in L0. cbn [np_prod fold_right] in L0.
    unfold holds. cbn [d_scan d_frame d_vals d_slicing d_full]. do 5 (split; [assumption|]). rewrite HD'. do 2 f_equal.
    fold (np_prod (sp_frame sa)) in L0. set (N := np_prod (sp_frame sa)) in *.
    apply list_eq_zat; [rewrite L0; unfold Zlen; rewrite map_length; fold (Zlen (zseq (H / f * (Wd / f) * N))); rewrite Zlen_zseq; nia|].
    intros k Hk. rewrite L0 in Hk. rewrite zat_map_zseq by lia. unfold scan_tile.
    assert (N0 : 0 < N) by nia. assert (K : 0 <= k / N < H / f * (Wd / f)).
    { split; [apply Z.div_pos; lia|]. apply Z.div_lt_upper_bound; nia. }
    assert (W0 : 0 < Wd / f) by nia.
    rewrite <- EW in V. rewrite <- (V (k / N / (Wd / f)) ((k / N) mod (Wd / f)) (k mod N)).
    + f_equal. pose proof (Z.div_mod k N ltac:(lia)). pose proof (Z.div_mod (k / N) (Wd / f) ltac:(lia)). nia.
    + split; [apply Z.div_pos; lia|]. apply Z.div_lt_upper_bound; nia.
    + apply Z.mod_pos_bound; lia.
    + apply Z.mod_pos_bound; lia.
  - destruct (wf_scan _ W) as [(n & E & _)|(n & m & E & ? & ?)]; rewrite S in E; discriminate.
Qed.

Lemma bin_frames_holds sa d f : sound_call sa (OBinFrames f) -> holds sa d ->
  holds (or_same sa (bin_frames sa f)) (dense_op d (OBinFrames f)).
Proof.
  intros [(m & Hm & Fm) HF] (W & S & Fr & Sl & Fu & HD). destruct d as [ds df dv dsl dfu]; cbn [d_scan d_frame d_vals d_slicing d_full dense_op] in *.
  subst ds df dsl dfu.
  assert (Same : holds sa (mkDense (sp_scan sa) (sp_frame sa) dv (sp_slicing sa) (sp_full sa))) by (unfold holds; auto 10).
  rewrite Fm in *. unfold divides. destruct (Z.ltb_spec 0 f); cbn [andb];
    [|rewrite or_same_fail; [exact Same|]; intros x E; unfold bin_frames in E; destruct (Z.leb_spec f 0); [discriminate|lia]].
  destruct (forallb _ _) eqn:Dv;
    [|rewrite or_same_fail; [exact Same|]; intros x E; unfold bin_frames in E; rewrite Fm, Dv in E; destruct (f <=? 0); discriminate].
  cbn [forallb] in Dv. apply andb_prop in Dv as [D1 _].
  destruct (divides_div f m ltac:(lia) ltac:(lia) D1) as [EH Hh].
  assert (S' : sp_frame sa = [m / f * f; m / f * f]) by (rewrite Fm; congruence).
  destruct (bin_frames_ok sa f (m / f) W ltac:(lia) ltac:(nia) S') as (sa' & E & S1 & S2 & _ & Q1 & Q2 & W' & _).
  specialize (HF _ E). specialize (W' HF).
  destruct (C38_bin_frames sa f (m / f) _ dv W ltac:(lia) ltac:(nia) S' HD) as (sa2 & E' & _ & _ & V).
  rewrite E in E'. injection E' as <-. destruct (V HF) as (D' & HD' & V'). clear V. rewrite E. cbn [or_same].
  destruct (C36_dense_values sa' W') as (D0 & E0 & L0 & _). assert (D0 = D') by (rewrite HD' in E0; injection E0; congruence). subst D0. clear E0.
  assert (HP := num_scans_nonneg sa W). unfold num_scans, frame_size in *. rewrite S1, S2 in L0. rewrite Fm in V'.
  cbn [np_prod fold_right] in L0, V'. rewrite Z.mul_1_r in L0, V'.
  unfold holds. cbn [d_scan d_frame d_vals d_slicing d_full]. do 5 (split; [assumption|]). rewrite HD'. do 2 f_equal.
  fold (np_prod (sp_scan sa)) in L0. set (P := np_prod (sp_scan sa)) in *. set (N := m / f * (m / f)) in *.
  apply list_eq_zat; [rewrite L0; unfold Zlen; rewrite map_length; fold (Zlen (zseq (P * N))); rewrite Zlen_zseq; nia|].
  intros k Hk. rewrite L0 in Hk. rewrite zat_map_zseq by lia. unfold frame_tile.
  assert (N0 : 0 < N) by nia. assert (K : 0 <= k / N < P).
  { split; [apply Z.div_pos; lia|]. apply Z.div_lt_upper_bound; nia. }
  assert (W0 : 0 < m / f) by nia. pose proof (Z.mod_pos_bound k N N0).
  rewrite <- EH in V'.
  rewrite <- (V' (k / N) (k mod N / (m / f)) ((k mod N) mod (m / f))).
  - f_equal. pose proof (Z.div_mod k N ltac:(lia)). pose proof (Z.div_mod (k mod N) (m / f) ltac:(lia)). nia.
  - exact K.
  - split; [apply Z.div_pos; lia|]. apply Z.div_lt_upper_bound; [lia|]. fold N. lia.
  - apply Z.mod_pos_bound; lia.
Qed.

Lemma np_select_none_ok s ks : shape_ok s -> Zlen ks <= Zlen s ->
  existsb (fun k => negb (is_none_slice k)) ks = false -> np_select s ks = Ok (s, zseq (np_prod s)).
Proof.
  intros Hs Hl Hn.
  assert (E : exists r, np_select s ks = Ok r).
  { assert (F : forall k, In k ks -> k = KSlice None None None).
    { intros k Hk. apply is_none_eq. destruct (is_none_slice k) eqn:X; [reflexivity|].
      assert (existsb (fun k => negb (is_none_slice k)) ks = true) by (apply existsb_exists; exists k; rewrite X; auto). congruence. }
    destruct ks as [|k1 [|k2 [|k3 ks]]].
    - destruct Hs as [[n [-> _]]|[n [m [-> _]]]]; cbn [np_select]; eauto.
    - rewrite (F k1) by now left. rewrite np_select_all by exact Hs. eauto.
    - rewrite (F k1), (F k2) by (cbn; auto).
      destruct Hs as [[n [-> Hn']]|[n [m [-> [Hn' Hm]]]]]; [unfold Zlen in Hl; cbn in Hl; lia|].
      cbn [np_select axis_select]. rewrite !slice_positions_all by lia. cbn [bind]. eauto.
    - rewrite !Zlen_cons in Hl. pose proof (Zlen_nonneg ks). destruct Hs as [[n [-> _]]|[n [m [-> _]]]]; unfold Zlen in Hl at 2; cbn [length] in Hl; lia. }
  destruct E as [[s' l] E]. destruct (np_select_none _ _ _ _ Hs Hn E) as [-> ->]. exact E.
Qed.

(** A selection that gives a sparse array. *)
Lemma slice_sparse_inv sa sk fk sa' : wf sa -> Zlen sk <= Zlen (sp_scan sa) -> Zlen fk <= Zlen (sp_frame sa) ->
  slice_sparse sa sk fk = Ok (Sparse sa') ->
  exists x ss sl y fs fl, np_select (sp_scan sa) sk = Ok (x :: ss, sl) /\ np_select (sp_frame sa) fk = Ok (y :: fs, fl) /\
    sp_scan sa' = x :: ss /\ sp_frame sa' = y :: fs /\ sp_slicing sa' = sp_slicing sa /\ sp_full sa' = sp_full sa.
Proof.
  intros W L1 L2 E. unfold slice_sparse in E.
  assert (ND : forall r, slice_dense sa sk fk = Ok r -> r <> Sparse sa').
  { intros r. unfold slice_dense. destruct (np_select _ sk) as [[]| | |]; cbn [bind]; try discriminate.
    destruct (np_select _ fk) as [[]| | |]; cbn [bind]; try discriminate. destruct (_ && _); try discriminate.
    destruct (mapM _ _); cbn [bind]; try discriminate. intros Q. injection Q as <-. discriminate. }
  assert (A : exists s ps rows, np_select (sp_scan sa) sk = Ok (s, ps) /\
     (let* (new_scan, new_rows) :=
       if existsb (fun k => negb (is_none_slice k)) sk then
         let* (s, ps) := np_select (sp_scan sa) sk in
         match s with [] => Ok ([], []) | _ => let* rows := np_take (sp_data sa) ps in Ok (s, rows) end
       else Ok (sp_scan sa, sp_data sa) in Ok (new_scan, new_rows)) = Ok (s, rows)).
  { destruct (existsb (fun k => negb (is_none_slice k)) sk) eqn:M.
    - destruct (np_select (sp_scan sa) sk) as [[s ps]| | |]; cbn [bind] in *; try discriminate.
      destruct s as [|x ss]; [exists [], ps, []; auto|].
      destruct (np_take (sp_data sa) ps) as [rows| | |]; cbn [bind] in *; try discriminate. exists (x :: ss), ps, rows. auto.
    - rewrite (np_select_none_ok _ _ (wf_scan _ W) L1 M). cbn [bind]. eauto 6. }
  destruct A as (s & ps & rows & Es & A).
  match type of E with bind ?o _ = _ => destruct o as [[s0 rows0]| | |]; cbn [bind] in A, E; try discriminate end.
  injection A as -> ->. destruct s as [|x ss]; [now destruct (ND _ E)|].
  assert (B : exists t px, np_select (sp_frame sa) fk = Ok (t, px) /\
     exists mp, (if existsb (fun k => negb (is_none_slice k)) fk then
        let* (s, px) := np_select (sp_frame sa) fk in
        let* mp := np_put (repeat (-1) (Z.to_nat (frame_size sa))) px (zseq (Zlen px)) in Ok (s, Some mp)
      else Ok (sp_frame sa, None)) = Ok (t, mp)).
  { destruct (existsb (fun k => negb (is_none_slice k)) fk) eqn:M.
    - destruct (np_select (sp_frame sa) fk) as [[t px]| | |]; cbn [bind] in *; try discriminate.
      destruct (np_put _ _ _) as [mp| | |]; cbn [bind] in *; try discriminate. eauto 6.
    - rewrite (np_select_none_ok _ _ (wf_frame _ W) L2 M). eauto 6. }
  destruct B as (t & px & Ef & mp & B). rewrite B in E. cbn [bind] in E.
  destruct t as [|y fs]; [now destruct (ND _ E)|].
  match type of E with bind ?o _ = _ => destruct o as [nd| | |]; cbn [bind] in E; try discriminate end.
  destruct (sparse_init _ _ _ _ _ _ _) as [r| | |] eqn:I; cbn [bind] in E; try discriminate.
  apply sparse_init_inv in I. injection E as <-. subst r. exists x, ss, ps, y, fs, px. auto 10.
Qed.

Lemma slice_sparse_sparse sa sk fk x ss sl y fs fl r : wf sa ->
  np_select (sp_scan sa) sk = Ok (x :: ss, sl) -> np_select (sp_frame sa) fk = Ok (y :: fs, fl) ->
  slice_sparse sa sk fk = Ok r -> exists sa', r = Sparse sa'.
Proof.
  intros W Es Ef E. unfold slice_sparse in E. rewrite Es, Ef in E. cbn [bind] in E.
  assert (NS : sp_scan sa <> []) by (destruct (wf_scan _ W) as [[n [-> _]]|[n [m [-> _]]]]; discriminate).
  assert (NF : sp_frame sa <> []) by (destruct (wf_frame _ W) as [[n [-> _]]|[n [m [-> _]]]]; discriminate).
  match type of E with bind ?o _ = _ => assert (A : forall s rows, o = Ok (s, rows) -> s <> []);
    [|destruct o as [[s0 rows0]| | |]; cbn [bind] in E; try discriminate] end.
  { destruct (existsb _ sk); [destruct (np_take _ _); cbn [bind]; try discriminate|]; intros s rows Q; injection Q as <- _; congruence. }
  specialize (A _ _ eq_refl). destruct s0 as [|x0 s0]; [contradiction|].
  match type of E with bind ?o _ = _ => assert (B : forall t mp, o = Ok (t, mp) -> t <> []);
    [|destruct o as [[t0 mp0]| | |]; cbn [bind] in E; try discriminate] end.
  { destruct (existsb _ fk); [destruct (np_put _ _ _); cbn [bind]; try discriminate|]; intros t mp Q; injection Q as <- _; congruence. }
  specialize (B _ _ eq_refl). destruct t0 as [|y0 t0]; [contradiction|].
  match type of E with bind ?o _ = _ => destruct o as [nd| | |]; cbn [bind] in E; try discriminate end.
  destruct (sparse_init _ _ _ _ _ _ _) as [r'| | |]; cbn [bind] in E; try discriminate.
  injection E as <-. eauto.
Qed.

Lemma select_holds sa d ks order : sound_call sa (OSelect ks) -> holds sa d ->
  holds (do_op order sa (OSelect ks)) (dense_op d (OSelect ks)).
Proof.
  intros Ok0 (W & S & Fr & Sl & Fu & HD). destruct d as [ds df dv dsl dfu]; cbn [d_scan d_frame d_vals d_slicing d_full dense_op do_op] in *.
  subst ds df dsl dfu.
  assert (Same : holds sa (mkDense (sp_scan sa) (sp_frame sa) dv (sp_slicing sa) (sp_full sa))) by (unfold holds; auto 10).
  unfold getitem. change (split_keys (sp_scan sa) (sp_frame sa) ks) with (split_slices sa ks).
  cbn [sound_call] in Ok0.
  destruct (split_slices sa ks) as [[sk fk]| | |] eqn:Ek; cbn [bind]; try (destruct (sp_slicing sa); exact Same).
  destruct (Ok0 sk fk eq_refl) as [L2 ND]. pose proof (split_len sa ks sk fk W Ek) as L1.
  assert (Dn : forall r, slice_dense sa sk fk = Ok r -> forall sa', r <> Sparse sa').
  { intros r. unfold slice_dense. destruct (np_select _ sk) as [[]| | |]; cbn [bind]; try discriminate.
    destruct (np_select _ fk) as [[]| | |]; cbn [bind]; try discriminate. destruct (_ && _); try discriminate.
    destruct (mapM _ _); cbn [bind]; try discriminate. intros Q. injection Q as <-. discriminate. }
  destruct (sp_slicing sa) eqn:Es.
  - destruct (slice_sparse sa sk fk) as [[sh vs|sa']| | |] eqn:E.
    + destruct (np_select (sp_scan sa) sk) as [[[|x ss] sl]| | |] eqn:E1; try exact Same.
      destruct (np_select (sp_frame sa) fk) as [[[|y fs] fl]| | |] eqn:E2; try exact Same.
      destruct (slice_sparse_sparse _ _ _ _ _ _ _ _ _ _ W E1 E2 E) as [? ?]. discriminate.
    + destruct (slice_sparse_inv _ _ _ _ W L1 L2 E) as (x & ss & sl & y & fs & fl & E1 & E2 & Q1 & Q2 & Q3 & Q4).
      rewrite E1, E2. rewrite Es in Q3.
      destruct (C39_slice_sparse sa ks sk fk _ _ _ _ _ _ W Es HD Ek E1 E2 (ND _ _ E2)) as (r & G & R).
      unfold getitem in G. rewrite Ek in G. cbn [bind] in G. rewrite Es, E in G. injection G as <-.
      destruct R as [R|(sb & R & W' & T)]; [discriminate|]. injection R as <-.
      unfold holds. cbn [d_scan d_frame d_vals d_slicing d_full]. do 5 (split; [assumption|]). exact T.
    + destruct (np_select (sp_scan sa) sk) as [[[|x ss] sl]| | |] eqn:E1; try exact Same.
      destruct (np_select (sp_frame sa) fk) as [[[|y fs] fl]| | |] eqn:E2; try exact Same.
      destruct (slice_sparse_ok sa sk fk _ _ _ _ W E1 E2 (ND _ _ eq_refl)) as (r & G & _). congruence.
    + destruct (np_select (sp_scan sa) sk) as [[[|x ss] sl]| | |] eqn:E1; try exact Same.
      destruct (np_select (sp_frame sa) fk) as [[[|y fs] fl]| | |] eqn:E2; try exact Same.
      destruct (slice_sparse_ok sa sk fk _ _ _ _ W E1 E2 (ND _ _ eq_refl)) as (r & G & _). congruence.
    + destruct (np_select (sp_scan sa) sk) as [[[|x ss] sl]| | |] eqn:E1; try exact Same.
      destruct (np_select (sp_frame sa) fk) as [[[|y fs] fl]| | |] eqn:E2; try exact Same.
      destruct (slice_sparse_ok sa sk fk _ _ _ _ W E1 E2 (ND _ _ eq_refl)) as (r & G & _). congruence.
  - destruct (slice_dense sa sk fk) as [[sh vs|sa']| | |] eqn:E; try exact Same.
    now destruct (Dn _ eq_refl sa').
Qed.

Lemma read_same order sa r : read order sa r = sa.
Proof.
  destruct r; cbn [read]; [now destruct sa|reflexivity|apply C78_unchanged|apply C80_unchanged].
Qed.

(** One call. *)
Theorem C81_call order sa d o : sound_call sa o -> holds sa d -> holds (do_op order sa o) (dense_op d o).
Proof.
  intros C H. destruct o as [shape| |f|f|ks|b|b|r].
  - now apply reshape_holds.
  - cbn [do_op dense_op]. unfold ravel_scans. pose proof H as (W & S & F & _).
    rewrite <- S, <- F. apply reshape_holds; [|exact H].
    intros x [<-|Hx]; [exact (num_scans_nonneg sa W)|].
    destruct (wf_frame _ W) as [(n & E & Hn)|(n & m & E & Hn & Hm)]; rewrite E in Hx; cbn in Hx; intuition lia.
  - now apply bin_scans_holds.
  - now apply bin_frames_holds.
  - now apply select_holds.
  - destruct H as (W & S & F & _ & Fu & HD). unfold holds. cbn [do_op dense_op with_slicing sp_scan sp_frame sp_slicing sp_full d_scan d_frame d_vals d_slicing d_full].
    split; [destruct W; constructor; assumption|]. do 4 (split; [auto|]). exact HD.
  - destruct H as (W & S & F & Sl & _ & HD). unfold holds. cbn [do_op dense_op with_full sp_scan sp_frame sp_slicing sp_full d_scan d_frame d_vals d_slicing d_full].
    split; [destruct W; constructor; assumption|]. do 4 (split; [auto|]). exact HD.
  - cbn [do_op dense_op]. now rewrite read_same.
Qed.

(** C81.  After any history of calls the sparse array has the shape, the settings and
    the values that the same calls leave in the dense array. *)
Theorem C81_history order ops : forall sa d, holds sa d -> sound_history order sa ops ->
  holds (run_ops order sa ops) (run_dense d ops).
Proof.
  induction ops as [|o t IH]; intros sa d H C; [exact H|]. destruct C as [C1 C2].
  apply (IH (do_op order sa o) (dense_op d o)); [now apply C81_call|exact C2].
Qed.

(** C81.  A history starts with whatever the array holds. *)
Theorem C81_start sa : wf sa -> exists D, Zlen D = num_scans sa * frame_size sa /\
  holds sa (mkDense (sp_scan sa) (sp_frame sa) D (sp_slicing sa) (sp_full sa)).
Proof.
  intros W. destruct (C36_dense_values sa W) as (D & E & L & _). exists D. split; [exact L|].
  unfold holds. auto 10.
Qed.

(** C81.  After any history the sum over any axes is that of the dense array. *)
Theorem C81_sum order ops sa d a b : holds sa d -> sound_history order sa ops ->
  let sa' := run_ops order sa ops in let d' := run_dense d ops in
  d_full d' = true \/ whole_scan sa' a \/ whole_frame sa' a ->
  fst (py_reduce RSum sa' a (Some b)) = np_reduce RSum (sp_bits sa') (d_scan d' ++ d_frame d') (d_vals d') (axes_meant sa' a) (Some b).
Proof.
  intros H C sa' d' Hf. destruct (C81_history order ops sa d H C) as (W & S & F & Sl & Fu & HD).
  apply C78_sum; [exact W|exact HD|]. fold sa' d' in Fu. now rewrite Fu.
Qed.

(** C81.  After any history a selection has the values NumPy selects from the dense array. *)
Theorem C81_select order ops sa d ks sk fk ss sl fs fl : holds sa d -> sound_history order sa ops ->
  let d' := run_dense d ops in d_slicing d' = true ->
  split_keys (d_scan d') (d_frame d') ks = Ok (sk, fk) ->
  np_select (d_scan d') sk = Ok (ss, sl) -> np_select (d_frame d') fk = Ok (fs, fl) -> NoDup fl ->
  let vals := outer (np_prod (d_frame d')) (d_vals d') sl fl in
  exists r, getitem (run_ops order sa ops) ks = Ok r /\
    (r = Dense (ss ++ fs) vals \/ exists sa', r = Sparse sa' /\ to_dense sa' = Ok (Dense (ss ++ fs) vals)).
Proof.
  intros H C d' Hs Ek E1 E2 ND vals. destruct (C81_history order ops sa d H C) as (W & S & F & Sl & Fu & HD).
  fold d' in S, F, Sl, Fu, HD. rewrite <- S in E1. rewrite <- F in E2. rewrite <- S, <- F in Ek. rewrite Hs in Sl. subst vals. rewrite <- F.
  destruct (C39_slice_sparse _ ks sk fk ss sl fs fl _ _ W Sl HD Ek E1 E2 ND) as (r & G & R).
  exists r. split; [exact G|]. destruct R as [R|(sb & R & _ & T)]; [now left|right; eauto].
Qed.

(** C81.  Two arrays with the same dense values cannot be told apart, however their
    events are divided into frames. *)
Theorem C81_same_values order ops sa sb d : holds sa d -> holds sb d ->
  sound_history order sa ops -> sound_history order sb ops ->
  sp_shape (run_ops order sa ops) = sp_shape (run_ops order sb ops) /\
  to_dense (run_ops order sa ops) = to_dense (run_ops order sb ops).
Proof.
  intros A B CA CB. destruct (C81_history order ops sa d A CA) as (_ & S & F & _ & _ & E).
  destruct (C81_history order ops sb d B CB) as (_ & S' & F' & _ & _ & E').
  unfold sp_shape. split; congruence.
Qed.

(** ** Findings *)

(** C81.  reshape accepts two negative dimensions: every array can be given a shape that
    no array has, and to_dense gives a result of that shape. *)
Theorem C81_negative_shape_refuted order sa h w : sp_scan sa = [h; w] -> Zlen (sp_frame sa) = 2 ->
  0 < h -> 0 < w -> sp_scan (do_op order sa (OReshape (- h :: - w :: sp_frame sa))) = [- h; - w].
Proof.
  intros S F Hh Hw. cbn [do_op]. unfold reshape. rewrite !Zlen_cons, F. change (1 + (1 + 2)) with 4.
  cbn [Z.eqb orb negb Pos.eqb]. change (Z.to_nat (4 - 2)) with 2%nat. cbn [firstn skipn]. rewrite S. cbn [np_prod fold_right].
  replace (- h * (- w * 1)) with (h * (w * 1)) by lia. rewrite !Z.eqb_refl. reflexivity.
Qed.

(** C81.  With one-dimensional frames, a colon too many is not noticed by sparse slicing:
    an array of two dimensions can be indexed with three keys, which NumPy refuses. *)
Theorem C81_extra_key_refuted sa n m : wf sa -> sp_scan sa = [n] -> sp_frame sa = [m] -> sp_slicing sa = true ->
  let all := KSlice None None None in
  getitem sa [all; all; all] = Ok (Sparse sa) /\ np_select (sp_frame sa) [all; all] = index_error.
Proof.
  intros W S F Sl all. split; [|rewrite F; reflexivity]. pose proof (wf_len _ W) as L.
  destruct sa as [data F0 scan frame bits sl fu]. cbn [sp_scan sp_frame sp_slicing sp_data] in *. subst scan frame sl.
  match goal with |- getitem ?a _ = _ => assert (Q : split_slices a [all; all; all] = Ok ([all], [all; all])) by reflexivity end.
  unfold getitem. rewrite Q. cbn [bind sp_slicing]. unfold slice_sparse, sparse_init, all.
  cbn [existsb is_none_slice negb orb bind sp_scan sp_frame sp_data sp_F sp_bits sp_slicing sp_full]. rewrite L, Z.eqb_refl. reflexivity.
Qed.

(** ** Concrete cases *)

(** Binning, reshaping, selecting and reading, with a call that raises in between. *)
Definition ex_ops : list op :=
  [OFull false; ORead (RdReduce RSum (AxSeq [0; 1]) (Some 64)); OBinScans 3; OReshape [4; 2; 2]; OReshape [1; 4; 2; 2];
   OSelect [KSlice None None None; KSlice (Some 1) None None]; OBinFrames 2; OSlicing false; OFull true].
Definition ex_order : list float32 -> float32 := fun l => hd (f_of_Z 0) l.
Definition ex_dense : dense := mkDense [2; 2] [2; 2] [1; 0; 0; 2; 0; 1; 0; 0; 2; 2; 2; 2; 1; 0; 2; 0] true true.

Example ex_history_holds : holds ex_sparse ex_dense.
Proof. split; [exact ex_sparse_wf|]. repeat split. Qed.
Example ex_history_sound : sound_history ex_order ex_sparse ex_ops.
Proof.
  cbn [sound_history ex_ops].
  split; [exact I|]. split; [exact I|]. split; [vm_compute; reflexivity|].
  split; [intros x Hx; cbn in Hx; intuition lia|]. split; [intros x Hx; cbn in Hx; intuition lia|].
  split.
  { intros sk fk E. vm_compute in E. injection E as <- <-. split; [vm_compute; discriminate|].
    intros fs fl E. vm_compute in E. injection E as <- <-. repeat constructor; cbn; intuition lia. }
  split; [split; [exists 2; split; [lia|reflexivity]|intros sa' E; vm_compute in E; injection E as <-; reflexivity]|].
  split; [exact I|]. split; exact I.
Qed.
Example ex_history_dense : run_dense ex_dense ex_ops = mkDense [1; 3] [1; 1] [1; 8; 3] false true.
Proof. vm_compute. reflexivity. Qed.
Example ex_history_run : to_dense (run_ops ex_order ex_sparse ex_ops) = Ok (Dense [1; 3; 1; 1] [1; 8; 3]).
Proof. vm_compute. reflexivity. Qed.
Example ex_history_binned : run_dense ex_dense [OBinScans 2] = mkDense [1; 1] [2; 2] [4; 3; 4; 4] true true.
Proof. vm_compute. reflexivity. Qed.
Example ex_extra_key : getitem (mkSparse [[[0]]; [[1]]] 1 [2] [3] 32 true true) [KSlice (Some 0) (Some 1) None; KSlice None None None; KSlice None None None]
  = Ok (Sparse (mkSparse [[[0]]] 1 [1] [3] 32 true true)).
Proof. vm_compute. reflexivity. Qed.

Print Assumptions C81_history.
Print Assumptions C81_call.
Print Assumptions C81_start.
Print Assumptions C81_sum.
Print Assumptions C81_select.
Print Assumptions C81_same_values.
Print Assumptions C81_negative_shape_refuted.
Print Assumptions C81_extra_key_refuted.
