(** C81 with conditions that speak only of the dense program: how far binning can increase
    the number of frames of a position. *)
From Coq Require Import String ZArith List Bool Lia.
From Verif Require Import Base BaseFacts Float32 SparseModel SparseSpec SparseProofs SparseReduce SparseBin SparseSlice SparseProps
  AxisModel MeanModel CallsModel CallsSpec CallsProps.
Import ListNotations.
Open Scope list_scope.
Open Scope Z_scope.

Lemma peel_len fuel : forall uc r K, 0 <= K -> (forall x, In x uc -> snd x <= K) -> peel fuel uc = Ok r -> Zlen r <= K.
Proof.
  induction fuel as [|n IH]; intros uc r K HK H E; cbn [peel] in E.
  - destruct (existsb _ uc); [discriminate|]. injection E as <-. exact HK.
  - destruct (existsb _ uc) eqn:X; [|injection E as <-; exact HK].
    destruct (peel n _) as [t| | |] eqn:P; cbn [bind] in E; try discriminate. injection E as <-. rewrite Zlen_cons.
    apply existsb_exists in X as (x & Hx & Q). apply Z.ltb_lt in Q. specialize (H x Hx) as H1.
    assert (Zlen t <= K - 1); [|lia]. apply (IH _ _ (K - 1) ltac:(lia)) in P; [exact P|].
    intros y Hy. apply in_map_iff in Hy as (z & <- & Hz). cbn [snd]. specialize (H z Hz). lia.
Qed.

Lemma uc_cnt l x : In x (np_unique_counts l) -> snd x = cnt l (fst x).
Proof.
  intros H. rewrite uc_eq in H. apply in_map_iff in H as (k & <- & _). reflexivity.
Qed.

Lemma cnt_const {A} (q p : Z) (l : list A) : cnt (map (fun _ => q) l) p = if p =? q then Zlen l else 0.
Proof.
  induction l as [|x t IH]; [now destruct (p =? q)|]. cbn [map]. rewrite cnt_cons, IH, Zlen_cons. destruct (p =? q); lia.
Qed.

(** If no value occurs more than K times in a row, each row gives at most K - 1 more. *)
Lemma split_duplicates_count K rows positions r e ep : 1 <= K -> List.length rows = List.length positions ->
  (forall row k, In row rows -> cnt row k <= K) -> split_duplicates rows positions = Ok (r, (e, ep)) ->
  forall p, cnt ep p <= (K - 1) * cnt positions p.
Proof.
  intros HK HL HC. unfold split_duplicates, enumerate, zseq, Zlen. rewrite Nat2Z.id.
  set (body := fun '(i, row) '(ret, (extra, extra_pos)) => _).
  assert (G : forall rows2 pos2 pos1 ret ex exp r' e' ep', List.length rows2 = List.length pos2 ->
    (forall row k, In row rows2 -> cnt row k <= K) ->
    (forall p, cnt exp p <= (K - 1) * cnt pos1 p) -> positions = pos1 ++ pos2 ->
    for_each (combine (map Z.of_nat (seq (List.length pos1) (List.length rows2))) rows2) body (ret, (ex, exp)) = Ok (r', (e', ep')) ->
    forall p, cnt ep' p <= (K - 1) * cnt positions p).
  { induction rows2 as [|row rows2 IH]; intros pos2 pos1 ret ex exp r' e' ep' H2 HR HS HP E.
    - destruct pos2; [|discriminate]. cbn in E. injection E as <- <- <-. rewrite HP, app_nil_r. exact HS.
    - destruct pos2 as [|q pos2]; [discriminate|]. cbn [List.length seq map combine for_each] in E.
      assert (R : rd positions (Z.of_nat (List.length pos1)) = Ok q) by (rewrite HP; apply rd_mid).
      assert (B : body (Z.of_nat (List.length pos1), row) (ret, (ex, exp)) =
        let* ex1 := peel (List.length row) (map (fun p => (fst p, snd p - 1)) (np_unique_counts row)) in
        Ok (ret ++ [map fst (np_unique_counts row)], (ex ++ ex1, exp ++ map (fun _ => q) ex1))) by (unfold body; rewrite R; reflexivity).
      rewrite B in E. destruct (peel _ _) as [ex1| | |] eqn:P; cbn [bind] in E; try discriminate.
      assert (LE : Zlen ex1 <= K - 1).
      { apply (peel_len _ _ _ (K - 1) ltac:(lia)) in P; [exact P|]. intros x Hx. apply in_map_iff in Hx as (y & <- & Hy). cbn [snd].
        rewrite (uc_cnt _ _ Hy). specialize (HR row (fst y) (or_introl eq_refl)). lia. }
      replace (S (List.length pos1)) with (List.length (pos1 ++ [q])) in E by (rewrite app_length; cbn [List.length]; lia).
      refine (IH pos2 (pos1 ++ [q]) _ _ _ r' e' ep' _ _ _ _ E); [cbn in H2; lia|intros; apply HR; now right| |now rewrite <- app_assoc].
      intros p. rewrite !cnt_app, cnt_const, cnt_cons. change (cnt [] p) with 0. specialize (HS p). destruct (p =? q); nia. }
  intros E. exact (G rows positions [] [] [] [] r e ep HL HC ltac:(intros; cbn; lia) eq_refl E).
Qed.

Lemma zsum_le_const l (g : Z -> Z) c : (forall x, In x l -> g x <= c) -> zsum (map g l) <= Zlen l * c.
Proof.
  induction l as [|x t IH]; intros H; [cbn; lia|]. cbn [map zsum]. rewrite Zlen_cons. specialize (IH (fun y Hy => H y (or_intror Hy))).
  specialize (H x (or_introl eq_refl)). lia.
Qed.

Lemma fbin_cnt_le m f fr v : 0 < f -> 0 < m -> frame_ok ((m * f) * (m * f)) fr -> cnt (map (fbin (m * f) f) fr) v <= f * f.
Proof.
  intros Hf Hm [ND R]. destruct (in_dec Z.eq_dec v (map (fbin (m * f) f) fr)) as [I|I]; [|rewrite cnt_notin by exact I; nia].
  assert (Hv : 0 <= v < m * m).
  { apply in_map_iff in I as (x & <- & Hx). apply fbin_range; auto. }
  pose proof (Z.div_mod v m ltac:(lia)) as Dm. pose proof (Z.mod_pos_bound v m Hm).
  assert (0 <= v / m < m) by (split; [apply Z.div_pos; lia|apply Z.div_lt_upper_bound; lia]).
  replace v with (v / m * m + v mod m) by lia. rewrite fbin_cnt by auto.
  transitivity (Zlen (zseq f) * f); [|rewrite Zlen_zseq; lia]. apply zsum_le_const. intros a _.
  transitivity (Zlen (zseq f) * 1); [|rewrite Zlen_zseq; lia]. apply zsum_le_const. intros b _.
  rewrite cnt_nodup by exact ND. destruct (mem _ _); lia.
Qed.

(** C81.  Binning frames by f multiplies the number of frames of a position by f * f at most. *)
Theorem C81_bin_frames_bound sa f m sa' : wf sa -> 0 < f -> 0 < m -> sp_frame sa = [m * f; m * f] ->
  bin_frames sa f = Ok sa' -> sp_F sa' <= f * f * sp_F sa.
Proof.
  intros W Hf Hm HF. unfold bin_frames. rewrite HF.
  destruct (Z.leb_spec f 0); [lia|].
  cbn [forallb negb andb]. rewrite Z_mod_mult, Z.eqb_refl. cbn [andb negb].
  change (fun x => x / (m * f) / f * (m * f / f) + x mod (m * f) / f) with (fbin (m * f) f).
  set (data := concat (sp_data sa)). set (rows := map (map (fbin (m * f) f)) data).
  set (positions := flat_map _ (zseq (num_scans sa))).
  pose proof (num_scans_nonneg sa W) as HP. pose proof (wf_F sa W) as HF0.
  pose proof (wf_len sa W) as HLen. fold (num_scans sa) in HLen.
  destruct (combine_positions (sp_data sa) (sp_F sa) 0 (wf_rows sa W)) as [_ El].
  assert (Ez : map Z.of_nat (seq 0 (List.length (sp_data sa))) = zseq (num_scans sa)).
  { unfold zseq. do 2 f_equal. rewrite <- HLen. unfold Zlen. now rewrite Nat2Z.id. }
  rewrite Ez in El. fold positions in El. fold data in El.
  assert (HLr : List.length rows = List.length positions) by (unfold rows; rewrite map_length; exact El).
  assert (Hcp : forall p, cnt positions p <= sp_F sa).
  { intros p. unfold positions. rewrite cnt_positions by lia. destruct (_ && _); lia. }
  destruct (split_duplicates rows positions) as [[ret [ex exp]]| | |] eqn:E; cbn [bind]; try discriminate.
  assert (Hex : forall p, cnt exp p <= (f * f - 1) * cnt positions p).
  { apply (split_duplicates_count (f * f) rows positions ret ex exp ltac:(nia) HLr); [|exact E].
    intros row k Hr. unfold rows in Hr. apply in_map_iff in Hr as (fr & <- & Hfr). apply fbin_cnt_le; auto.
    apply in_concat_rows in Hfr as (r0 & Hr0 & Hfr). pose proof (wf_frames sa W r0 fr Hr0 Hfr) as O. rewrite HF in O.
    replace (np_prod [m * f; m * f]) with (m * f * (m * f)) in O by (cbn [np_prod fold_right]; lia). exact O. }
  assert (HK : 1 <= f * f) by nia.
  assert (Hper : forall per, match ex with [] => Ok (sp_F sa)
      | _ => np_max (map snd (np_unique_counts (positions ++ exp))) end = Ok per -> per <= f * f * sp_F sa).
  { intros per. destruct ex as [|e0 ex0]; [intros Q; injection Q as <-; nia|].
    intros Q. destruct (positions ++ exp) as [|y l] eqn:N; [cbn in Q; discriminate|]. rewrite <- N in Q.
    destruct (np_max_counts (positions ++ exp)) as (mx & Em & _ & p & _ & H2); [rewrite N; discriminate|].
    rewrite Q in Em. injection Em as <-. rewrite H2, cnt_app. specialize (Hex p). specialize (Hcp p). nia. }
  match goal with |- bind ?o _ = _ -> _ => destruct o as [per| | |] eqn:Ep; cbn [bind]; try discriminate end.
  specialize (Hper per eq_refl).
  destruct (place _ _ _ _); cbn [bind]; try discriminate. intros I. apply sparse_init_inv in I. subst sa'. exact Hper.
Qed.

(** ** Conditions on the dense program alone *)

(** [G] bounds the number of frames of a position. *)
Definition plain_call (d : dense) (G bits : Z) (o : op) : Prop :=
  match o with
  | OReshape shape => forall x, In x shape -> 0 <= x
  | OBinScans f => f * f * G < 2 ^ bits
  | OBinFrames f => (exists m, 0 < m /\ d_frame d = [m; m]) /\ f * f * G < 2 ^ bits
  | OSelect ks => forall sk fk, split_keys (d_scan d) (d_frame d) ks = Ok (sk, fk) ->
      Zlen fk <= Zlen (d_frame d) /\ forall fs fl, np_select (d_frame d) fk = Ok (fs, fl) -> NoDup fl
  | _ => True
  end.
Definition grow (G : Z) (o : op) : Z :=
  match o with OBinScans f | OBinFrames f => Z.max G (f * f * G) | _ => G end.
Fixpoint plain_history (d : dense) (G bits : Z) (ops : list op) : Prop :=
  match ops with
  | [] => True
  | o :: t => plain_call d G bits o /\ plain_history (dense_op d o) (grow G o) bits t
  end.

Lemma bin_scans_size sa f sa' : bin_scans sa f = Ok sa' -> sp_bits sa' = sp_bits sa /\ sp_F sa' = f * f * sp_F sa.
Proof.
  unfold bin_scans. destruct (f <=? 0); [discriminate|]. destruct (negb _); [discriminate|].
  destruct (sp_scan sa) as [|h [|w [|]]]; try discriminate.
  destruct (for_loop _ _ _) as [nd| | |]; cbn [bind]; try discriminate.
  intros E. apply sparse_init_inv in E. subst. auto.
Qed.
Lemma reshape_size sa shape sa' : reshape sa shape = Ok sa' -> sp_bits sa' = sp_bits sa /\ sp_F sa' = sp_F sa.
Proof.
  unfold reshape. destruct (negb _); [discriminate|]. destruct (negb _); [discriminate|]. destruct (negb _); [discriminate|].
  intros E. injection E as <-. auto.
Qed.
Lemma slice_sparse_size sa sk fk sa' : slice_sparse sa sk fk = Ok (Sparse sa') -> sp_bits sa' = sp_bits sa /\ sp_F sa' = sp_F sa.
Proof.
  assert (ND : slice_dense sa sk fk <> Ok (Sparse sa')).
  { unfold slice_dense. destruct (np_select _ sk) as [[]| | |]; cbn [bind]; try discriminate.
    destruct (np_select _ fk) as [[]| | |]; cbn [bind]; try discriminate. destruct (_ && _); try discriminate.
    destruct (mapM _ _); cbn [bind]; discriminate. }
  unfold slice_sparse. intros E.
  match type of E with bind ?o _ = _ => destruct o as [[s0 rows0]| | |]; cbn [bind] in E; try discriminate end.
  destruct s0; [contradiction|].
  match type of E with bind ?o _ = _ => destruct o as [[t0 mp]| | |]; cbn [bind] in E; try discriminate end.
  destruct t0; [contradiction|].
  match type of E with bind ?o _ = _ => destruct o as [nd| | |]; cbn [bind] in E; try discriminate end.
  destruct (sparse_init _ _ _ _ _ _ _) as [r| | |] eqn:I; cbn [bind] in E; try discriminate.
  apply sparse_init_inv in I. injection E as <-. subst r. auto.
Qed.
Lemma bin_frames_inv sa f sa' : bin_frames sa f = Ok sa' ->
  0 < f /\ forallb (fun x => x mod f =? 0) (sp_frame sa) = true /\ sp_bits sa' = sp_bits sa.
Proof.
  unfold bin_frames. destruct (Z.leb_spec f 0); [discriminate|]. destruct (forallb _ _) eqn:D; cbn [negb]; [|discriminate].
  destruct (sp_frame sa) as [|a [|b [|]]]; try discriminate.
  destruct (split_duplicates _ _) as [[ret [ex exp]]| | |]; cbn [bind]; try discriminate.
  match goal with |- bind ?o _ = _ -> _ => destruct o; cbn [bind]; try discriminate end.
  destruct (place _ _ _ _); cbn [bind]; try discriminate. intros I. apply sparse_init_inv in I. subst sa'. split; [lia|auto].
Qed.

Lemma plain_step order sa d G bits o : holds sa d -> sp_F sa <= G -> sp_bits sa = bits -> plain_call d G bits o ->
  sound_call sa o /\ sp_F (do_op order sa o) <= grow G o /\ sp_bits (do_op order sa o) = bits.
Proof.
  intros (W & S & F & _) HG HB P. pose proof (wf_F _ W) as F0.
  destruct o as [shape| |f|f|ks|b|b|r]; cbn [plain_call sound_call do_op grow] in *.
  - split; [exact P|]. destruct (reshape sa shape) as [x| | |] eqn:E; cbn [or_same]; auto.
    apply reshape_size in E as [-> ->]. auto.
  - split; [exact I|]. unfold ravel_scans. destruct (reshape sa _) as [x| | |] eqn:E; cbn [or_same]; auto.
    apply reshape_size in E as [-> ->]. auto.
  - split; [subst bits; nia|]. destruct (bin_scans sa f) as [x| | |] eqn:E; cbn [or_same]; [|split; [lia|auto] ..].
    apply bin_scans_size in E as [-> ->]. split; [nia|auto].
  - destruct P as [(m & Hm & Fm) P].
    assert (B : forall x, bin_frames sa f = Ok x -> sp_F x <= f * f * sp_F sa /\ sp_bits x = sp_bits sa).
    { intros x E. destruct (bin_frames_inv _ _ _ E) as (Hf & D & Q). split; [|exact Q]. rewrite F, Fm in D.
      cbn [forallb] in D. apply andb_prop in D as [D _]. destruct (divides_div f m Hf ltac:(lia) D) as [EH Hh].
      apply (C81_bin_frames_bound sa f (m / f) x W Hf ltac:(nia)); [rewrite F, Fm; congruence|exact E]. }
    split.
    + split; [exists m; split; [exact Hm|congruence]|]. intros x E. apply B in E as [E _]. subst bits. nia.
    + destruct (bin_frames sa f) as [x| | |] eqn:E; cbn [or_same]; [|split; [lia|auto] ..].
      destruct (B x eq_refl) as [B1 B2]. split; [nia|congruence].
  - split.
    + rewrite F. intros sk fk E. apply (P sk fk). rewrite <- S, <- F. exact E.
    + unfold getitem. destruct (split_slices sa ks) as [[sk fk]| | |]; cbn [bind]; auto.
      destruct (sp_slicing sa).
      * destruct (slice_sparse sa sk fk) as [[|x]| | |] eqn:E; auto. apply slice_sparse_size in E as [-> ->]. auto.
      * destruct (slice_dense sa sk fk) as [[|x]| | |] eqn:E; auto. exfalso. revert E. unfold slice_dense.
        destruct (np_select _ sk) as [[]| | |]; cbn [bind]; try discriminate.
        destruct (np_select _ fk) as [[]| | |]; cbn [bind]; try discriminate. destruct (_ && _); try discriminate.
        destruct (mapM _ _); cbn [bind]; discriminate.
  - auto.
  - auto.
  - rewrite read_same. auto.
Qed.

(** C81.  Any history whose conditions can be read off the dense program, the type and a
    bound on the number of frames of a position. *)
Theorem C81_plain_history order ops : forall sa d G, holds sa d -> sp_F sa <= G ->
  plain_history d G (sp_bits sa) ops -> holds (run_ops order sa ops) (run_dense d ops).
Proof.
  induction ops as [|o t IH]; intros sa d G H HG C; [exact H|]. destruct C as [C1 C2].
  destruct (plain_step order sa d G _ o H HG eq_refl C1) as (S & HG' & HB).
  apply (IH (do_op order sa o) (dense_op d o) (grow G o)); [now apply C81_call|exact HG'|now rewrite HB].
Qed.

(** The example history of CallsProps.v meets the conditions. *)
Example ex_plain : plain_history ex_dense 2 32 ex_ops.
Proof.
  cbn [plain_history ex_ops].
  split; [exact I|]. split; [exact I|]. split; [vm_compute; reflexivity|].
  split; [intros x Hx; cbn in Hx; intuition lia|]. split; [intros x Hx; cbn in Hx; intuition lia|].
  split.
  { intros sk fk E. vm_compute in E. injection E as <- <-. split; [vm_compute; discriminate|].
    intros fs fl E. vm_compute in E. injection E as <- <-. repeat constructor; cbn; intuition lia. }
  split; [split; [exists 2; split; [lia|reflexivity]|vm_compute; reflexivity]|].
  split; [exact I|]. split; exact I.
Qed.
Example ex_bound : exists sa', bin_frames (mkSparse [[[0; 1; 2; 3]]] 1 [1] [2; 2] 32 true true) 2 = Ok sa' /\ sp_F sa' = 4.
Proof. eexists. split; vm_compute; reflexivity. Qed.

Print Assumptions C81_bin_frames_bound.
Print Assumptions C81_plain_history.
