(** First pass of the multi-pass reader: the invariant. *)
From Coq Require Import String ZArith List Lia Bool Permutation Sorting.Sorted.
From Verif Require Import Base BaseFacts PermFacts BlockModel StemProofs StreamModel StreamSpec
  StreamProofs SectorModel SectorSpec SectorProofs ThreadedModel ThreadedSpec ThreadedProofs ThreadedLive
  MultipassModel MultipassSpec.
Import ListNotations.
Open Scope Z_scope.
Local Arguments skipn : simpl never.
Local Arguments firstn : simpl never.
Local Arguments Z.mul : simpl never.
Local Arguments Z.add : simpl never.

(** *** Records *)

Lemma record_at_in fs e : In e (all_records fs) <-> exists i k, record_at fs i k = Some e.
Proof.
  unfold record_at. induction fs as [|f fs IH].
  - simpl. split; [contradiction|]. intros (i & k & H). destruct i; discriminate.
  - unfold all_records. simpl. fold (all_records fs). rewrite in_app_iff, IH, in_map_iff. split.
    + intros [(r & <- & Hr)|(i & k & H)].
      * apply In_nth_error in Hr as [k Hk]. exists O, k. simpl. now rewrite Hk.
      * exists (S i), k. exact H.
    + intros ([|i] & k & H); simpl in H.
      * destruct (nth_error (snd f) k) as [r|] eqn:E; [|discriminate]. injection H as <-.
        left. exists r. split; auto. eapply nth_error_In; eauto.
      * right. eauto.
Qed.

Definition mkey (e : Z * srec) := (s_pos (snd e), s_frame (snd e), fst e).

Lemma record_at_unique fs i k i' k' e e' : NoDup (map mkey (all_records fs)) ->
  record_at fs i k = Some e -> record_at fs i' k' = Some e' -> mkey e = mkey e' -> i = i' /\ k = k'.
Proof.
  revert i i'. induction fs as [|f fs IH]; intros i i' HN H H' HK.
  - destruct i; discriminate.
  - unfold all_records in HN. simpl in HN. fold (all_records fs) in HN. rewrite map_app in HN.
    apply NoDup_app_inv in HN as (N1 & N2 & N3).
    assert (Hin : forall j x e0, record_at (f :: fs) (S j) x = Some e0 -> In (mkey e0) (map mkey (all_records fs))).
    { intros j x e0 Hx. apply in_map. apply record_at_in. exists j, x. exact Hx. }
    assert (Hin0 : forall x e0, record_at (f :: fs) O x = Some e0 ->
              nth_error (map mkey (map (pair (fst f)) (snd f))) x = Some (mkey e0)).
    { intros x e0 Hx. unfold record_at in Hx. simpl in Hx. rewrite !nth_error_map'.
      destruct (nth_error (snd f) x); [|discriminate]. injection Hx as <-. reflexivity. }
    destruct i as [|i], i' as [|i'].
    + split; auto. apply Hin0 in H, H'. eapply (proj1 (NoDup_nth_error _) N1).
      * apply nth_error_Some. congruence.
      * congruence.
    + exfalso. apply Hin0 in H. apply Hin in H'. apply nth_error_In in H. rewrite HK in H. eapply N3; eauto.
    + exfalso. apply Hin0 in H'. apply Hin in H. apply nth_error_In in H'. rewrite <- HK in H'. eapply N3; eauto.
    + destruct (IH i i' N2 H H' HK). auto.
Qed.

Lemma record_bytes_eq g : record_bytes g = 16 + 2 * npix_sector g.
Proof. reflexivity. Qed.

Lemma encode_srec_bytes g r : wf_geom g -> wf_srec g r -> Zlen (encode_srec r) = record_bytes g.
Proof.
  intros Hg (_ & _ & _ & _ & _ & _ & Hl & _). unfold encode_srec, Zlen.
  rewrite !app_length, !flat_le_length. simpl. unfold record_bytes. pose proof (npix_sector_4 g Hg).
  assert (g_w g * g_h g / 4 = Zlen (s_px r)) as ->; [|unfold Zlen; lia].
  rewrite <- Hl, Z.mul_comm. apply Z.div_mul. lia.
Qed.

Lemma skip_records g recs k : wf_geom g -> (forall r, In r recs -> wf_srec g r) -> (k <= List.length recs)%nat ->
  skipn (Z.to_nat (Z.of_nat k * record_bytes g)) (flat_map encode_srec recs) = flat_map encode_srec (skipn k recs).
Proof.
  intros Hg. revert recs. induction k as [|k IH]; intros recs Hw Hk.
  - reflexivity.
  - destruct recs as [|r recs]; [simpl in Hk; lia|]. cbn [flat_map].
    change (skipn (S k) (r :: recs)) with (skipn k recs).
    rewrite <- IH; [|intros; apply Hw; now right|simpl in Hk; lia].
    pose proof (encode_srec_bytes g r Hg (Hw r (or_introl eq_refl))) as Hl.
    assert (0 <= record_bytes g) by (rewrite <- Hl; apply Zlen_nonneg).
    replace (Z.to_nat (Z.of_nat (S k) * record_bytes g))
      with (List.length (encode_srec r) + Z.to_nat (Z.of_nat k * record_bytes g))%nat.
    + rewrite skipn_app, skipn_all2 by lia. cbn [app]. f_equal. lia.
    + unfold Zlen in Hl. lia.
Qed.

Lemma encode_data_at r rest : skipn 16 (encode_srec r ++ rest) = flat_map (le_bytes 2) (s_px r) ++ rest.
Proof.
  unfold encode_srec. rewrite <- !app_assoc. rewrite (app_assoc _ (flat_map (le_bytes 2) [_; _; _; _])).
  rewrite skipn_app. rewrite skipn_all2; [|rewrite app_length, !flat_le_length; simpl; lia].
  rewrite app_length, !flat_le_length. simpl. reflexivity.
Qed.

Lemma skipn_at {A} (l : list A) k x : nth_error l k = Some x -> skipn k l = x :: skipn (S k) l.
Proof.
  revert l. induction k as [|k IH]; intros [|a l] H; try discriminate.
  - injection H as ->. reflexivity.
  - exact (IH l H).
Qed.

Lemma nth_error_ext {A} (a b : list A) : (forall i, nth_error a i = nth_error b i) -> a = b.
Proof.
  revert b. induction a as [|x a IH]; intros [|y b] H; auto.
  - specialize (H O). discriminate.
  - specialize (H O). discriminate.
  - f_equal; [specialize (H O); simpl in H; congruence|]. apply IH. intros i. exact (H (S i)).
Qed.

Section Pass1.
Variables (g : geom) (fs : list sfile) (N : Z).
Hypothesis Hg : wf_geom g.
Hypothesis HW : wf_mfiles g N fs.
(** The files lo .. lim-1 are read: all of them, or the share of an MPI rank. *)
Variables (lo lim : Z).
Hypothesis HO : 0 <= lo <= lim.
Hypothesis HL : lim <= Zlen fs.

Definition content (f : sfile) : bytes := flat_map encode_srec (snd f).

Lemma wf_rec i k e : record_at fs i k = Some e -> wf_srec g (snd e) /\ 0 <= fst e < 4 /\ s_pos (snd e) < N.
Proof. intros H. apply HW. apply record_at_in. eauto. Qed.

Lemma rec_unique i k i' k' e e' : record_at fs i k = Some e -> record_at fs i' k' = Some e' ->
  mkey e = mkey e' -> i = i' /\ k = k'.
Proof. apply record_at_unique. apply HW. Qed.

Lemma file_wf n f : nth_error fs n = Some f -> forall r, In r (snd f) -> wf_srec g r.
Proof.
  intros Hf r Hr. apply In_nth_error in Hr as [k Hk].
  destruct (wf_rec n k (fst f, r)) as [H _]; auto. unfold record_at. now rewrite Hf, Hk.
Qed.

Lemma pos_nonneg r : wf_srec g r -> 0 <= s_pos r.
Proof. intros (_ & _ & H1 & _ & H2 & H3 & _). unfold is_u16 in *. unfold s_pos. nia. Qed.

Definition stream_is (ss : list mstream) (n : nat) (f : sfile) (p : Z) : Prop :=
  nth_error ss n = Some (mkMS (fst f) (content f) p false).

(** The location of a registered sector. *)
Definition slot (dn : nat -> nat) (p fn j : Z) (l : loc) : Prop :=
  exists i k r, (k < dn i)%nat /\ record_at fs i k = Some (j, r) /\ s_pos r = p /\ s_frame r = fn /\
    l = mkLoc j i (Z.of_nat k * record_bytes g + 16).

Definition has_key (m : scanmap) (r : srec) : Prop :=
  exists fms fm, nth_error m (Z.to_nat (s_pos r)) = Some fms /\ map_get (s_frame r) fms = Some fm.

Definition wok (dn : nat -> nat) (s : hstate) (w : hworker) : Prop :=
  match w with
  | HPeek n => exists f, nth_error fs n = Some f /\ stream_is (hs_streams s) n f (Z.of_nat (dn n) * record_bytes g)
  | HInsert n h => exists f r, nth_error fs n = Some f /\ nth_error (snd f) (dn n) = Some r /\ h = shdr_of r /\
      stream_is (hs_streams s) n f (Z.of_nat (dn n) * record_bytes g + 16)
  | HLoc n h => exists f r, nth_error fs n = Some f /\ nth_error (snd f) (dn n) = Some r /\ h = shdr_of r /\
      stream_is (hs_streams s) n f (Z.of_nat (dn n) * record_bytes g + 16) /\ has_key (hs_map s) r
  | HDone => lim <= hs_processed s
  | _ => True
  end.

Definition ndone (ws : list hworker) : Z := zsum (map (fun w => if h_is_done w then 1 else 0) ws).

Record HInv (threads : nat) (dn : nat -> nat) (s : hstate) : Prop := {
  h_nw : List.length (hs_workers s) = threads;
  h_str : forall n f, nth_error fs n = Some f -> exists p, stream_is (hs_streams s) n f p;
  h_ns : List.length (hs_streams s) = List.length fs;
  h_w : forall i w, nth_error (hs_workers s) i = Some w -> wok dn s w;
  h_ex : forall i j wi wj n, nth_error (hs_workers s) i = Some wi -> nth_error (hs_workers s) j = Some wj ->
    h_file wi = Some n -> h_file wj = Some n -> i = j;
  h_new : forall n f, nth_error fs n = Some f -> hs_processed s <= Z.of_nat n ->
    dn n = O /\ stream_is (hs_streams s) n f 0 /\
    forall i w, nth_error (hs_workers s) i = Some w -> h_file w <> Some n;
  h_old : forall n f, nth_error fs n = Some f -> lo <= Z.of_nat n < lim -> Z.of_nat n < hs_processed s ->
    dn n = List.length (snd f) \/ exists i w, nth_error (hs_workers s) i = Some w /\ h_file w = Some n;
  h_dn : forall n f, nth_error fs n = Some f -> (dn n <= List.length (snd f))%nat;
  h_proc : lo <= hs_processed s <= lim + ndone (hs_workers s);
  h_rng : forall i w n, nth_error (hs_workers s) i = Some w -> h_file w = Some n -> lo <= Z.of_nat n < lim;
  h_out : forall n, ~ (lo <= Z.of_nat n < lim) -> dn n = O;
  h_len : Zlen (hs_map s) = N;
  h_map : forall p m, nth_error (hs_map s) p = Some m -> ordered m /\
    forall fn fm, map_get fn m = Some fm -> Zlen fm = 4 /\
      (exists i k e, lo <= Z.of_nat i < lim /\ record_at fs i k = Some e /\ s_pos (snd e) = Z.of_nat p /\ s_frame (snd e) = fn) /\
      forall j l, 0 <= j < 4 -> (nth_error fm (Z.to_nat j) = Some (Some l) <-> slot dn (Z.of_nat p) fn j l);
  h_key : forall i k e, record_at fs i k = Some e -> (k < dn i)%nat -> has_key (hs_map s) (snd e)
}.

Lemma ndone_le ws : 0 <= ndone ws <= Z.of_nat (List.length ws).
Proof.
  unfold ndone. induction ws as [|w ws IH]; simpl; [lia|].
  destruct (h_is_done w); lia.
Qed.

Lemma ndone_upd ws i w w' : nth_error ws i = Some w ->
  ndone (upd ws i w') = ndone ws - (if h_is_done w then 1 else 0) + (if h_is_done w' then 1 else 0).
Proof. intros H. unfold ndone. apply (zsum_upd (fun w => if h_is_done w then 1 else 0) _ _ _ _ H). Qed.

Lemma ndone_lt ws i w : nth_error ws i = Some w -> h_is_done w = false -> ndone ws < Z.of_nat (List.length ws).
Proof.
  intros H Hw. pose proof (ndone_upd ws i w HDone H) as E. rewrite Hw in E. simpl in E.
  pose proof (ndone_le (upd ws i HDone)) as E2. rewrite upd_length in E2. lia.
Qed.

(** A step that only changes worker [i], to a worker using the same file or none. *)
Lemma others_in {A} (l : list A) i x : In x (others i l) -> exists j, j <> i /\ nth_error l j = Some x.
Proof.
  unfold others, remove_nth. rewrite in_app_iff. intros [H|H]; apply In_nth_error in H as [j Hj].
  - assert (j < i)%nat.
    { assert (j < List.length (firstn i l))%nat by (apply nth_error_Some; congruence). rewrite firstn_length in H. lia. }
    exists j. split; [lia|]. rewrite <- Hj. symmetry.
    clear - H. revert i l H. induction j as [|j IH]; intros [|i] [|a l] H; try lia; auto.
    simpl. apply IH. lia.
  - exists (S i + j)%nat. split; [lia|]. rewrite <- Hj. clear. revert l.
    induction (S i) as [|m IH]; intros l; auto. destruct l as [|a l].
    + simpl. destruct j; auto.
    + simpl. apply IH.
Qed.

Lemma nth_error_upd {A} (l : list A) i j x y : nth_error l i = Some y ->
  nth_error (upd l i x) j = if Nat.eqb j i then Some x else nth_error l j.
Proof.
  intros H. destruct (Nat.eqb_spec j i) as [->|Hne].
  - eapply nth_error_upd_same; eauto.
  - apply nth_error_upd_neq. auto.
Qed.

Lemma sector_size_5 : sector_size g 5 = npix_sector g.
Proof. apply sector_size_eq; auto. Qed.

Lemma rest_at n f k : nth_error fs n = Some f -> (k <= List.length (snd f))%nat -> forall ss p,
  p = Z.of_nat k * record_bytes g ->
  ms_rest (mkMS (fst f) (content f) p ss) = flat_map encode_srec (skipn k (snd f)).
Proof.
  intros Hf Hk ss p ->. unfold ms_rest. cbn [ms_pos ms_content]. unfold content.
  apply skip_records; auto. eapply file_wf; eauto.
Qed.

Lemma hstep_ok threads dn s i o : lim + Z.of_nat threads < 2 ^ 32 ->
  HInv threads dn s -> hstep g lim i s = Some o ->
  exists s' dn', o = Ok s' /\ HInv threads dn' s'.
Proof.
  intros Hlim I Hs. unfold hstep in Hs.
  destruct (nth_error (hs_workers s) i) as [w|] eqn:Ew; [|discriminate].
  pose proof (h_w _ _ _ I _ _ Ew) as Hwok.
  assert (Hwup : forall w' j wj, nth_error (upd (hs_workers s) i w') j = Some wj ->
            (j = i /\ wj = w') \/ (j <> i /\ nth_error (hs_workers s) j = Some wj)).
  { intros w' j wj H. rewrite (nth_error_upd _ _ _ _ _ Ew) in H.
    destruct (Nat.eqb_spec j i); [left|right]; split; auto; congruence. }
  assert (Hwi : forall w', nth_error (upd (hs_workers s) i w') i = Some w').
  { intros w'. now rewrite (nth_error_upd _ _ _ _ _ Ew), Nat.eqb_refl. }
  assert (Hwj : forall w' j wj, j <> i -> nth_error (hs_workers s) j = Some wj -> nth_error (upd (hs_workers s) i w') j = Some wj).
  { intros w' j wj Hj H. rewrite (nth_error_upd _ _ _ _ _ Ew). destruct (Nat.eqb_spec j i); congruence. }
  destruct w as [| |n|n h|n h|].
  - (* HCheck *)
    injection Hs as <-. eexists _, dn. split; [reflexivity|].
    assert (Hw' : h_file (if hs_processed s <? lim then HClaim else HDone) = None) by (destruct (_ <? _); auto).
    remember (if hs_processed s <? lim then HClaim else HDone) as w' eqn:Ew'.
    destruct I. constructor; cbn [hs_streams hs_processed hs_map hs_workers set_hworker]; auto.
    + now rewrite upd_length.
    + intros j wj Hj. destruct (Hwup _ _ _ Hj) as [[-> ->]|[Hne Hj']].
      * subst w'. destruct (Z.ltb_spec (hs_processed s) lim); simpl; auto.
      * exact (h_w0 _ _ Hj').
    + intros j k wj wk n Hj Hk Fj Fk.
      destruct (Hwup _ _ _ Hj) as [[-> ->]|[Hne Hj']]; [congruence|].
      destruct (Hwup _ _ _ Hk) as [[-> ->]|[Hne' Hk']]; [congruence|]. eauto.
    + intros n f Hn Hp. destruct (h_new0 n f Hn Hp) as (A & B & C). repeat split; auto.
      intros j wj Hj. destruct (Hwup _ _ _ Hj) as [[-> ->]|[Hne Hj']]; [congruence|]. eauto.
    + intros n f Hn Hr Hp. destruct (h_old0 n f Hn Hr Hp) as [A|(j & wj & Hj & Fj)]; auto. right.
      exists j, wj. split; auto. apply Hwj; auto. intros ->. rewrite Ew in Hj. injection Hj as <-. discriminate.
    + rewrite (ndone_upd _ _ _ _ Ew). cbn [h_is_done]. destruct (h_is_done w'); lia.
    + intros j wj n Hj Fj. destruct (Hwup _ _ _ Hj) as [[-> ->]|[Hne Hj']]; [congruence|eauto].
  - (* HClaim *)
    injection Hs as <-.
    pose proof (ndone_lt _ _ _ Ew eq_refl) as Hnd. pose proof (h_proc _ _ _ I) as Hp0. rewrite (h_nw _ _ _ I) in Hnd.
    assert (Hu : u32 (hs_processed s + 1) = hs_processed s + 1) by (apply Z.mod_small; lia).
    rewrite Hu.
    eexists _, dn. split; [reflexivity|].
    destruct (Z.leb_spec lim (hs_processed s)) as [Hle|Hgt].
    + (* past the end *)
      destruct I. constructor; cbn [hs_streams hs_processed hs_map hs_workers set_hworker]; auto.
      * now rewrite upd_length.
      * intros j wj Hj. destruct (Hwup _ _ _ Hj) as [[-> ->]|[Hne Hj']].
        -- simpl. lia.
        -- specialize (h_w0 _ _ Hj'). destruct wj; simpl in *; auto. lia.
      * intros j k wj wk n Hj Hk Fj Fk.
        destruct (Hwup _ _ _ Hj) as [[-> ->]|[Hne Hj']]; [discriminate|].
        destruct (Hwup _ _ _ Hk) as [[-> ->]|[Hne' Hk']]; [discriminate|]. eauto.
      * intros n f Hn Hp. destruct (h_new0 n f Hn ltac:(lia)) as (A & B & C). repeat split; auto.
        intros j wj Hj. destruct (Hwup _ _ _ Hj) as [[-> ->]|[Hne Hj']]; [discriminate|]. eauto.
      * intros n f Hn Hrg Hp.
        destruct (h_old0 n f Hn Hrg ltac:(lia)) as [A|(j & wj & Hj & Fj)]; auto. right.
        exists j, wj. split; auto. apply Hwj; auto. intros ->. rewrite Ew in Hj. injection Hj as <-. discriminate.
      * rewrite (ndone_upd _ _ _ _ Ew). cbn [h_is_done]. pose proof (ndone_le (hs_workers s)). lia.
      * intros j wj n Hj Fj. destruct (Hwup _ _ _ Hj) as [[-> ->]|[Hne Hj']]; [discriminate|eauto].
    + (* a file *)
      assert (Hf : exists f, nth_error fs (Z.to_nat (hs_processed s)) = Some f).
      { destruct (nth_error fs (Z.to_nat (hs_processed s))) eqn:E; eauto.
        apply nth_error_None in E. unfold Zlen in HL. lia. }
      destruct Hf as [f Hf].
      destruct (h_new _ _ _ I _ _ Hf ltac:(lia)) as (Hd0 & Hs0 & Hn0).
      destruct I. constructor; cbn [hs_streams hs_processed hs_map hs_workers set_hworker]; auto.
      * now rewrite upd_length.
      * intros j wj Hj. destruct (Hwup _ _ _ Hj) as [[-> ->]|[Hne Hj']].
        -- simpl. exists f. split; auto. rewrite Hd0. exact Hs0.
        -- specialize (h_w0 _ _ Hj'). destruct wj; simpl in *; auto. lia.
      * intros j k wj wk n Hj Hk Fj Fk.
        destruct (Hwup _ _ _ Hj) as [[-> ->]|[Hne Hj']], (Hwup _ _ _ Hk) as [[-> ->]|[Hne' Hk']]; auto.
        -- simpl in Fj. exfalso. apply (Hn0 _ _ Hk'). congruence.
        -- simpl in Fk. exfalso. apply (Hn0 _ _ Hj'). congruence.
        -- eauto.
      * intros n f' Hn Hp. destruct (h_new0 n f' Hn ltac:(lia)) as (A & B & C). repeat split; auto.
        intros j wj Hj. destruct (Hwup _ _ _ Hj) as [[-> ->]|[Hne Hj']]; [|eauto].
        simpl. intros E. injection E as E. lia.
      * intros n f' Hn Hrg Hp. destruct (Z.eq_dec (Z.of_nat n) (hs_processed s)) as [E|E].
        -- right. exists i, (HPeek (Z.to_nat (hs_processed s))). split; auto. simpl. f_equal. lia.
        -- destruct (h_old0 n f' Hn Hrg ltac:(lia)) as [A|(j & wj & Hj & Fj)]; auto. right.
           exists j, wj. split; auto. apply Hwj; auto. intros ->. rewrite Ew in Hj. injection Hj as <-. discriminate.
      * rewrite (ndone_upd _ _ _ _ Ew). cbn [h_is_done]. pose proof (ndone_le (hs_workers s)). lia.
      * intros j wj n Hj Fj. destruct (Hwup _ _ _ Hj) as [[-> ->]|[Hne Hj']]; [|eauto].
        simpl in Fj. injection Fj as <-. lia.
  - (* HPeek *)
    destruct Hwok as (f & Hf & Hst).
    assert (Hex : existsb (at_file n) (others i (hs_workers s)) = false).
    { apply not_true_is_false. intros H. apply existsb_exists in H as (wj & Hj & Fj).
      apply others_in in Hj as (j & Hne & Hj). unfold at_file in Fj.
      destruct (h_file wj) as [m|] eqn:E; [|discriminate]. apply Nat.eqb_eq in Fj as ->.
      apply Hne. eapply (h_ex _ _ _ I); eauto. }
    unfold stream_is in Hst. rewrite Hst, Hex in Hs.
    rewrite (rest_at n f (dn n)) in Hs by (auto; apply (h_dn _ _ _ I _ _ Hf)).
    destruct (flat_map encode_srec (skipn (dn n) (snd f))) as [|b0 t0] eqn:Er.
    + (* end of the file *)
      assert (Hend : dn n = List.length (snd f)).
      { pose proof (h_dn _ _ _ I _ _ Hf). destruct (Nat.eq_dec (dn n) (List.length (snd f))); auto.
        exfalso. destruct (nth_error (snd f) (dn n)) as [r|] eqn:E; [|apply nth_error_None in E; lia].
        rewrite (skipn_at _ _ _ E) in Er. discriminate. }
      injection Hs as <-. eexists _, dn. split; [reflexivity|].
      destruct I. constructor; cbn [hs_streams hs_processed hs_map hs_workers set_hworker]; auto.
      * now rewrite upd_length.
      * intros j wj Hj. destruct (Hwup _ _ _ Hj) as [[-> ->]|[Hne Hj']]; [simpl; auto|]. exact (h_w0 _ _ Hj').
      * intros j k wj wk n' Hj Hk Fj Fk.
        destruct (Hwup _ _ _ Hj) as [[-> ->]|[Hne Hj']]; [discriminate|].
        destruct (Hwup _ _ _ Hk) as [[-> ->]|[Hne' Hk']]; [discriminate|]. eauto.
      * intros n' f' Hn Hp. destruct (h_new0 n' f' Hn ltac:(lia)) as (A & B & C). repeat split; auto.
        intros j wj Hj. destruct (Hwup _ _ _ Hj) as [[-> ->]|[Hne Hj']]; [discriminate|]. eauto.
      * intros n' f' Hn Hrg Hp. destruct (h_old0 n' f' Hn Hrg Hp) as [A|(j & wj & Hj & Fj)]; auto.
        destruct (Nat.eq_dec j i) as [->|Hne].
        -- rewrite Ew in Hj. injection Hj as <-. injection Fj as <-. left. congruence.
        -- right. exists j, wj. split; auto.
      * rewrite (ndone_upd _ _ _ _ Ew). cbn [h_is_done]. pose proof (ndone_le (hs_workers s)). lia.
      * intros j wj n' Hj Fj. destruct (Hwup _ _ _ Hj) as [[-> ->]|[Hne Hj']]; [discriminate|eauto].
    + (* a record *)
      assert (Hrec : exists r, nth_error (snd f) (dn n) = Some r).
      { destruct (nth_error (snd f) (dn n)) eqn:E; eauto. apply nth_error_None in E.
        rewrite skipn_all2 in Er by lia. discriminate. }
      destruct Hrec as [r Hr]. rewrite <- Er in Hs. rewrite (skipn_at _ _ _ Hr) in Hs. cbn [flat_map] in Hs.
      rewrite (sector_header_ok g) in Hs by (eapply file_wf; eauto; eapply nth_error_In; eauto).
      cbn [bind] in Hs. unfold lift in Hs. injection Hs as <-.
      eexists _, dn. split; [reflexivity|].
      assert (Hsj : forall m f' p, m <> n -> stream_is (hs_streams s) m f' p ->
        stream_is (upd (hs_streams s) n (ms_seek (Z.of_nat (dn n) * record_bytes g + 16)
           {| ms_sector := fst f; ms_content := content f; ms_pos := Z.of_nat (dn n) * record_bytes g; ms_fail := false |})) m f' p).
      { intros m f' p Hm H. unfold stream_is. rewrite (nth_error_upd _ _ _ _ _ Hst). destruct (Nat.eqb_spec m n); [congruence|exact H]. }
      assert (Hsn : stream_is (upd (hs_streams s) n (ms_seek (Z.of_nat (dn n) * record_bytes g + 16)
           {| ms_sector := fst f; ms_content := content f; ms_pos := Z.of_nat (dn n) * record_bytes g; ms_fail := false |})) n f
           (Z.of_nat (dn n) * record_bytes g + 16)).
      { unfold stream_is. rewrite (nth_error_upd _ _ _ _ _ Hst), Nat.eqb_refl. reflexivity. }
      cbn [ms_pos].
      destruct I. constructor; cbn [hs_streams hs_processed hs_map hs_workers set_hworker]; auto.
      * now rewrite upd_length.
      * intros m f' Hm. destruct (Nat.eq_dec m n) as [->|Hne].
        -- rewrite Hf in Hm. injection Hm as <-. eauto.
        -- destruct (h_str0 m f' Hm) as [p Hp]. eauto.
      * now rewrite upd_length.
      * intros j wj Hj. destruct (Hwup _ _ _ Hj) as [[-> ->]|[Hne Hj']].
        -- simpl. exists f, r. repeat split; auto.
        -- assert (Hfn : forall m, h_file wj = Some m -> m <> n).
           { intros m Hm ->. apply Hne. eapply h_ex0; eauto. }
           specialize (h_w0 _ _ Hj'). destruct wj as [| |m|m h|m h|]; simpl in *; auto.
           ++ destruct h_w0 as (f' & A & B). exists f'. split; auto.
           ++ destruct h_w0 as (f' & r' & A & B & C & D). exists f', r'. repeat split; auto.
           ++ destruct h_w0 as (f' & r' & A & B & C & D & E). exists f', r'. repeat split; auto.
      * intros j k wj wk n' Hj Hk Fj Fk.
        destruct (Hwup _ _ _ Hj) as [[-> ->]|[Hne Hj']], (Hwup _ _ _ Hk) as [[-> ->]|[Hne' Hk']]; auto.
        -- simpl in Fj. eapply h_ex0; eauto.
        -- simpl in Fk. eapply h_ex0; eauto.
        -- eauto.
      * intros n' f' Hn Hp. destruct (h_new0 n' f' Hn ltac:(lia)) as (A & B & C).
        assert (n' <> n). { intros ->. apply (C _ _ Ew). reflexivity. }
        repeat split; auto.
        intros j wj Hj. destruct (Hwup _ _ _ Hj) as [[-> ->]|[Hne Hj']]; [|eauto]. simpl. congruence.
      * intros n' f' Hn Hrg Hp. destruct (h_old0 n' f' Hn Hrg Hp) as [A|(j & wj & Hj & Fj)]; auto. right.
        destruct (Nat.eq_dec j i) as [->|Hne].
        -- rewrite Ew in Hj. injection Hj as <-. exists i. eexists. split; [apply Hwi|]. exact Fj.
        -- exists j, wj. split; auto.
      * rewrite (ndone_upd _ _ _ _ Ew). cbn [h_is_done]. pose proof (ndone_le (hs_workers s)). lia.
      * intros j wj n' Hj Fj. destruct (Hwup _ _ _ Hj) as [[-> ->]|[Hne Hj']]; [exact (h_rng0 _ _ _ Ew Fj)|eauto].
  - (* HInsert *)
    destruct Hwok as (f & r & Hf & Hr & -> & Hst).
    assert (Hrec : record_at fs n (dn n) = Some (fst f, r)) by (unfold record_at; now rewrite Hf, Hr).
    destruct (wf_rec _ _ _ Hrec) as (Hwr & Hsec & Hpos). cbn [fst snd] in *. pose proof (pos_nonneg r Hwr) as Hp0.
    cbn [shdr_of sh_pos sh_frame] in Hs.
    destruct (nth_error (hs_map s) (Z.to_nat (s_pos r))) as [m|] eqn:Em.
    2: { exfalso. apply nth_error_None in Em. pose proof (h_len _ _ _ I). unfold Zlen in H. lia. }
    injection Hs as <-. eexists _, dn. split; [reflexivity|].
    set (m' := match map_get (s_frame r) m with Some _ => m | None => map_put (s_frame r) no_locs m end).
    destruct (h_map _ _ _ I _ _ Em) as [Ho Hm].
    assert (Hget : forall fn, fn <> s_frame r -> map_get fn m' = map_get fn m).
    { intros fn Hne. unfold m'. destruct (map_get (s_frame r) m) eqn:E; auto.
      rewrite map_get_put by auto. destruct (Z.eqb_spec (s_frame r) fn); congruence. }
    assert (Hkeep : forall fn fm, map_get fn m = Some fm -> map_get fn m' = Some fm).
    { intros fn fm H. unfold m'. destruct (map_get (s_frame r) m) eqn:E; auto.
      rewrite map_get_put by auto. destruct (Z.eqb_spec (s_frame r) fn); congruence. }
    assert (Hself : exists fm, map_get (s_frame r) m' = Some fm).
    { unfold m'. destruct (map_get (s_frame r) m) eqn:E; eauto.
      rewrite map_get_put by auto. rewrite Z.eqb_refl. eauto. }
    assert (Hk : forall r', has_key (hs_map s) r' -> has_key (upd (hs_map s) (Z.to_nat (s_pos r)) m') r').
    { intros r' (fms & fm & A & B). unfold has_key. rewrite (nth_error_upd _ _ _ _ _ Em).
      destruct (Nat.eqb_spec (Z.to_nat (s_pos r')) (Z.to_nat (s_pos r))) as [E|E]; eauto.
      rewrite E, Em in A. injection A as <-. eauto. }
    destruct I. constructor; cbn [hs_streams hs_processed hs_map hs_workers set_hworker]; auto.
    + now rewrite upd_length.
    + intros j wj Hj. destruct (Hwup _ _ _ Hj) as [[-> ->]|[Hne Hj']].
      * simpl. exists f, r. repeat split; auto. destruct Hself as [fm Hfm]. exists m', fm. split; auto.
        rewrite (nth_error_upd _ _ _ _ _ Em), Nat.eqb_refl. reflexivity.
      * specialize (h_w0 _ _ Hj'). destruct wj as [| |k|k h|k h|]; simpl in *; auto.
        destruct h_w0 as (f' & r' & A & B & C & D & E). exists f', r'. repeat split; auto.
    + intros j k wj wk n' Hj Hk' Fj Fk.
      destruct (Hwup _ _ _ Hj) as [[-> ->]|[Hne Hj']], (Hwup _ _ _ Hk') as [[-> ->]|[Hne' Hk2]]; auto.
      * simpl in Fj. eapply h_ex0; eauto.
      * simpl in Fk. eapply h_ex0; eauto.
      * eauto.
    + intros n' f' Hn Hp. destruct (h_new0 n' f' Hn ltac:(lia)) as (A & B & C).
      assert (n' <> n). { intros ->. apply (C _ _ Ew). reflexivity. }
      repeat split; auto.
      intros j wj Hj. destruct (Hwup _ _ _ Hj) as [[-> ->]|[Hne Hj']]; [|eauto]. simpl. congruence.
    + intros n' f' Hn Hrg Hp. destruct (h_old0 n' f' Hn Hrg Hp) as [A|(j & wj & Hj & Fj)]; auto. right.
      destruct (Nat.eq_dec j i) as [->|Hne].
      * rewrite Ew in Hj. injection Hj as <-. exists i. eexists. split; [apply Hwi|]. exact Fj.
      * exists j, wj. split; auto.
    + rewrite (ndone_upd _ _ _ _ Ew). cbn [h_is_done]. pose proof (ndone_le (hs_workers s)). lia.
    + intros j wj n' Hj Fj. destruct (Hwup _ _ _ Hj) as [[-> ->]|[Hne Hj']]; [exact (h_rng0 _ _ _ Ew Fj)|eauto].
    + unfold Zlen in *. now rewrite upd_length.
    + intros p m1. rewrite (nth_error_upd _ _ _ _ _ Em). destruct (Nat.eqb_spec p (Z.to_nat (s_pos r))) as [->|Hne]; [|apply h_map0].
      intros [= <-]. split.
      * unfold m'. destruct (map_get (s_frame r) m); auto. apply map_put_ordered. auto.
      * intros fn fm Hfm. destruct (Z.eq_dec fn (s_frame r)) as [->|Hne]; [|rewrite Hget in Hfm by auto; auto].
        unfold m' in Hfm. destruct (map_get (s_frame r) m) as [fm0|] eqn:E.
        -- assert (fm0 = fm) as -> by congruence. auto.
        -- rewrite map_get_put in Hfm by auto. rewrite Z.eqb_refl in Hfm. injection Hfm as <-.
           split; [reflexivity|]. split; [exists n, (dn n), (fst f, r); repeat split; auto; simpl; try lia; apply (h_rng0 _ _ _ Ew eq_refl)|].
           intros j l Hj. split.
           ++ intros H. exfalso. unfold no_locs in H. apply nth_error_In, repeat_spec in H. discriminate.
           ++ intros (i' & k' & r' & A & B & C & D & _). exfalso.
              destruct (h_key0 _ _ _ B A) as (fms & fm & F & G'). cbn [snd] in *. rewrite C, Nat2Z.id in F.
              rewrite Em in F. injection F as <-. congruence.
    + intros i' k e A B. apply Hk. eauto.
  - (* HLoc *)
    destruct Hwok as (f & r & Hf & Hr & -> & Hst & Hkey).
    assert (Hrec : record_at fs n (dn n) = Some (fst f, r)) by (unfold record_at; now rewrite Hf, Hr).
    destruct (wf_rec _ _ _ Hrec) as (Hwr & Hsec & Hpos). cbn [fst snd] in *. pose proof (pos_nonneg r Hwr) as Hp0.
    destruct Hkey as (m & fm & Em & Hfm).
    cbn [shdr_of sh_pos sh_frame] in Hs. unfold stream_is in Hst. rewrite Hst, Em in Hs. cbn [ms_sector ms_pos] in Hs.
    assert (Hrace : existsb (same_slot (hs_streams s) (fst f) (shdr_of r)) (others i (hs_workers s)) = false).
    { apply not_true_is_false. intros H. apply existsb_exists in H as (wj & Hj & Fj).
      apply others_in in Hj as (j & Hne & Hj). destruct wj as [| |n'|n' h|n' h|]; try discriminate.
      pose proof (h_w _ _ _ I _ _ Hj) as (f' & r' & Hf' & Hr' & -> & Hst' & _).
      simpl in Fj. unfold stream_is in Hst'. rewrite Hst' in Fj. cbn [ms_sector] in Fj.
      apply andb_prop in Fj as [Fj E3]. apply andb_prop in Fj as [E1 E2].
      apply Z.eqb_eq in E1, E2, E3.
      assert (Hrec' : record_at fs n' (dn n') = Some (fst f', r')) by (unfold record_at; now rewrite Hf', Hr').
      destruct (rec_unique _ _ _ _ _ _ Hrec Hrec') as [-> _]; [unfold mkey; cbn [fst snd]; congruence|].
      apply Hne. exact (h_ex _ _ _ I j i _ _ n' Hj Ew eq_refl eq_refl). }
    rewrite Hrace, Hfm in Hs.
    destruct (h_map _ _ _ I _ _ Em) as [Ho Hm]. destruct (Hm _ _ Hfm) as (Hl4 & Hown & Hslots).
    rewrite wr_ok in Hs by (rewrite Hl4; lia). cbn [bind] in Hs. unfold lift in Hs. injection Hs as <-.
    set (dn' := fun k => if Nat.eqb k n then S (dn n) else dn k).
    set (fm' := upd fm (Z.to_nat (fst f)) (Some (mkLoc (fst f) n (Z.of_nat (dn n) * record_bytes g + 16)))).
    eexists _, dn'. split; [reflexivity|].
    assert (Hdn : forall k, k <> n -> dn' k = dn k).
    { intros k Hk. unfold dn'. destruct (Nat.eqb_spec k n); congruence. }
    assert (Hdnn : dn' n = S (dn n)) by (unfold dn'; now rewrite Nat.eqb_refl).
    set (st' := ms_seek (Z.of_nat (dn n) * record_bytes g + 16 + sector_size g 5 * 2)
                  {| ms_sector := fst f; ms_content := content f; ms_pos := Z.of_nat (dn n) * record_bytes g + 16; ms_fail := false |}).
    assert (Hsj : forall k f' p, k <> n -> stream_is (hs_streams s) k f' p -> stream_is (upd (hs_streams s) n st') k f' p).
    { intros k f' p Hk H. unfold stream_is. rewrite (nth_error_upd _ _ _ _ _ Hst). destruct (Nat.eqb_spec k n); [congruence|exact H]. }
    assert (Hsn : stream_is (upd (hs_streams s) n st') n f (Z.of_nat (S (dn n)) * record_bytes g)).
    { unfold stream_is. rewrite (nth_error_upd _ _ _ _ _ Hst), Nat.eqb_refl. unfold st', ms_seek. cbn [ms_sector ms_content ms_fail].
      do 2 f_equal. rewrite sector_size_5, record_bytes_eq. lia. }
    assert (Hk : forall r', has_key (hs_map s) r' -> has_key (upd (hs_map s) (Z.to_nat (s_pos r)) (map_put (s_frame r) fm' m)) r').
    { intros r' (fms & fm1 & A & B). unfold has_key. rewrite (nth_error_upd _ _ _ _ _ Em).
      destruct (Nat.eqb_spec (Z.to_nat (s_pos r')) (Z.to_nat (s_pos r))) as [E|E]; eauto.
      rewrite E, Em in A. injection A as <-. eexists. 
      destruct (Z.eq_dec (s_frame r) (s_frame r')) as [E2|E2].
      - exists fm'. split; [reflexivity|]. rewrite map_get_put by auto. rewrite E2, Z.eqb_refl. reflexivity.
      - exists fm1. split; [reflexivity|]. rewrite map_get_put by auto. destruct (Z.eqb_spec (s_frame r) (s_frame r')); congruence. }
    assert (Hlt : (dn n < List.length (snd f))%nat) by (apply nth_error_Some; congruence).
    destruct I. constructor; cbn [hs_streams hs_processed hs_map hs_workers set_hworker]; auto.
    + now rewrite upd_length.
    + intros k f' Hk'. destruct (Nat.eq_dec k n) as [->|Hne].
      * rewrite Hf in Hk'. injection Hk' as <-. eauto.
      * destruct (h_str0 k f' Hk') as [p Hp]. eauto.
    + now rewrite upd_length.
    + intros j wj Hj. destruct (Hwup _ _ _ Hj) as [[-> ->]|[Hne Hj']].
      * simpl. exists f. split; auto. rewrite Hdnn. auto.
      * assert (Hfn : forall k, h_file wj = Some k -> k <> n).
        { intros k Hk' ->. apply Hne. eapply h_ex0; eauto. }
        specialize (h_w0 _ _ Hj'). destruct wj as [| |k|k h|k h|]; simpl in *; auto; rewrite Hdn by auto.
        -- destruct h_w0 as (f' & A & B). exists f'. split; auto.
        -- destruct h_w0 as (f' & r' & A & B & C & D). exists f', r'. repeat split; auto.
        -- destruct h_w0 as (f' & r' & A & B & C & D & E). exists f', r'. repeat split; auto.
    + intros j k wj wk n' Hj Hk' Fj Fk.
      destruct (Hwup _ _ _ Hj) as [[-> ->]|[Hne Hj']], (Hwup _ _ _ Hk') as [[-> ->]|[Hne' Hk2]]; auto.
      * simpl in Fj. eapply h_ex0; eauto.
      * simpl in Fk. eapply h_ex0; eauto.
      * eauto.
    + intros n' f' Hn Hp. destruct (h_new0 n' f' Hn ltac:(lia)) as (A & B & C).
      assert (n' <> n). { intros ->. apply (C _ _ Ew). reflexivity. }
      rewrite Hdn by auto. repeat split; auto.
      intros j wj Hj. destruct (Hwup _ _ _ Hj) as [[-> ->]|[Hne Hj']]; [|eauto]. simpl. congruence.
    + intros n' f' Hn Hrg Hp. destruct (h_old0 n' f' Hn Hrg Hp) as [A|(j & wj & Hj & Fj)].
      * destruct (Nat.eq_dec n' n) as [->|Hne]; [|rewrite Hdn by auto; auto].
        exfalso. rewrite Hf in Hn. injection Hn as <-. lia.
      * right. destruct (Nat.eq_dec j i) as [->|Hne].
        -- rewrite Ew in Hj. injection Hj as <-. exists i. eexists. split; [apply Hwi|]. exact Fj.
        -- exists j, wj. split; auto.
    + intros n' f' Hn. destruct (Nat.eq_dec n' n) as [->|Hne]; [|rewrite Hdn by auto; auto].
      rewrite Hf in Hn. injection Hn as <-. rewrite Hdnn. lia.
    + rewrite (ndone_upd _ _ _ _ Ew). cbn [h_is_done]. pose proof (ndone_le (hs_workers s)). lia.
    + intros j wj n' Hj Fj. destruct (Hwup _ _ _ Hj) as [[-> ->]|[Hne Hj']]; [exact (h_rng0 _ _ _ Ew Fj)|eauto].
    + intros n' Hout. assert (n' <> n) by (intros ->; apply Hout; exact (h_rng0 _ _ _ Ew eq_refl)).
      rewrite Hdn by auto. auto.
    + unfold Zlen in *. now rewrite upd_length.
    + assert (Hslot_mono : forall p fn j l, slot dn p fn j l -> slot dn' p fn j l).
      { intros p fn j l (i' & k' & r' & A & B). exists i', k', r'. split; auto.
        destruct (Nat.eq_dec i' n) as [->|E]; [rewrite Hdnn; lia|rewrite Hdn; auto]. }
      assert (Hslot_inv : forall p fn j l, slot dn' p fn j l -> slot dn p fn j l \/
                (p = s_pos r /\ fn = s_frame r /\ j = fst f /\ l = mkLoc (fst f) n (Z.of_nat (dn n) * record_bytes g + 16))).
      { intros p fn j l (i' & k' & r' & A & B & C & D & E).
        destruct (Nat.eq_dec i' n) as [->|Hne].
        - rewrite Hdnn in A. destruct (Nat.eq_dec k' (dn n)) as [->|Hne].
          + right. rewrite Hrec in B. injection B as <- <-. auto.
          + left. exists n, k', r'. repeat split; auto. lia.
        - left. rewrite Hdn in A by auto. exists i', k', r'. repeat split; auto. }
      intros p m1. rewrite (nth_error_upd _ _ _ _ _ Em).
      destruct (Nat.eqb_spec p (Z.to_nat (s_pos r))) as [->|Hne].
      * intros [= <-]. split; [apply map_put_ordered; auto|].
        intros fn fm1 Hg1. rewrite map_get_put in Hg1 by auto. rewrite Z2Nat.id by auto.
        destruct (Z.eqb_spec (s_frame r) fn) as [<-|Hnf].
        -- injection Hg1 as <-. split; [unfold fm', Zlen in *; rewrite upd_length; auto|].
           split; [rewrite Z2Nat.id in Hown by auto; auto|].
           intros j l Hj. unfold fm'.
           destruct (nth_error fm (Z.to_nat (fst f))) as [old|] eqn:Eold.
           2: { apply nth_error_None in Eold. unfold Zlen in Hl4. lia. }
           rewrite (nth_error_upd _ _ _ _ _ Eold).
           destruct (Nat.eqb_spec (Z.to_nat j) (Z.to_nat (fst f))) as [E|E].
           ++ assert (j = fst f) as -> by lia. split.
              ** intros [= <-]. exists n, (dn n), r. rewrite Hdnn. repeat split; auto.
              ** intros H. destruct (Hslot_inv _ _ _ _ H) as [(i' & k' & r' & A & B & C & D & E')|(_ & _ & _ & ->)]; [|reflexivity].
                 exfalso. destruct (rec_unique _ _ _ _ _ _ Hrec B) as [<- <-]; [unfold mkey; cbn [fst snd]; congruence|]. lia.
           ++ specialize (Hslots j l Hj). rewrite Z2Nat.id in Hslots by auto. rewrite Hslots. split; [apply Hslot_mono|].
              intros H. destruct (Hslot_inv _ _ _ _ H) as [H'|(_ & _ & -> & _)]; [auto|congruence].
        -- destruct (Hm _ _ Hg1) as (A & B & C). rewrite Z2Nat.id in * by auto. split; auto. split; auto.
           intros j l Hj. rewrite (C j l Hj). split; [apply Hslot_mono|].
           intros H. destruct (Hslot_inv _ _ _ _ H) as [H'|(_ & -> & _)]; [auto|congruence].
      * intros Hm1. destruct (h_map0 _ _ Hm1) as [A B]. split; auto. intros fn fm1 Hg1.
        destruct (B _ _ Hg1) as (C & D & E). split; auto. split; auto.
        intros j l Hj. rewrite (E j l Hj). split; [apply Hslot_mono|].
        intros H. destruct (Hslot_inv _ _ _ _ H) as [H'|(E0 & _)]; [auto|]. exfalso. apply Hne. rewrite <- E0. symmetry. apply Nat2Z.id.
    + intros i' k e A B. apply Hk. destruct (Nat.eq_dec i' n) as [->|Hne].
      * rewrite Hdnn in B. destruct (Nat.eq_dec k (dn n)) as [->|Hne].
        -- rewrite Hrec in A. injection A as <-. exists m, fm. auto.
        -- eapply h_key0; eauto. lia.
      * rewrite Hdn in B by auto. eauto.
  - discriminate.
Qed.

Definition hstart (threads : nat) : hstate :=
  mkHS (map (fun f => mkMS (fst f) (content f) 0 false) fs) lo (repeat [] (Z.to_nat N)) (repeat HCheck threads).

Lemma hstart_ok threads : 0 <= N -> HInv threads (fun _ => O) (hstart threads).
Proof.
  intros HN.
  assert (Hr : forall i w, nth_error (repeat HCheck threads) i = Some w -> w = HCheck).
  { intros i w H. apply nth_error_In, repeat_spec in H. auto. }
  assert (Hs : forall n f, nth_error fs n = Some f -> stream_is (hs_streams (hstart threads)) n f 0).
  { intros n f H. unfold stream_is. cbn [hs_streams hstart]. now rewrite nth_error_map', H. }
  constructor; cbn [hs_streams hs_processed hs_map hs_workers hstart]; auto.
  - apply repeat_length.
  - eauto.
  - now rewrite map_length.
  - intros i w H. rewrite (Hr _ _ H). simpl. auto.
  - intros i j wi wj n H _ F _. rewrite (Hr _ _ H) in F. discriminate.
  - intros n f H _. split; auto. split; [apply (Hs n f H)|]. intros i w H1. rewrite (Hr _ _ H1). discriminate.
  - intros. lia.
  - intros. lia.
  - pose proof (ndone_le (repeat HCheck threads)). lia.
  - intros i w n H F. rewrite (Hr _ _ H) in F. discriminate.
  - unfold Zlen. rewrite repeat_length. lia.
  - intros p m H. apply nth_error_In, repeat_spec in H. subst m. split; [constructor|]. discriminate.
  - intros. lia.
Qed.

Lemma hrun_ok threads cs : lim + Z.of_nat threads < 2 ^ 32 -> forall dn s res,
  HInv threads dn s -> hrun g lim cs s = Some res -> exists s' dn', res = Ok s' /\ HInv threads dn' s'.
Proof.
  intros Hlim. induction cs as [|c cs IH]; simpl; intros dn s res I H.
  - injection H as <-. eauto.
  - destruct (hstep g lim c s) as [o|] eqn:E; [|discriminate].
    destruct (hstep_ok _ _ _ _ _ Hlim I E) as (s1 & dn1 & -> & I1). eauto.
Qed.

(** What the map is in the end: the part of it that is in the files lo .. lim-1. *)
Definition map_part (m : scanmap) : Prop :=
  Zlen m = N /\ forall p fms, nth_error m p = Some fms -> ordered fms /\
    (forall fn, (exists fm, map_get fn fms = Some fm) <->
       exists i k e, lo <= Z.of_nat i < lim /\
         record_at fs i k = Some e /\ s_pos (snd e) = Z.of_nat p /\ s_frame (snd e) = fn) /\
    forall fn fm, map_get fn fms = Some fm -> Zlen fm = 4 /\
      forall j l, 0 <= j < 4 -> (nth_error fm (Z.to_nat j) = Some (Some l) <->
        exists i k r, lo <= Z.of_nat i < lim /\ record_at fs i k = Some (j, r) /\
          s_pos r = Z.of_nat p /\ s_frame r = fn /\
          l = mkLoc j i (Z.of_nat k * record_bytes g + 16)).

Definition map_final (m : scanmap) : Prop :=
  Zlen m = N /\ forall p fms, nth_error m p = Some fms -> ordered fms /\
    (forall fn, (exists fm, map_get fn fms = Some fm) <->
       exists i k e, record_at fs i k = Some e /\ s_pos (snd e) = Z.of_nat p /\ s_frame (snd e) = fn) /\
    forall fn fm, map_get fn fms = Some fm -> Zlen fm = 4 /\
      forall j l, 0 <= j < 4 -> (nth_error fm (Z.to_nat j) = Some (Some l) <->
        exists i k r, record_at fs i k = Some (j, r) /\ s_pos r = Z.of_nat p /\ s_frame r = fn /\
          l = mkLoc j i (Z.of_nat k * record_bytes g + 16)).

Lemma record_at_lt i k e : record_at fs i k = Some e -> Z.of_nat i < Zlen fs.
Proof.
  unfold record_at. destruct (nth_error fs i) eqn:E; [|discriminate]. intros _.
  assert (i < List.length fs)%nat by (apply nth_error_Some; congruence). unfold Zlen. lia.
Qed.

Lemma hfinal threads dn s : (0 < threads)%nat -> HInv threads dn s -> hfinished s = true -> map_part (hs_map s).
Proof.
  intros Ht I Hf.
  assert (Hd : forall i w, nth_error (hs_workers s) i = Some w -> w = HDone).
  { intros i w H. unfold hfinished in Hf. rewrite forallb_forall in Hf.
    specialize (Hf w (nth_error_In _ _ H)). destruct w; auto; discriminate. }
  assert (Hp : lim <= hs_processed s).
  { destruct (hs_workers s) as [|w ws] eqn:E.
    - pose proof (h_nw _ _ _ I). rewrite E in H. simpl in H. lia.
    - pose proof (h_w _ _ _ I O w). rewrite E in H. specialize (H eq_refl).
      rewrite (Hd O w) in H by now rewrite ?E. exact H. }
  assert (Hall : forall n f, nth_error fs n = Some f -> lo <= Z.of_nat n < lim -> dn n = List.length (snd f)).
  { intros n f H Hr.
    destruct (h_old _ _ _ I n f H Hr ltac:(lia)) as [A|(i & w & Hi & Fi)]; auto.
    rewrite (Hd _ _ Hi) in Fi. discriminate. }
  assert (Hreg : forall i k e, record_at fs i k = Some e -> (lo <= Z.of_nat i < lim <-> (k < dn i)%nat)).
  { intros i k e H. split.
    - intros Hr. unfold record_at in H. destruct (nth_error fs i) as [f|] eqn:E; [|discriminate].
      rewrite (Hall _ _ E Hr). apply nth_error_Some. destruct (nth_error (snd f) k); congruence.
    - intros Hk. destruct (Z_le_dec lo (Z.of_nat i)), (Z_lt_dec (Z.of_nat i) lim); [lia| | |];
        exfalso; rewrite (h_out _ _ _ I i) in Hk by lia; lia. }
  split; [apply (h_len _ _ _ I)|]. intros p fms Hfms.
  destruct (h_map _ _ _ I _ _ Hfms) as [Ho Hm]. split; auto. split.
  - intros fn. split.
    + intros [fm Hfm]. apply (Hm _ _ Hfm).
    + intros (i & k & e & Hr & He & Hpe & <-).
      destruct (h_key _ _ _ I _ _ _ He (proj1 (Hreg _ _ _ He) Hr)) as (fms' & fm & A & B).
      rewrite Hpe, Nat2Z.id in A. rewrite Hfms in A. injection A as <-. eauto.
  - intros fn fm Hfm. destruct (Hm _ _ Hfm) as (A & _ & C). split; auto.
    intros j l Hj. rewrite (C j l Hj). unfold slot. split.
    + intros (i & k & r & K & H & H'). exists i, k, r. split; [apply (Hreg _ _ _ H); auto|]. auto.
    + intros (i & k & r & K & H & H'). exists i, k, r. split; [apply (Hreg _ _ _ H); auto|]. auto.
Qed.

Lemma map_part_final m : lo = 0 -> lim = Zlen fs -> map_part m -> map_final m.
Proof.
  intros -> -> [L H]. split; auto. intros p fms Hp. destruct (H p fms Hp) as (A & B & C).
  split; auto. split.
  - intros fn. rewrite (B fn). split.
    + intros (i & k & e & _ & X). eauto.
    + intros (i & k & e & X & Y). exists i, k, e. split; [|auto]. apply record_at_lt in X. lia.
  - intros fn fm Hf. destruct (C fn fm Hf) as [D E]. split; auto. intros j l Hj. rewrite (E j l Hj). split.
    + intros (i & k & e & _ & X). eauto.
    + intros (i & k & e & X & Y). exists i, k, e. split; [|auto]. apply record_at_lt in X. lia.
Qed.

Lemma ordered_head {A} k (a : A) m : ordered ((k, a) :: m) -> ordered m /\ forall k' b, In (k', b) m -> k < k'.
Proof.
  intros H. unfold ordered in H. simpl in H. inversion H; subst. split; auto.
  intros k' b Hin. rewrite Forall_forall in H3. apply H3. apply (in_map fst _ _ Hin).
Qed.

Lemma ordered_ext {A} (a b : list (Z * A)) : ordered a -> ordered b ->
  (forall k, map_get k a = map_get k b) -> a = b.
Proof.
  revert b. induction a as [|[k x] a IH]; intros [|[k' y] b] Ha Hb H; auto.
  - specialize (H k'). simpl in H. rewrite Z.eqb_refl in H. discriminate.
  - specialize (H k). simpl in H. rewrite Z.eqb_refl in H. discriminate.
  - destruct (ordered_head _ _ _ Ha) as [Ha' La]. destruct (ordered_head _ _ _ Hb) as [Hb' Lb].
    assert (k = k').
    { assert (k' <= k).
      { pose proof (H k) as Hk. simpl in Hk. rewrite Z.eqb_refl in Hk. destruct (Z.eqb_spec k' k); [lia|].
        symmetry in Hk. apply map_get_in in Hk; auto. apply Lb in Hk. lia. }
      assert (k <= k').
      { pose proof (H k') as Hk. simpl in Hk. rewrite Z.eqb_refl in Hk. destruct (Z.eqb_spec k k'); [lia|].
        apply map_get_in in Hk; auto. apply La in Hk. lia. }
      lia. }
    subst k'. f_equal.
    + specialize (H k). simpl in H. rewrite Z.eqb_refl in H. congruence.
    + apply IH; auto. intros k2. specialize (H k2). simpl in H. destruct (Z.eqb_spec k k2) as [E|Hne]; auto. subst k2.
      destruct (map_get k a) eqn:E1.
      { apply map_get_in in E1; auto. apply La in E1. lia. }
      destruct (map_get k b) eqn:E2; auto.
      apply map_get_in in E2; auto. apply Lb in E2. lia.
Qed.

Lemma map_final_unique m1 m2 : map_final m1 -> map_final m2 -> m1 = m2.
Proof.
  intros [L1 H1] [L2 H2].
  apply nth_error_ext. intros p.
  destruct (nth_error m1 p) as [f1|] eqn:E1, (nth_error m2 p) as [f2|] eqn:E2; auto.
  2: { assert (p < List.length m1)%nat by (apply nth_error_Some; congruence). apply nth_error_None in E2. unfold Zlen in *. lia. }
  2: { assert (p < List.length m2)%nat by (apply nth_error_Some; congruence). apply nth_error_None in E1. unfold Zlen in *. lia. }
  f_equal. destruct (H1 _ _ E1) as (O1 & K1 & S1). destruct (H2 _ _ E2) as (O2 & K2 & S2).
  apply ordered_ext; auto. intros fn.
  destruct (map_get fn f1) as [a|] eqn:G1, (map_get fn f2) as [b|] eqn:G2; auto.
  - f_equal. destruct (S1 _ _ G1) as [La Sa]. destruct (S2 _ _ G2) as [Lb Sb].
    apply nth_error_ext. intros j.
    destruct (le_lt_dec 4 j) as [Hj|Hj].
    { rewrite !(proj2 (nth_error_None _ _)); auto; unfold Zlen in *; lia. }
    assert (E : forall l, nth_error a j = Some (Some l) <-> nth_error b j = Some (Some l)).
    { intros l. specialize (Sa (Z.of_nat j) l ltac:(lia)). specialize (Sb (Z.of_nat j) l ltac:(lia)).
      rewrite Nat2Z.id in Sa, Sb. rewrite Sa, Sb. reflexivity. }
    destruct (nth_error a j) as [[l|]|] eqn:A.
    + symmetry. apply E. reflexivity.
    + destruct (nth_error b j) as [[l|]|] eqn:B; auto.
      * pose proof (proj2 (E l) eq_refl). discriminate.
      * apply nth_error_None in B. unfold Zlen in *. lia.
    + apply nth_error_None in A. unfold Zlen in *. lia.
  - exfalso. assert (exists fm, map_get fn f2 = Some fm) as [fm E]; [|congruence].
    apply K2, K1. eauto.
  - exfalso. assert (exists fm, map_get fn f1 = Some fm) as [fm E]; [|congruence].
    apply K1, K2. eauto.
Qed.

(** *** Termination *)

Definition hweight (w : hworker) : Z :=
  match w with HDone => 0 | HClaim => 1 | HCheck => 2 | HPeek _ => 3 | HLoc _ _ => 4 | HInsert _ _ => 5 end.
Definition left_bytes (st : mstream) : Z := Z.max 0 (Zlen (ms_content st) - ms_pos st).
Definition hmeasure (s : hstate) : Z :=
  zsum (map left_bytes (hs_streams s)) + 4 * Z.max 0 (lim - hs_processed s) +
  zsum (map hweight (hs_workers s)).

Lemma hmeasure_step threads dn s i s' : lim + Z.of_nat threads < 2 ^ 32 ->
  HInv threads dn s -> hstep g lim i s = Some (Ok s') -> hmeasure s' < hmeasure s.
Proof.
  intros Hlim I Hs. unfold hstep in Hs.
  destruct (nth_error (hs_workers s) i) as [w|] eqn:Ew; [|discriminate].
  assert (Hws : forall w', zsum (map hweight (upd (hs_workers s) i w')) = zsum (map hweight (hs_workers s)) - hweight w + hweight w')
    by (intros; apply zsum_upd; auto).
  unfold hmeasure. destruct w as [| |n|n h|n h|].
  - injection Hs as <-. cbn [hs_streams hs_processed hs_workers set_hworker]. rewrite Hws.
    destruct (_ <? _); cbn [hweight]; lia.
  - injection Hs as <-. cbn [hs_streams hs_processed hs_workers set_hworker]. rewrite Hws.
    pose proof (ndone_lt _ _ _ Ew eq_refl) as Hnd. pose proof (h_proc _ _ _ I) as Hp0. rewrite (h_nw _ _ _ I) in Hnd.
    assert (Hu : u32 (hs_processed s + 1) = hs_processed s + 1) by (apply Z.mod_small; lia).
    rewrite Hu. destruct (Z.leb_spec lim (hs_processed s)); cbn [hweight]; lia.
  - destruct (nth_error (hs_streams s) n) as [st|] eqn:En; [|discriminate].
    destruct (existsb _ _); [discriminate|].
    destruct (ms_rest st) as [|b0 t0] eqn:Er.
    + injection Hs as <-. cbn [hs_streams hs_processed hs_workers set_hworker]. rewrite Hws. cbn [hweight]. lia.
    + rewrite <- Er in Hs. unfold lift in Hs.
      destruct (sector_header (ms_rest st)) as [[h rem']| | |] eqn:Eh; cbn [bind] in Hs; try discriminate.
      apply sector_header_len in Eh. assert (Hlen : 16 <= Zlen (ms_rest st)) by (pose proof (Zlen_nonneg rem'); lia).
      injection Hs as <-. cbn [hs_streams hs_processed hs_workers set_hworker]. rewrite Hws, (zsum_upd left_bytes _ _ _ _ En).
      destruct (nth_error fs n) as [f|] eqn:Ef.
      2: { exfalso. apply nth_error_None in Ef. assert (n < List.length (hs_streams s))%nat by (apply nth_error_Some; congruence). pose proof (h_ns _ _ _ I). lia. }
      destruct (h_str _ _ _ I _ _ Ef) as [p Hp]. unfold stream_is in Hp. rewrite En in Hp. injection Hp as ->.
      unfold ms_rest in Hlen. cbn [ms_pos ms_content] in Hlen. unfold Zlen in Hlen. rewrite skipn_length in Hlen.
      unfold left_bytes, ms_seek. cbn [ms_pos ms_content ms_fail hweight]. unfold Zlen. lia.
  - destruct (nth_error (hs_map s) _); [|discriminate]. injection Hs as <-.
    cbn [hs_streams hs_processed hs_workers set_hworker]. rewrite Hws. cbn [hweight]. lia.
  - destruct (nth_error (hs_streams s) n) as [st|] eqn:En; [|discriminate].
    destruct (nth_error (hs_map s) _); [|discriminate]. destruct (existsb _ _); [discriminate|].
    destruct (map_get _ _) as [fm|]; [|discriminate]. unfold lift in Hs.
    destruct (wr fm (ms_sector st) (Some (mkLoc (ms_sector st) n (ms_pos st)))) as [fm'| | |] eqn:Eh; cbn [bind] in Hs; try discriminate.
    injection Hs as <-. cbn [hs_streams hs_processed hs_workers set_hworker]. rewrite Hws, (zsum_upd left_bytes _ _ _ _ En).
    cbn [hweight]. rewrite sector_size_5. pose proof (npix_sector_4 g Hg). destruct Hg as (? & ? & _).
    assert (left_bytes (ms_seek (ms_pos st + npix_sector g * 2) st) <= left_bytes st); [|lia].
    unfold left_bytes, ms_seek. cbn [ms_pos ms_content]. destruct (ms_fail st); lia.
  - discriminate.
Qed.

Lemma hmeasure_nonneg s : 0 <= hmeasure s.
Proof.
  unfold hmeasure.
  assert (0 <= zsum (map left_bytes (hs_streams s))).
  { induction (hs_streams s); simpl; [lia|]. unfold left_bytes at 1. lia. }
  assert (0 <= zsum (map hweight (hs_workers s))).
  { induction (hs_workers s) as [|w l IH]; simpl; [lia|]. assert (0 <= hweight w) by (destruct w; simpl; lia). lia. }
  lia.
Qed.

Lemma hrun_length threads cs : lim + Z.of_nat threads < 2 ^ 32 -> forall dn s s',
  HInv threads dn s -> hrun g lim cs s = Some (Ok s') -> Zlen cs <= hmeasure s - hmeasure s'.
Proof.
  intros Hlim. induction cs as [|c cs IH]; simpl; intros dn s s' I H.
  - injection H as <-. unfold Zlen. simpl. lia.
  - destruct (hstep g lim c s) as [o|] eqn:E; [|discriminate].
    destruct (hstep_ok _ _ _ _ _ Hlim I E) as (s1 & dn1 & -> & I1).
    specialize (IH _ _ _ I1 H). pose proof (hmeasure_step _ _ _ _ _ Hlim I E).
    assert (Zlen (c :: cs) = 1 + Zlen cs) by (unfold Zlen; simpl; lia). lia.
Qed.

Lemma hstep_enabled threads dn s i w : lim + Z.of_nat threads < 2 ^ 32 ->
  HInv threads dn s -> nth_error (hs_workers s) i = Some w -> w <> HDone ->
  exists s', hstep g lim i s = Some (Ok s').
Proof.
  intros Hlim I Hw Hnd.
  destruct (hstep g lim i s) as [o|] eqn:E.
  - destruct (hstep_ok _ _ _ _ _ Hlim I E) as (s1 & dn1 & -> & I1). eauto.
  - exfalso. unfold hstep in E. rewrite Hw in E. destruct w as [| |n|n h|n h|]; try discriminate; try congruence.
    + destruct (nth_error (hs_streams s) n) as [st|]; [|discriminate]. destruct (existsb _ _); [discriminate|].
      destruct (ms_rest st); discriminate.
    + destruct (nth_error (hs_map s) _); discriminate.
    + destruct (nth_error (hs_streams s) n) as [st|]; [|discriminate].
      destruct (nth_error (hs_map s) _); [|discriminate]. destruct (existsb _ _); [discriminate|].
      destruct (map_get _ _); discriminate.
Qed.
End Pass1.
