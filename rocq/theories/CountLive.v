(** Safety, progress and termination of the threaded electron counter. *)
From Coq Require Import String ZArith List Lia Permutation Bool.
From Verif Require Import Base BaseFacts BlockModel PermFacts CountModel CountSpec CountProofs.
Import ListNotations.
Open Scope Z_scope.
Local Arguments skipn : simpl never.
Local Arguments firstn : simpl never.
Local Arguments Z.add : simpl never.
Local Arguments Z.mul : simpl never.

Lemma in_upd {A} (l : list A) i x y : In y (upd l i x) -> y = x \/ In y l.
Proof.
  revert i; induction l as [|a l IH]; destruct i; simpl; intros H; auto.
  - destruct H; auto.
  - destruct H as [H|H]; auto. apply IH in H. tauto.
Qed.

Lemma in_upd_other {A} (l : list A) i w x y :
  nth_error l i = Some w -> y <> w -> In y l -> In y (upd l i x).
Proof.
  revert i; induction l as [|a l IH]; destruct i; simpl; intros E N H; try discriminate; auto.
  - injection E as <-. destruct H; [congruence|auto].
  - destruct H; eauto.
Qed.

Lemma upd_In {A} (l : list A) i w x : nth_error l i = Some w -> In x (upd l i x).
Proof.
  revert i; induction l as [|a l IH]; destruct i; simpl; intros E; try discriminate; auto.
Qed.

Lemma zsum_map_upd {A} (f : A -> Z) l i w x :
  nth_error l i = Some w -> zsum (map f (upd l i x)) = zsum (map f l) - f w + f x.
Proof.
  revert i; induction l as [|a l IH]; destruct i; simpl; intros E; try discriminate.
  - injection E as <-. lia.
  - rewrite (IH _ E). lia.
Qed.

Lemma zsum_perm_map {A} (f : A -> Z) l l' :
  Permutation l l' -> zsum (map f l) = zsum (map f l').
Proof. intros H. apply zsum_perm. apply Permutation_map; auto. Qed.

Section Live.
Context {Th : Type}.
Variable thresholds_of : list block -> outcome Th.
Variable count : Th -> (Z * Z) -> list Z -> outcome (list Z).
Variable nsamples : Z.
Variable scan_opt : Z * Z.
Variable B : list block.

Notation step := (count_step thresholds_of count nsamples scan_opt).
Notation run := (count_run thresholds_of count nsamples scan_opt).
Notation N := (u32 nsamples).
Notation inv := (inv thresholds_of count nsamples scan_opt B).
Notation invA := (invA B).
Notation invB := (invB thresholds_of count nsamples scan_opt B).

(** *** Wake-ups are not lost *)
Record live (s : csys Th) : Prop := {
  lv_main : c_main s = MAsleep -> Zlen (c_samples s) <> N \/ In WNotify (c_workers s);
  lv_asleep : forall b, In (WAsleep b) (c_workers s) ->
    (c_counting s = false /\ Zlen (c_samples s) = N) \/ c_main s = MNotify;
  lv_awake : forall b, In (WAwake b) (c_workers s) -> Zlen (c_samples s) = N
}.

Lemma live_init nw : live (count_init nw B).
Proof.
  constructor; simpl; try discriminate; intros b Hb; apply repeat_spec in Hb; discriminate.
Qed.

(** A worker moves to a phase that does not wait. *)
Lemma live_set_worker s i w w' :
  live s -> nth_error (c_workers s) i = Some w -> w <> WNotify ->
  (forall b, w' = WAsleep b -> (c_counting s = false /\ Zlen (c_samples s) = N) \/ c_main s = MNotify) ->
  (forall b, w' = WAwake b -> Zlen (c_samples s) = N) ->
  live (set_worker s i w').
Proof.
  intros [L1 L2 L3] Ew Nw H1 H2. constructor; simpl.
  - intros Hm. destruct (L1 Hm) as [?|HN]; auto. right.
    apply (in_upd_other _ _ _ _ _ Ew); auto.
  - intros b Hb. apply in_upd in Hb. destruct Hb as [Hb|Hb]; eauto.
  - intros b Hb. apply in_upd in Hb. destruct Hb as [Hb|Hb]; eauto.
Qed.

Lemma live_set_events s e : live s -> live (set_events s e).
Proof. intros []; constructor; auto. Qed.

Lemma live_set_main s m :
  live s -> m <> MAsleep -> c_main s <> MNotify -> live (set_main s m).
Proof.
  intros [L1 L2 L3] H1 H2. constructor; simpl; auto; try contradiction.
  intros b Hb. destruct (L2 b Hb); auto. contradiction.
Qed.

Lemma live_wait s i b w s' :
  common nsamples B s -> live s -> nth_error (c_workers s) i = Some w -> w <> WNotify ->
  N <= Zlen (c_samples s) ->
  worker_wait s i b = Ok s' -> live s'.
Proof.
  intros C L Ew Nw HN H. pose proof (cm_len _ _ _ C). unfold worker_wait in H.
  destruct (c_counting s) eqn:Ec.
  - apply bind_ok in H. destruct H as (jobs & _ & H). injection H as <-.
    apply (live_set_worker s i w); auto; discriminate.
  - injection H as <-. apply (live_set_worker s i w); auto; try discriminate.
    intros b' _. left. split; auto. lia.
Qed.

Lemma live_step c s s' : inv s -> live s -> step c s = Some (Ok s') -> live s'.
Proof.
  intros [C I] L H. destruct c as [i k|i|]; unfold count_step in H.
  - destruct (nth_error (c_workers s) i) as [[]|] eqn:Ew; try discriminate.
    destruct (nth_error (c_todo s) k) as [b|]; try discriminate. injection H as <-.
    pose proof (live_set_worker s i WIdle (WGot b) L Ew) as L'.
    assert (L'' : live (set_worker s i (WGot b))) by (apply L'; discriminate).
    destruct L'' as [L1 L2 L3]. constructor; auto.
  - destruct (nth_error (c_workers s) i) as [w|] eqn:Ew; [|discriminate].
    destruct w; simpl in H; try discriminate.
    + injection H as H. destruct (c_counting s).
      * apply bind_ok in H. destruct H as (jobs & _ & H). injection H as <-.
        apply (live_set_worker s i _ _ L Ew); discriminate.
      * injection H as <-. apply (live_set_worker s i _ _ L Ew); discriminate.
    + destruct (mutex_free s); [|discriminate]. injection H as H.
      destruct (Z.ltb_spec (Zlen (c_samples s)) N) as [Hlt|Hge].
      * apply bind_ok in H. destruct H as (c & Hc & H). injection H as <-.
        destruct L as [L1 L2 L3].
        set (samples' := if c then c_samples s ++ [b] else c_samples s) in *.
        constructor; simpl.
        -- intros Hm. destruct (Z.eqb_spec (Zlen samples') N) as [E|Ne]; auto.
           right. apply (upd_In _ _ _ _ Ew).
        -- intros b' Hb. apply in_upd in Hb. destruct Hb as [Hb|Hb].
           ++ destruct (_ =? _); discriminate.
           ++ destruct (L2 b' Hb) as [[? ?]|]; auto. lia.
        -- intros b' Hb. apply in_upd in Hb. destruct Hb as [Hb|Hb].
           ++ destruct (_ =? _); discriminate.
           ++ pose proof (L3 b' Hb). lia.
      * apply (live_wait s i b (WWantLock b)); auto; discriminate.
    + injection H as <-. destruct L as [L1 L2 L3]. constructor; simpl.
      * destruct (c_main s); discriminate.
      * intros b Hb. apply in_upd in Hb. destruct Hb as [Hb|Hb]; [discriminate|].
        apply in_map_iff in Hb. destruct Hb as (w & E & Hw). destruct w; discriminate.
      * intros b Hb. apply in_upd in Hb. destruct Hb as [Hb|Hb]; [discriminate|].
        apply in_map_iff in Hb. destruct Hb as (w & E & Hw). destruct w; try discriminate.
        -- simpl in E. injection E as ->. destruct (L2 b Hw) as [[_ ?]|Hm]; auto.
           destruct I as [I|(t & I)]; [|apply (ib_len _ _ _ _ _ _ _ I)].
           pose proof (ia_main _ _ I) as X. rewrite Hm in X. destruct X.
        -- simpl in E. injection E as ->. eauto.
    + destruct (mutex_free s); [|discriminate]. injection H as H.
      apply (live_wait s i b (WAwake b)); auto; try discriminate.
      pose proof (lv_awake _ L b). rewrite H0; [lia|]. eapply nth_error_In; eauto.
    + destruct jobs as [|j rest].
      * injection H as <-. apply (live_set_worker s i _ _ L Ew); discriminate.
      * injection H as H. apply bind_ok in H. destruct H as (ev & _ & H). injection H as <-.
        apply (live_set_worker s i _ _ L Ew); discriminate.
    + destruct (negb _); [injection H as H; discriminate|].
      destruct (existsb _ _); [discriminate|]. injection H as H.
      assert (s' = set_worker s i (WPushing locked pos ev rest)).
      { destruct (c_main s); try congruence. destruct (_ =? _); congruence. }
      subst s'. apply (live_set_worker s i _ _ L Ew); discriminate.
    + injection H as H. destruct (2 <=? _); [discriminate|]. apply bind_ok in H. destruct H as (e & _ & H). injection H as <-.
      apply (live_set_worker (set_events s e) i (WPushing locked pos ev rest));
        auto using live_set_events; try discriminate.
  - assert (CK : main_check thresholds_of nsamples scan_opt s = Some (Ok s') -> pre_m (c_main s) ->
               live s').
    { clear H. intros H Hm. unfold main_check in H. destruct (mutex_free s); [|discriminate].
      injection H as H.
      destruct (Z.eqb_spec (Zlen (c_samples s)) N) as [En|Nn].
      - unfold main_thresholds in H. apply bind_ok in H. destruct H as (t & _ & H).
        apply bind_ok in H. destruct H as (b0 & _ & H). injection H as <-.
        constructor; simpl; auto; discriminate.
      - injection H as <-. destruct L as [L1 L2 L3]. constructor; simpl; auto.
        intros b Hb. destruct (L2 b Hb) as [?|E]; auto. rewrite E in Hm. destruct Hm. }
    unfold main_step in H.
    destruct (c_main s) eqn:Em; try (apply CK; simpl; auto; fail); clear CK; try discriminate.
    + injection H as <-. constructor; simpl; try discriminate.
      * intros b Hb. apply in_map_iff in Hb. destruct Hb as (w & E & Hw). destruct w; discriminate.
      * intros b Hb.
        destruct I as [I|(t & I)]; [|apply (ib_len _ _ _ _ _ _ _ I)].
        pose proof (ia_main _ _ I) as X. rewrite Em in X. destruct X.
    + destruct jobs as [|j rest]; [destruct blocks as [|b bs]|].
      * injection H as <-. apply live_set_main; auto; congruence.
      * injection H as H. apply bind_ok in H. destruct H as (jobs & _ & H). injection H as <-.
        apply live_set_main; auto; congruence.
      * assert (H' : (let* ev := count_job count s j in Ok (set_main s (MPush (fst j) ev rest blocks))) = Ok s')
          by (destruct blocks; injection H as H; exact H).
        apply bind_ok in H'. destruct H' as (ev & _ & H'). injection H' as <-.
        apply live_set_main; auto; congruence.
    + injection H as H. destruct (negb _); [discriminate|]. destruct (existsb _ _); [discriminate|].
      injection H as <-. apply live_set_main; auto; congruence.
    + injection H as H. apply bind_ok in H. destruct H as (e & _ & H). injection H as <-.
      apply live_set_main; auto using live_set_events; simpl; congruence.
    + destruct (_ && _); [|discriminate]. injection H as <-.
      apply live_set_main; auto; congruence.
Qed.

(** *** Worker count never changes *)
Lemma workers_length c s s' : step c s = Some (Ok s') ->
  List.length (c_workers s') = List.length (c_workers s).
Proof.
  intros H. destruct c as [i k|i|]; unfold count_step in H.
  - destruct (nth_error (c_workers s) i) as [[]|] eqn:Ew; try discriminate.
    destruct (nth_error (c_todo s) k) as [b|]; try discriminate. injection H as <-.
    simpl. apply upd_length.
  - destruct (nth_error (c_workers s) i) as [w|] eqn:Ew; [|discriminate].
    assert (WW : forall b s', worker_wait s i b = Ok s' ->
              List.length (c_workers s') = List.length (c_workers s)).
    { intros b s0 Hw. unfold worker_wait in Hw. destruct (c_counting s).
      - apply bind_ok in Hw. destruct Hw as (? & _ & Hw). injection Hw as <-. simpl. apply upd_length.
      - injection Hw as <-. simpl. apply upd_length. }
    destruct w; simpl in H; try discriminate.
    + injection H as H. destruct (c_counting s).
      * apply bind_ok in H. destruct H as (jobs & _ & H). injection H as <-. simpl. apply upd_length.
      * injection H as <-. simpl. apply upd_length.
    + destruct (mutex_free s); [|discriminate]. injection H as H.
      destruct (_ <? _); eauto.
      apply bind_ok in H. destruct H as (c & _ & H). injection H as <-. simpl. apply upd_length.
    + injection H as <-. simpl. rewrite upd_length. apply map_length.
    + destruct (mutex_free s); [|discriminate]. injection H as H. eauto.
    + destruct jobs as [|j rest].
      * injection H as <-. simpl. apply upd_length.
      * injection H as H. apply bind_ok in H. destruct H as (ev & _ & H). injection H as <-.
        simpl. apply upd_length.
    + destruct (negb _); [injection H as H; discriminate|].
      destruct (existsb _ _); [discriminate|]. injection H as H.
      assert (s' = set_worker s i (WPushing locked pos ev rest)).
      { destruct (c_main s); try congruence. destruct (_ =? _); congruence. }
      subst s'. simpl. apply upd_length.
    + injection H as H. destruct (2 <=? _); [discriminate|]. apply bind_ok in H. destruct H as (e & _ & H). injection H as <-.
      simpl. apply upd_length.
  - unfold main_step, main_check, main_thresholds in H.
    destruct (c_main s); try discriminate;
      repeat match type of H with
      | context [mutex_free s] => destruct (mutex_free s); [|discriminate]
      end.
    + injection H as H. destruct (_ =? _); [|injection H as <-; auto].
      apply bind_ok in H. destruct H as (t & _ & H). apply bind_ok in H. destruct H as (b & _ & H).
      injection H as <-. reflexivity.
    + injection H as H. destruct (_ =? _); [|injection H as <-; auto].
      apply bind_ok in H. destruct H as (t & _ & H). apply bind_ok in H. destruct H as (b & _ & H).
      injection H as <-. reflexivity.
    + injection H as <-. simpl. apply map_length.
    + destruct jobs as [|j rest]; [destruct blocks as [|b bs]|].
      * injection H as <-. reflexivity.
      * injection H as H. apply bind_ok in H. destruct H as (jobs & _ & H). injection H as <-. reflexivity.
      * assert (H' : (let* ev := count_job count s j in Ok (set_main s (MPush (fst j) ev rest blocks))) = Ok s')
          by (destruct blocks; injection H as H; exact H).
        apply bind_ok in H'. destruct H' as (ev & _ & H'). injection H' as <-. reflexivity.
    + injection H as H. destruct (negb _); [discriminate|]. destruct (existsb _ _); [discriminate|].
      injection H as <-. reflexivity.
    + injection H as H. apply bind_ok in H. destruct H as (e & _ & H). injection H as <-. reflexivity.
    + destruct (_ && _); [|discriminate]. injection H as <-. reflexivity.
Qed.

(** *** Deadlock freedom *)
Lemma filter_len_le {A} (f : A -> bool) l : (List.length (filter f l) <= List.length l)%nat.
Proof. induction l; simpl; auto. destruct (f a); simpl; lia. Qed.

Definition ncomplete (l : list block) : Z := Zlen (filter is_complete l).

Lemma worker_enabled s : forall w i, nth_error (c_workers s) i = Some w ->
  w <> WIdle -> (forall b, w <> WAsleep b) -> exists c, step c s <> None.
Proof.
  (* first: a worker inside push_back can always move *)
  assert (E1 : forall i l p ev rest, nth_error (c_workers s) i = Some (WPushing l p ev rest) ->
             exists c, step c s <> None).
  { intros i l p ev rest Ew. exists (Work i). simpl. rewrite Ew. simpl. discriminate. }
  assert (E2 : forall i w, nth_error (c_workers s) i = Some w ->
             match w with WCount _ _ | WPush _ _ _ _ | WPushing _ _ _ _ => True | _ => False end ->
             exists c, step c s <> None).
  { intros i w Ew Hw. destruct w; try contradiction.
    - exists (Work i). simpl. rewrite Ew. simpl. destruct jobs; discriminate.
    - destruct (existsb (pushing_at pos) (c_workers s)) eqn:Ex.
      + apply existsb_exists in Ex. destruct Ex as (w' & Hin & Hp).
        destruct w'; simpl in Hp; try discriminate.
        apply In_nth_error in Hin. destruct Hin as [j Hj]. eapply E1; eauto.
      + exists (Work i). simpl. rewrite Ew. simpl. rewrite Ex. destruct (negb _); discriminate.
    - eapply E1; eauto. }
  intros w i Ew N1 N2.
  destruct (mutex_free s) eqn:Em.
  - destruct w; try congruence.
    + exists (Work i). simpl. rewrite Ew. simpl. discriminate.
    + exists (Work i). simpl. rewrite Ew. simpl. rewrite Em. discriminate.
    + exists (Work i). simpl. rewrite Ew. simpl. discriminate.
    + exists (Work i). simpl. rewrite Ew. simpl. rewrite Em. discriminate.
    + eapply E2; eauto; exact I.
    + eapply E2; eauto; exact I.
    + eapply E2; eauto; exact I.
  - unfold mutex_free in Em. apply negb_false_iff in Em. apply existsb_exists in Em.
    destruct Em as (w' & Hin & Hh). apply In_nth_error in Hin. destruct Hin as [j Hj].
    apply (E2 j w'); auto. destruct w'; simpl in *; auto; discriminate.
Qed.

Lemma progress s :
  inv s -> live s -> c_workers s <> [] -> N <= ncomplete B ->
  (forall r, c_main s <> MDone r) -> exists c, step c s <> None.
Proof.
  intros [C I] L Wk HN ND.
  destruct (existsb (fun w => negb (match w with WIdle | WAsleep _ => true | _ => false end))
              (c_workers s)) eqn:Ex.
  { apply existsb_exists in Ex. destruct Ex as (w & Hin & Hw). apply In_nth_error in Hin.
    destruct Hin as [i Hi]. apply (worker_enabled s w i Hi); destruct w; simpl in Hw; congruence. }
  assert (Quiet : forall w, In w (c_workers s) -> w = WIdle \/ exists b, w = WAsleep b).
  { intros w Hin. destruct (match w with WIdle | WAsleep _ => true | _ => false end) eqn:E.
    - destruct w; try discriminate; eauto.
    - assert (X : existsb (fun w => negb (match w with WIdle | WAsleep _ => true | _ => false end))
              (c_workers s) = true) by (apply existsb_exists; exists w; rewrite E; auto). congruence. }
  assert (MF : mutex_free s = true).
  { unfold mutex_free. apply negb_true_iff. apply not_true_is_false. intros X.
    apply existsb_exists in X. destruct X as (w & Hin & Hh).
    destruct (Quiet w Hin) as [->|(b & ->)]; discriminate. }
  destruct (c_main s) eqn:Em.
  - exists MainStep. simpl. unfold main_step. rewrite Em. unfold main_check. rewrite MF. discriminate.
  - (* MAsleep *)
    assert (NN : ~ In WNotify (c_workers s)).
    { intros Hin. destruct (Quiet _ Hin) as [?|(? & ?)]; discriminate. }
    destruct (lv_main _ L Em) as [Hne|?]; [|contradiction].
    assert (AllIdle : forall w, In w (c_workers s) -> w = WIdle).
    { intros w Hin. destruct (Quiet w Hin) as [?|(b & ->)]; auto.
      destruct (lv_asleep _ L b Hin) as [[_ ?]|?]; congruence. }
    destruct (c_todo s) as [|b td] eqn:Et.
    + exfalso. destruct I as [I|(t & I)].
      2:{ apply (ib_main _ _ _ _ _ _ _ I). rewrite Em. exact Logic.I. }
      pose proof (ia_perm _ _ I) as P. rewrite Et in P. simpl in P.
      assert (Z : concat (map wblk (c_workers s)) = []).
      { clear - AllIdle. induction (c_workers s) as [|w ws IH]; simpl; auto.
        rewrite (AllIdle w) by (left; auto). simpl. apply IH. intros; apply AllIdle; right; auto. }
      rewrite Z in P. simpl in P. apply (Permutation_filter is_complete) in P.
      apply Permutation_length in P. rewrite filter_app, app_length in P.
      destruct C as [_ C2 C3 C4].
      assert (Hnil : filter is_complete (c_incomplete s) = []).
      { clear - C3. induction C3; simpl; auto. rewrite H. auto. }
      rewrite Hnil in P. simpl in P. unfold ncomplete, Zlen in *.
      pose proof (filter_len_le is_complete (c_samples s)). lia.
    + destruct (c_workers s) as [|w ws] eqn:Ews; [congruence|].
      exists (Take 0 0). simpl. rewrite Ews, Et. simpl.
      rewrite (AllIdle w) by (left; auto). discriminate.
  - exists MainStep. simpl. unfold main_step. rewrite Em. unfold main_check. rewrite MF. discriminate.
  - exists MainStep. simpl. unfold main_step. rewrite Em. discriminate.
  - exists MainStep. simpl. unfold main_step. rewrite Em. destruct jobs, blocks; discriminate.
  - exists MainStep. simpl. unfold main_step. rewrite Em. discriminate.
  - exists MainStep. simpl. unfold main_step. rewrite Em. discriminate.
  - (* MJoin *)
    destruct I as [I|(t & I)]; [pose proof (ia_main _ _ I) as X; rewrite Em in X; destruct X|].
    assert (AllIdle : forall w, In w (c_workers s) -> w = WIdle).
    { intros w Hin. destruct (Quiet w Hin) as [?|(b & ->)]; auto.
      destruct (lv_asleep _ L b Hin) as [[? _]|?]; [|congruence].
      rewrite (ib_counting _ _ _ _ _ _ _ I) in H. discriminate. }
    destruct (c_todo s) as [|b td] eqn:Et.
    + exists MainStep. simpl. unfold main_step. rewrite Em, Et.
      replace (forallb is_idle (c_workers s)) with true; [discriminate|].
      symmetry. apply forallb_forall. intros w Hin. rewrite (AllIdle w Hin). reflexivity.
    + destruct (c_workers s) as [|w ws] eqn:Ews; [congruence|].
      exists (Take 0 0). simpl. rewrite Ews, Et. simpl.
      rewrite (AllIdle w) by (left; auto). discriminate.
  - exfalso; eapply ND; eauto.
Qed.

(** *** Termination: every step decreases the measure. *)
Section Measure.
Variable W : Z.
Hypothesis HW : 0 <= W.

Definition jlen (b : block) : Z := Zlen (jb b).

Definition wt (w : wphase) : Z :=
  match w with
  | WIdle => 0
  | WNotify => W + 3
  | WCount _ jobs => 1 + 3 * Zlen jobs
  | WPush _ _ _ rest => 3 + 3 * Zlen rest
  | WPushing _ _ _ rest => 2 + 3 * Zlen rest
  | WAsleep b => 2 + 3 * jlen b
  | WAwake b => 3 + 3 * jlen b
  | WWantLock b => W + 6 + 3 * jlen b
  | WGot b => W + 7 + 3 * jlen b
  end.

Definition todo_wt (b : block) : Z := W + 8 + 3 * jlen b.
Definition extra_wt (b : block) : Z := 1 + 3 * jlen b.

Definition mt (extra : list block) (m : mphase) : Z :=
  match m with
  | MLock => W + 6 + zsum (map extra_wt extra)
  | MAsleep => W + 4 + zsum (map extra_wt extra)
  | MAwake => W + 5 + zsum (map extra_wt extra)
  | MNotify => W + 3 + zsum (map extra_wt extra)
  | MExtra bs jobs => 2 + 3 * Zlen jobs + zsum (map extra_wt bs)
  | MPush _ _ rest bs => 4 + 3 * Zlen rest + zsum (map extra_wt bs)
  | MPushing _ _ rest bs => 3 + 3 * Zlen rest + zsum (map extra_wt bs)
  | MJoin => 1
  | MDone _ => 0
  end.

Definition measure (s : csys Th) : Z :=
  zsum (map todo_wt (c_todo s)) + zsum (map wt (c_workers s)) +
  mt (c_samples s ++ c_incomplete s) (c_main s).

Lemma jlen_nonneg b : 0 <= jlen b.
Proof. apply Zlen_nonneg. Qed.

Lemma wt_nonneg w : 0 <= wt w.
Proof.
  destruct w; unfold wt; try (pose proof (jlen_nonneg b)); try (pose proof (Zlen_nonneg jobs));
    try (pose proof (Zlen_nonneg rest)); lia.
Qed.

Lemma extra_nonneg l : 0 <= zsum (map extra_wt l).
Proof.
  apply zsum_nonneg. intros x Hx. apply in_map_iff in Hx. destruct Hx as (b & <- & _).
  unfold extra_wt. pose proof (jlen_nonneg b). lia.
Qed.

Lemma measure_nonneg s : 0 <= measure s.
Proof.
  unfold measure.
  assert (0 <= zsum (map todo_wt (c_todo s))).
  { apply zsum_nonneg. intros x Hx. apply in_map_iff in Hx. destruct Hx as (b & <- & _).
    unfold todo_wt. pose proof (jlen_nonneg b). lia. }
  assert (0 <= zsum (map wt (c_workers s))).
  { apply zsum_nonneg. intros x Hx. apply in_map_iff in Hx. destruct Hx as (b & <- & _).
    apply wt_nonneg. }
  assert (0 <= mt (c_samples s ++ c_incomplete s) (c_main s)).
  { destruct (c_main s); unfold mt; try (pose proof (extra_nonneg (c_samples s ++ c_incomplete s)));
      try (pose proof (extra_nonneg blocks)); try (pose proof (Zlen_nonneg jobs));
      try (pose proof (Zlen_nonneg rest)); lia. }
  lia.
Qed.

Lemma wake_sum ws : zsum (map wt (map wake ws)) <= zsum (map wt ws) + Zlen ws.
Proof.
  induction ws as [|w ws IH]; [reflexivity|]. rewrite Zlen_cons. simpl map.
  change (zsum (wt (wake w) :: map wt (map wake ws))) with (wt (wake w) + zsum (map wt (map wake ws))).
  change (zsum (wt w :: map wt ws)) with (wt w + zsum (map wt ws)).
  assert (wt (wake w) <= wt w + 1) by (destruct w; simpl; lia). lia.
Qed.

Lemma nth_error_map_wake ws i : nth_error ws i = Some WNotify ->
  nth_error (map wake ws) i = Some WNotify.
Proof. intros H. rewrite nth_error_map, H. reflexivity. Qed.

Lemma wait_decreases s i b w s' :
  nth_error (c_workers s) i = Some w -> wt w >= 3 + 3 * jlen b ->
  worker_wait s i b = Ok s' -> measure s' < measure s.
Proof.
  intros Ew Hw H. unfold worker_wait in H. pose proof (jlen_nonneg b). destruct (c_counting s).
  - apply bind_ok in H. destruct H as (jobs & Hj & H). injection H as <-.
    unfold measure. simpl. rewrite (zsum_map_upd wt _ _ _ _ Ew). simpl.
    unfold jlen in *. rewrite (block_jobs_jb _ _ Hj) in *. lia.
  - injection H as <-. unfold measure. simpl. rewrite (zsum_map_upd wt _ _ _ _ Ew). simpl. lia.
Qed.

Lemma extra_snoc l l' b : zsum (map extra_wt ((l ++ [b]) ++ l')) =
  zsum (map extra_wt (l ++ l')) + extra_wt b.
Proof. rewrite !map_app, !zsum_app. simpl. lia. Qed.
Lemma extra_snoc2 l l' b : zsum (map extra_wt (l ++ (l' ++ [b]))) =
  zsum (map extra_wt (l ++ l')) + extra_wt b.
Proof. rewrite !map_app, !zsum_app. simpl. lia. Qed.

Lemma step_decreases c s s' :
  Zlen (c_workers s) <= W -> step c s = Some (Ok s') -> measure s' < measure s.
Proof.
  intros HWs H. destruct c as [i k|i|]; unfold count_step in H.
  - destruct (nth_error (c_workers s) i) as [[]|] eqn:Ew; try discriminate.
    destruct (nth_error (c_todo s) k) as [b|] eqn:Eb; try discriminate. injection H as <-.
    unfold measure. cbn [c_todo c_workers c_samples c_incomplete c_main].
    rewrite (zsum_map_upd wt _ _ _ _ Ew).
    apply nth_error_split_perm in Eb. rewrite (zsum_perm_map todo_wt _ _ Eb).
    simpl map. change (zsum (todo_wt b :: ?l)) with (todo_wt b + zsum l).
    unfold todo_wt at 2. simpl. lia.
  - destruct (nth_error (c_workers s) i) as [w|] eqn:Ew; [|discriminate].
    destruct w; simpl in H; try discriminate.
    + injection H as H. pose proof (jlen_nonneg b). destruct (c_counting s).
      * apply bind_ok in H. destruct H as (jobs & Hj & H). injection H as <-.
        unfold measure. simpl. rewrite (zsum_map_upd wt _ _ _ _ Ew). simpl.
        unfold jlen in *. rewrite (block_jobs_jb _ _ Hj) in *. lia.
      * injection H as <-. unfold measure. simpl. rewrite (zsum_map_upd wt _ _ _ _ Ew). simpl. lia.
    + destruct (mutex_free s); [|discriminate]. injection H as H. pose proof (jlen_nonneg b).
      destruct (_ <? _).
      * apply bind_ok in H. destruct H as (c & _ & H). injection H as <-.
        unfold measure. cbn [c_todo c_workers c_samples c_incomplete c_main].
        rewrite (zsum_map_upd wt _ _ _ _ Ew).
        assert (M : mt ((if c then c_samples s ++ [b] else c_samples s) ++
                   (if c then c_incomplete s else c_incomplete s ++ [b])) (c_main s) <=
                 mt (c_samples s ++ c_incomplete s) (c_main s) + extra_wt b).
        { assert (0 <= extra_wt b) by (unfold extra_wt; lia).
          assert (E : zsum (map extra_wt ((if c then c_samples s ++ [b] else c_samples s) ++
                   (if c then c_incomplete s else c_incomplete s ++ [b]))) =
                   zsum (map extra_wt (c_samples s ++ c_incomplete s)) + extra_wt b).
          { destruct c; [apply extra_snoc|apply extra_snoc2]. }
          destruct (c_main s); simpl; lia. }
        unfold extra_wt in M. destruct (_ =? N); simpl; lia.
      * apply (wait_decreases s i b (WWantLock b)); simpl; auto; lia.
    + injection H as <-. unfold measure. cbn [c_todo c_workers c_samples c_incomplete c_main].
      rewrite (zsum_map_upd wt _ _ _ _ (nth_error_map_wake _ _ Ew)).
      pose proof (wake_sum (c_workers s)).
      assert (mt (c_samples s ++ c_incomplete s) (match c_main s with MAsleep => MAwake | m => m end)
              <= mt (c_samples s ++ c_incomplete s) (c_main s) + 1) by (destruct (c_main s); simpl; lia).
      simpl wt. lia.
    + destruct (mutex_free s); [|discriminate]. injection H as H.
      apply (wait_decreases s i b (WAwake b)); simpl; auto; lia.
    + destruct jobs as [|j rest].
      * injection H as <-. unfold measure. simpl. rewrite (zsum_map_upd wt _ _ _ _ Ew). simpl.
        unfold Zlen; simpl. lia.
      * injection H as H. apply bind_ok in H. destruct H as (ev & _ & H). injection H as <-.
        unfold measure. cbn [set_worker c_todo c_workers c_samples c_incomplete c_main].
        rewrite (zsum_map_upd wt _ _ _ _ Ew).
        cbn [wt]. rewrite Zlen_cons. lia.
    + destruct (negb _); [injection H as H; discriminate|].
      destruct (existsb _ _); [discriminate|]. injection H as H.
      assert (s' = set_worker s i (WPushing locked pos ev rest)).
      { destruct (c_main s); try congruence. destruct (_ =? _); congruence. }
      subst s'. unfold measure. simpl. rewrite (zsum_map_upd wt _ _ _ _ Ew). simpl. lia.
    + injection H as H. destruct (2 <=? _); [discriminate|]. apply bind_ok in H. destruct H as (e & _ & H). injection H as <-.
      unfold measure. simpl. rewrite (zsum_map_upd wt _ _ _ _ Ew). simpl. lia.
  - assert (CK : main_check thresholds_of nsamples scan_opt s = Some (Ok s') ->
       mt (c_samples s ++ c_incomplete s) (c_main s) >= W + 5 + zsum (map extra_wt (c_samples s ++ c_incomplete s)) ->
       measure s' < measure s).
    { clear H. intros H Hm. unfold main_check in H. destruct (mutex_free s); [|discriminate].
      injection H as H. destruct (_ =? _).
      - unfold main_thresholds in H. apply bind_ok in H. destruct H as (t & _ & H).
        apply bind_ok in H. destruct H as (b0 & _ & H). injection H as <-.
        unfold measure. simpl. lia.
      - injection H as <-. unfold measure. simpl. lia. }
    unfold main_step in H.
    destruct (c_main s) eqn:Em; try (apply CK; [exact H|simpl; lia]); clear CK; try discriminate.
    + injection H as <-. unfold measure. simpl. rewrite Em. simpl.
      pose proof (wake_sum (c_workers s)). change (Zlen (@nil job)) with 0. lia.
    + destruct jobs as [|j rest]; [destruct blocks as [|b bs]|].
      * injection H as <-. unfold measure. simpl. rewrite Em. simpl. change (Zlen (@nil job)) with 0. lia.
      * injection H as H. apply bind_ok in H. destruct H as (jobs & Hj & H). injection H as <-.
        unfold measure. simpl. rewrite Em. simpl. change (Zlen (@nil job)) with 0.
        unfold extra_wt at 2, jlen. rewrite (block_jobs_jb _ _ Hj). lia.
      * assert (H' : (let* ev := count_job count s j in Ok (set_main s (MPush (fst j) ev rest blocks))) = Ok s')
          by (destruct blocks; injection H as H; exact H).
        apply bind_ok in H'. destruct H' as (ev & _ & H'). injection H' as <-.
        unfold measure. rewrite Em. cbn [set_main c_todo c_workers c_samples c_incomplete c_main mt].
        rewrite Zlen_cons. lia.
    + injection H as H. destruct (negb _); [discriminate|]. destruct (existsb _ _); [discriminate|].
      injection H as <-. unfold measure. simpl. rewrite Em. simpl. lia.
    + injection H as H. apply bind_ok in H. destruct H as (e & _ & H). injection H as <-.
      unfold measure. simpl. rewrite Em. simpl. lia.
    + destruct (_ && _); [|discriminate]. injection H as <-. unfold measure. simpl. rewrite Em. simpl. lia.
Qed.

End Measure.

(** *** Two workers never store at one position at the same time *)
Definition excl (s : csys Th) : Prop :=
  forall p, Zlen (filter (pushing_at p) (c_workers s)) <= 1.

Lemma pushing_count p ws :
  Zlen (filter (pushing_at p) ws) = zsum (map (fun w => if pushing_at p w then 1 else 0) ws).
Proof.
  induction ws as [|w ws IH]; [reflexivity|]. cbn [filter map zsum fold_right].
  destruct (pushing_at p w); rewrite ?Zlen_cons, IH; simpl; lia.
Qed.

Lemma excl_upd ws i w :
  (forall p, Zlen (filter (pushing_at p) ws) <= 1) ->
  (forall p, pushing_at p w = true -> Zlen (filter (pushing_at p) ws) = 0) ->
  forall p, Zlen (filter (pushing_at p) (upd ws i w)) <= 1.
Proof.
  intros H Hw p. destruct (nth_error ws i) as [w0|] eqn:E.
  - specialize (H p). specialize (Hw p). rewrite pushing_count in *.
    rewrite (zsum_map_upd _ _ _ _ _ E).
    destruct (pushing_at p w); [rewrite (Hw eq_refl)|]; destruct (pushing_at p w0); lia.
  - replace (upd ws i w) with ws; auto.
    clear - E. revert i E; induction ws; destruct i; simpl; intros; try discriminate; auto.
    f_equal; auto.
Qed.

Lemma excl_wake ws :
  (forall p, Zlen (filter (pushing_at p) ws) <= 1) ->
  forall p, Zlen (filter (pushing_at p) (map wake ws)) <= 1.
Proof.
  intros H p. specialize (H p). rewrite pushing_count in *. rewrite map_wake; auto.
  intros []; reflexivity.
Qed.

Lemma excl_step c s s' : excl s -> step c s = Some (Ok s') -> excl s'.
Proof.
  intros E H. unfold excl in *. destruct c as [i k|i|]; unfold count_step in H.
  - destruct (nth_error (c_workers s) i) as [[]|] eqn:Ew; try discriminate.
    destruct (nth_error (c_todo s) k) as [b|]; try discriminate. injection H as <-.
    simpl. apply excl_upd; simpl; auto; discriminate.
  - destruct (nth_error (c_workers s) i) as [w|] eqn:Ew; [|discriminate].
    assert (WW : forall b s', worker_wait s i b = Ok s' ->
              forall p, Zlen (filter (pushing_at p) (c_workers s')) <= 1).
    { intros b s0 Hw. unfold worker_wait in Hw. destruct (c_counting s).
      - apply bind_ok in Hw. destruct Hw as (? & _ & Hw). injection Hw as <-. simpl.
        apply excl_upd; simpl; auto; discriminate.
      - injection Hw as <-. simpl. apply excl_upd; simpl; auto; discriminate. }
    destruct w; simpl in H; try discriminate.
    + injection H as H. destruct (c_counting s).
      * apply bind_ok in H. destruct H as (jobs & _ & H). injection H as <-. simpl.
        apply excl_upd; simpl; auto; discriminate.
      * injection H as <-. simpl. apply excl_upd; simpl; auto; discriminate.
    + destruct (mutex_free s); [|discriminate]. injection H as H.
      destruct (_ <? _); eauto.
      apply bind_ok in H. destruct H as (c & _ & H). injection H as <-. simpl.
      apply excl_upd; auto. intros p. destruct (_ =? _); discriminate.
    + injection H as <-. simpl. apply excl_upd; [|discriminate]. apply excl_wake; auto.
    + destruct (mutex_free s); [|discriminate]. injection H as H. eauto.
    + destruct jobs as [|j rest].
      * injection H as <-. simpl. apply excl_upd; simpl; auto; discriminate.
      * injection H as H. apply bind_ok in H. destruct H as (ev & _ & H). injection H as <-.
        simpl. apply excl_upd; simpl; auto; discriminate.
    + destruct (negb _); [injection H as H; discriminate|].
      destruct (existsb _ _) eqn:Ex; [discriminate|]. injection H as H.
      assert (s' = set_worker s i (WPushing locked pos ev rest)).
      { destruct (c_main s); try congruence. destruct (_ =? _); congruence. }
      subst s'. simpl. apply excl_upd; auto. intros p Hp. simpl in Hp. apply Z.eqb_eq in Hp. subst p.
      clear - Ex. induction (c_workers s) as [|w ws IH]; [reflexivity|]. simpl in *.
      apply orb_false_iff in Ex. destruct Ex as [-> Ex]. auto.
    + injection H as H. destruct (2 <=? _); [discriminate|].
      apply bind_ok in H. destruct H as (e & _ & H). injection H as <-.
      simpl. apply excl_upd; simpl; auto; discriminate.
  - unfold main_step, main_check, main_thresholds in H.
    destruct (c_main s); try discriminate;
      repeat match type of H with
      | context [mutex_free s] => destruct (mutex_free s); [|discriminate]
      end.
    + injection H as H. destruct (_ =? _); [|injection H as <-; auto].
      apply bind_ok in H. destruct H as (t & _ & H). apply bind_ok in H. destruct H as (b & _ & H).
      injection H as <-. auto.
    + injection H as H. destruct (_ =? _); [|injection H as <-; auto].
      apply bind_ok in H. destruct H as (t & _ & H). apply bind_ok in H. destruct H as (b & _ & H).
      injection H as <-. auto.
    + injection H as <-. simpl. apply excl_wake; auto.
    + destruct jobs as [|j rest]; [destruct blocks as [|b bs]|].
      * injection H as <-. auto.
      * injection H as H. apply bind_ok in H. destruct H as (jobs & _ & H). injection H as <-. auto.
      * assert (H' : (let* ev := count_job count s j in Ok (set_main s (MPush (fst j) ev rest blocks))) = Ok s')
          by (destruct blocks; injection H as H; exact H).
        apply bind_ok in H'. destruct H' as (ev & _ & H'). injection H' as <-. auto.
    + injection H as H. destruct (negb _); [discriminate|]. destruct (existsb _ _); [discriminate|].
      injection H as <-. auto.
    + injection H as H. apply bind_ok in H. destruct H as (e & _ & H). injection H as <-. auto.
    + destruct (_ && _); [|discriminate]. injection H as <-. auto.
Qed.

Lemma excl_init nw : excl (count_init nw B).
Proof.
  intros p. unfold count_init. simpl. induction nw; [discriminate|exact IHnw].
Qed.

Lemma run_excl cs s s' : excl s -> run cs s = Some (Ok s') -> excl s'.
Proof.
  revert s; induction cs as [|c cs IH]; simpl; intros s E H.
  - injection H as <-; auto.
  - destruct (step c s) as [[s1| | |]|] eqn:E1; try discriminate. eauto using excl_step.
Qed.

(** *** Nothing goes wrong for well-formed single-frame-per-position input *)
Definition mblk (m : mphase) : list block :=
  match m with
  | MExtra bs _ | MPush _ _ _ bs | MPushing _ _ _ bs => bs
  | _ => []
  end.

Definition inB (s : csys Th) : Prop :=
  Forall (fun b => In b B) (c_todo s) /\
  Forall (fun b => In b B) (concat (map wblk (c_workers s))) /\
  Forall (fun b => In b B) (c_samples s) /\
  Forall (fun b => In b B) (c_incomplete s) /\
  Forall (fun b => In b B) (mblk (c_main s)).

Lemma wblk_in s i w b : inB s -> nth_error (c_workers s) i = Some w -> In b (wblk w) -> In b B.
Proof.
  intros (_ & H & _) Ew Hb. rewrite Forall_forall in H. apply H.
  apply in_concat. exists (wblk w). split; auto. apply in_map. eapply nth_error_In; eauto.
Qed.

Lemma inB_upd ws i w' :
  Forall (fun b => In b B) (concat (map wblk ws)) -> Forall (fun b => In b B) (wblk w') ->
  Forall (fun b => In b B) (concat (map wblk (upd ws i w'))).
Proof.
  intros H H'. rewrite Forall_forall in *. intros b Hb. apply in_concat in Hb.
  destruct Hb as (l & Hl & Hb). apply in_map_iff in Hl. destruct Hl as (w & <- & Hw).
  apply in_upd in Hw. destruct Hw as [->|Hw]; auto. apply H. apply in_concat.
  exists (wblk w). split; auto. apply in_map; auto.
Qed.

Lemma inB_step c s s' : inB s -> step c s = Some (Ok s') -> inB s'.
Proof.
  intros IB H. pose proof IB as (I1 & I2 & I3 & I4 & I5). destruct c as [i k|i|]; unfold count_step in H.
  - destruct (nth_error (c_workers s) i) as [[]|] eqn:Ew; try discriminate.
    destruct (nth_error (c_todo s) k) as [b|] eqn:Eb; try discriminate. injection H as <-.
    unfold inB. simpl. repeat split; auto.
    + rewrite Forall_forall in *. intros b' Hb'. apply I1.
      apply (Permutation_in _ (Permutation_sym (nth_error_split_perm _ _ _ Eb))). right. exact Hb'.
    + apply inB_upd; auto. simpl. constructor; auto. rewrite Forall_forall in I1. apply I1. eapply nth_error_In; eauto.
  - destruct (nth_error (c_workers s) i) as [w|] eqn:Ew; [|discriminate].
    assert (WW : forall b s', In b (wblk w) -> worker_wait s i b = Ok s' -> inB s').
    { intros b s0 Hbw Hw. unfold worker_wait in Hw. destruct (c_counting s).
      - apply bind_ok in Hw. destruct Hw as (? & _ & Hw). injection Hw as <-.
        unfold inB; simpl; repeat split; auto. apply inB_upd; simpl; auto.
      - injection Hw as <-. unfold inB; simpl; repeat split; auto. apply inB_upd; simpl; auto.
        constructor; auto. apply (wblk_in s i w); auto. }
    destruct w; simpl in H; try discriminate.
    + injection H as H. destruct (c_counting s).
      * apply bind_ok in H. destruct H as (jobs & _ & H). injection H as <-.
        unfold inB; simpl; repeat split; auto. apply inB_upd; simpl; auto.
      * injection H as <-. unfold inB; simpl; repeat split; auto. apply inB_upd; simpl; auto.
        constructor; auto. apply (wblk_in s i (WGot b)); simpl; auto.
    + destruct (mutex_free s); [|discriminate]. injection H as H.
      destruct (_ <? _); [|apply (WW b); simpl; auto].
      assert (In b B) by (apply (wblk_in s i (WWantLock b)); simpl; auto).
      apply bind_ok in H. destruct H as (c & _ & H). injection H as <-.
      unfold inB; simpl; repeat split; auto.
      * apply inB_upd; auto. destruct (_ =? _); simpl; auto.
      * destruct c; auto. apply Forall_app; auto.
      * destruct c; auto. apply Forall_app; auto.
    + injection H as <-. unfold inB; simpl; repeat split; auto.
      * rewrite map_wake_upd by apply wblk_wake. apply inB_upd; simpl; auto.
      * destruct (c_main s); simpl; auto.
    + destruct (mutex_free s); [|discriminate]. injection H as H. apply (WW b); simpl; auto.
    + destruct jobs as [|j rest].
      * injection H as <-. unfold inB; simpl; repeat split; auto. apply inB_upd; simpl; auto.
      * injection H as H. apply bind_ok in H. destruct H as (ev & _ & H). injection H as <-.
        unfold inB; simpl; repeat split; auto. apply inB_upd; simpl; auto.
    + destruct (negb _); [injection H as H; discriminate|].
      destruct (existsb _ _); [discriminate|]. injection H as H.
      assert (s' = set_worker s i (WPushing locked pos ev rest)).
      { destruct (c_main s); try congruence. destruct (_ =? _); congruence. }
      subst s'. unfold inB; simpl; repeat split; auto. apply inB_upd; simpl; auto.
    + injection H as H. destruct (2 <=? _); [discriminate|]. apply bind_ok in H. destruct H as (e & _ & H). injection H as <-.
      unfold inB; simpl; repeat split; auto. apply inB_upd; simpl; auto.
  - assert (CK : main_check thresholds_of nsamples scan_opt s = Some (Ok s') -> inB s').
    { clear H. intros H. unfold main_check in H. destruct (mutex_free s); [|discriminate].
      injection H as H. destruct (_ =? _).
      - unfold main_thresholds in H. apply bind_ok in H. destruct H as (t & _ & H).
        apply bind_ok in H. destruct H as (b0 & _ & H). injection H as <-.
        unfold inB; simpl; auto.
      - injection H as <-. unfold inB; simpl; auto. }
    unfold main_step in H.
    destruct (c_main s) eqn:Em; try (apply CK; exact H); clear CK; try discriminate; simpl in I5.
    + injection H as <-. unfold inB; simpl; repeat split; auto.
      * rewrite map_wake by apply wblk_wake; auto.
      * apply Forall_app; auto.
    + destruct jobs as [|j rest]; [destruct blocks as [|b bs]|].
      * injection H as <-. unfold inB; simpl; auto.
      * injection H as H. apply bind_ok in H. destruct H as (jobs & Hj & H). injection H as <-.
        inversion I5; subst. unfold inB; simpl; repeat split; auto.
      * assert (H' : (let* ev := count_job count s j in Ok (set_main s (MPush (fst j) ev rest blocks))) = Ok s')
          by (destruct blocks; injection H as H; exact H).
        apply bind_ok in H'. destruct H' as (ev & _ & H'). injection H' as <-.
        unfold inB; simpl; repeat split; auto.
    + injection H as H. destruct (negb _); [discriminate|]. destruct (existsb _ _); [discriminate|].
      injection H as <-. unfold inB; simpl; repeat split; auto.
    + injection H as H. apply bind_ok in H. destruct H as (e & _ & H). injection H as <-.
      unfold inB; simpl; repeat split; auto.
    + destruct (_ && _); [|discriminate]. injection H as <-. unfold inB; simpl; repeat split; auto.
Qed.

Lemma inB_init nw : inB (count_init nw B).
Proof.
  unfold inB; simpl. repeat split; auto.
  - apply Forall_forall; auto.
  - replace (concat (map wblk (repeat WIdle nw))) with (@nil block); auto.
    induction nw; simpl; auto.
Qed.

Section Safe.
Variable npos : Z.
Hypothesis Hok : forall b, In b B -> block_ok b.
Hypothesis Hflag : forall b, In b B -> complete (hdr b) <> [].
Hypothesis Hthr : forall samples rest, Permutation B (samples ++ rest) ->
  Zlen samples = N -> Forall (fun b => is_complete b = true) samples ->
  exists t, thresholds_of samples = Ok t /\
    forall b f, In b B -> In f (frames_of b) -> exists ev, count t (fst (snd f)) (snd (snd f)) = Ok ev.
Hypothesis Hscan : forall b, In b B ->
  u32 (fst (scan_in_effect scan_opt b) * snd (scan_in_effect scan_opt b)) = npos.
Hypothesis Hpos : forall b f, In b B -> In f (frames_of b) -> 0 <= fst f < npos.
Hypothesis Hdistinct : NoDup (map fst (flat_map frames_of B)).
Hypothesis HN : 1 <= N.

Lemma jb_frames b : In b B -> jb b = frames_of b.
Proof. intros Hb. apply block_jobs_jb, block_jobs_ok; auto. Qed.

Lemma flat_jb : flat_map jb B = flat_map frames_of B.
Proof.
  assert (G : forall l, incl l B -> flat_map jb l = flat_map frames_of l).
  { induction l as [|b l IH]; simpl; intros Hl; auto.
    rewrite jb_frames by (apply Hl; left; auto). f_equal. apply IH.
    intros x Hx; apply Hl; right; auto. }
  apply G, incl_refl.
Qed.

(** Everything still to be counted is countable and in range. *)
Lemma item_ok t s item : common nsamples B s -> invB t s ->
  In item (map (cnt count t) (flat_map jb B)) ->
  (exists ev, snd item = Ok ev) /\ 0 <= fst item < Zlen (c_events s).
Proof.
  intros C I Hin. rewrite flat_jb in Hin. apply in_map_iff in Hin. destruct Hin as (f & <- & Hf).
  apply in_flat_map in Hf. destruct Hf as (b & Hb & Hf).
  destruct (cm_sub _ _ _ C) as [rest HP].
  destruct (Hthr _ _ HP (ib_len _ _ _ _ _ _ _ I) (cm_cpl _ _ _ C)) as (t' & Ht & Hc).
  rewrite (ib_thr_of _ _ _ _ _ _ _ I) in Ht. injection Ht as <-.
  split.
  - destruct (Hc b f Hb Hf) as [ev He]. exists ev. unfold cnt. exact He.
  - destruct (ib_npos _ _ _ _ _ _ _ I) as (b0 & Hb0 & ->).
    rewrite Hscan; [simpl; eapply Hpos; eauto|].
    apply (Permutation_in b0 (Permutation_sym HP)). apply in_app_iff. left.
    eapply nth_error_In; eauto.
Qed.

Lemma rem_incl t s : invB t s -> forall item,
  In item (concat (map (wrem count t) (c_workers s)) ++
           mrem count t (c_samples s ++ c_incomplete s) (c_main s)) ->
  In item (map (cnt count t) (flat_map jb B)).
Proof.
  intros I item Hin. destruct (ib_done _ _ _ _ _ _ _ I) as (dn & _ & _ & P).
  apply (Permutation_in _ (Permutation_sym P)). rewrite !in_app_iff in *. tauto.
Qed.

Lemma wrem_in t (s : csys Th) i w item : nth_error (c_workers s) i = Some w -> In item (wrem count t w) ->
  In item (concat (map (wrem count t) (c_workers s))).
Proof.
  intros Ew Hin. apply in_concat. exists (wrem count t w). split; auto.
  apply in_map. eapply nth_error_In; eauto.
Qed.

Lemma distinct_items t : NoDup (map fst (map (cnt count t) (flat_map jb B))).
Proof. rewrite map_map. simpl. rewrite flat_jb. exact Hdistinct. Qed.

(** A worker and the main thread never work on the same position. *)
Lemma no_overlap t s i w p ev ev' :
  invB t s -> nth_error (c_workers s) i = Some w ->
  In (p, ev) (wrem count t w) ->
  In (p, ev') (mrem count t (c_samples s ++ c_incomplete s) (c_main s)) -> False.
Proof.
  intros I Ew Hw Hm. pose proof (distinct_items t) as ND.
  destruct (ib_done _ _ _ _ _ _ _ I) as (dn & _ & _ & P).
  apply (Permutation_map fst) in P. apply (Permutation_NoDup P) in ND.
  rewrite !map_app in ND. rewrite !app_assoc in ND.
  apply in_split in Hm. destruct Hm as (m1 & m2 & Em). rewrite Em in ND.
  rewrite map_app in ND. simpl in ND. rewrite app_assoc in ND.
  apply NoDup_remove_2 in ND. apply ND. apply in_app_iff. left. apply in_app_iff. left.
  apply in_app_iff. right. change p with (fst (p, ev)). apply in_map.
  eapply wrem_in; eauto.
Qed.

Lemma in_events_true e p : 0 <= p < Zlen e -> in_events e p = true.
Proof.
  intros H. unfold in_events. destruct (Z.leb_spec 0 p), (Z.ltb_spec p (Zlen e)); auto; lia.
Qed.

Lemma push_event_total e p ev : 0 <= p < Zlen e -> exists e', push_event e p ev = Ok e'.
Proof.
  intros H. unfold push_event. rewrite (rd_ok e p []) by auto. cbn [bind].
  rewrite wr_ok by auto. eauto.
Qed.

Lemma step_safe c s o : inv s -> inB s -> excl s -> step c s = Some o -> exists s', o = Ok s'.
Proof.
  intros [C I] IB EX H. destruct c as [i k|i|]; unfold count_step in H.
  - destruct (nth_error (c_workers s) i) as [[]|] eqn:Ew; try discriminate.
    destruct (nth_error (c_todo s) k) as [b|] eqn:Eb; try discriminate. injection H as <-. eauto.
  - destruct (nth_error (c_workers s) i) as [w|] eqn:Ew; [|discriminate].
    assert (WJ : forall b, In b (wblk w) -> exists jobs, block_jobs b = Ok jobs).
    { intros b Hb. eexists. apply block_jobs_ok, Hok. apply (wblk_in s i w); auto. }
    assert (WW : forall b, In b (wblk w) -> exists s', worker_wait s i b = Ok s').
    { intros b Hb. unfold worker_wait. destruct (c_counting s); eauto.
      destruct (WJ b Hb) as [jobs ->]. cbn [bind]. eauto. }
    assert (PB : ~ pre_w w -> exists t, invB t s).
    { intros Hp. destruct I as [I|I]; auto. exfalso. apply Hp.
      apply (Forall_nth_error _ _ _ _ (ia_workers _ _ I) Ew). }
    destruct w; simpl in H; try discriminate.
    + injection H as <-. destruct (c_counting s); eauto.
      destruct (WJ b) as [jobs ->]; simpl; eauto.
    + destruct (mutex_free s); [|discriminate]. injection H as <-.
      destruct (_ <? _); [|apply WW; simpl; auto].
      assert (Hb : In b B) by (apply (wblk_in s i (WWantLock b)); simpl; auto).
      destruct (complete (hdr b)) as [|c0 cl] eqn:Ec; [exfalso; eapply Hflag; eauto|].
      unfold rd. simpl. eauto.
    + injection H as <-. eauto.
    + destruct (mutex_free s); [|discriminate]. injection H as <-. apply WW; simpl; auto.
    + destruct (PB (fun x => x)) as [t IBt].
      destruct jobs as [|j rest]; injection H as <-; eauto.
      unfold count_job. rewrite (ib_thr _ _ _ _ _ _ _ IBt).
      destruct (item_ok t s (cnt count t j) C IBt) as [(ev & He) _].
      { apply (rem_incl t s IBt). apply in_app_iff. left.
        apply (wrem_in t s i _ _ Ew). simpl. auto. }
      unfold cnt in He. simpl in He. rewrite He. cbn [bind]. eauto.
    + destruct (PB (fun x => x)) as [t IBt].
      destruct (item_ok t s (pos, Ok ev) C IBt) as [_ Hp].
      { apply (rem_incl t s IBt). apply in_app_iff. left.
        apply (wrem_in t s i _ _ Ew). simpl. auto. }
      simpl in Hp. rewrite (in_events_true _ _ Hp) in H. simpl in H.
      destruct (existsb _ _); [discriminate|]. injection H as <-.
      destruct (c_main s) as [| | | | | |q ev' rest' bs| |] eqn:Em; eauto.
      destruct (Z.eqb_spec q pos) as [->|]; eauto. exfalso.
      apply (no_overlap t s i _ pos (Ok ev) (Ok ev') IBt Ew); [simpl; auto|].
      rewrite Em. simpl. auto.
    + destruct (PB (fun x => x)) as [t IBt].
      destruct (item_ok t s (pos, Ok ev) C IBt) as [_ Hp].
      { apply (rem_incl t s IBt). apply in_app_iff. left.
        apply (wrem_in t s i _ _ Ew). simpl. auto. }
      injection H as <-. simpl in Hp. specialize (EX pos).
      destruct (Z.leb_spec 2 (Zlen (filter (pushing_at pos) (c_workers s)))); [lia|].
      destruct (push_event_total _ _ ev Hp) as [e ->]. cbn [bind]. eauto.
  - assert (CK : forall o, main_check thresholds_of nsamples scan_opt s = Some o -> pre_m (c_main s) ->
                 exists s', o = Ok s').
    { clear H o. intros o H Hm. unfold main_check in H. destruct (mutex_free s); [|discriminate].
      injection H as <-. destruct (Z.eqb_spec (Zlen (c_samples s)) N) as [En|]; eauto.
      unfold main_thresholds. destruct (cm_sub _ _ _ C) as [rest HP].
      destruct (Hthr _ _ HP En (cm_cpl _ _ _ C)) as (t & Ht & _).
      rewrite Ht. cbn [bind]. destruct (c_samples s) as [|b0 l].
      - exfalso. rewrite <- En in HN. change (Zlen (@nil block)) with 0 in HN. lia.
      - unfold rd. simpl. eauto. }
    assert (PB : ~ pre_m (c_main s) -> exists t, invB t s).
    { intros Hp. destruct I as [I|I]; auto. exfalso. apply Hp. apply (ia_main _ _ I). }
    unfold main_step in H.
    destruct (c_main s) eqn:Em; try (apply (CK o H); exact Logic.I); clear CK; try discriminate.
    + injection H as <-. eauto.
    + destruct (PB (fun x => x)) as [t IBt].
      destruct jobs as [|j rest]; [destruct blocks as [|b bs]|].
      * injection H as <-. eauto.
      * injection H as <-. destruct IB as (_ & _ & _ & _ & I5). rewrite Em in I5. simpl in I5.
        inversion I5; subst. rewrite (block_jobs_ok b) by auto. cbn [bind]. eauto.
      * assert (H' : o = (let* ev := count_job count s j in Ok (set_main s (MPush (fst j) ev rest blocks))))
          by (destruct blocks; injection H as H; symmetry; exact H).
        subst o. unfold count_job. rewrite (ib_thr _ _ _ _ _ _ _ IBt).
        destruct (item_ok t s (cnt count t j) C IBt) as [(ev & He) _].
        { apply (rem_incl t s IBt). apply in_app_iff. right. rewrite Em. simpl. auto. }
        unfold cnt in He. simpl in He. rewrite He. cbn [bind]. eauto.
    + destruct (PB (fun x => x)) as [t IBt]. injection H as <-.
      assert (Hin : In (pos, Ok ev) (mrem count t (c_samples s ++ c_incomplete s) (c_main s)))
        by (rewrite Em; simpl; auto).
      destruct (item_ok t s (pos, Ok ev) C IBt) as [_ Hp].
      { apply (rem_incl t s IBt). apply in_app_iff. right. exact Hin. }
      simpl in Hp. rewrite (in_events_true _ _ Hp). simpl.
      destruct (existsb (pushing_at pos) (c_workers s)) eqn:Ex; eauto. exfalso.
      apply existsb_exists in Ex. destruct Ex as (w & Hw & Hpw).
      destruct w; simpl in Hpw; try discriminate. apply Z.eqb_eq in Hpw. subst pos0.
      apply In_nth_error in Hw. destruct Hw as [i Hi].
      apply (no_overlap t s i _ pos (Ok ev0) (Ok ev) IBt Hi); simpl; auto.
    + destruct (PB (fun x => x)) as [t IBt]. injection H as <-.
      destruct (item_ok t s (pos, Ok ev) C IBt) as [_ Hp].
      { apply (rem_incl t s IBt). apply in_app_iff. right. rewrite Em. simpl. auto. }
      simpl in Hp. destruct (push_event_total _ _ ev Hp) as [e ->]. cbn [bind]. eauto.
    + destruct (_ && _); [|discriminate]. injection H as <-. eauto.
Qed.

Lemma run_safe cs s o : inv s -> inB s -> excl s -> run cs s = Some o -> exists s', o = Ok s'.
Proof.
  revert s; induction cs as [|c cs IH]; simpl; intros s I IB EX H.
  - injection H as <-. eauto.
  - destruct (step c s) as [o1|] eqn:E; [|discriminate].
    destruct (step_safe c s o1 I IB EX E) as [s1 ->].
    apply (IH s1); auto.
    + apply (step_inv thresholds_of count nsamples scan_opt B c s); auto.
    + apply (inB_step c s); auto.
    + apply (excl_step c s); auto.
Qed.

End Safe.

Lemma run_app cs cs' s s' : run cs s = Some (Ok s') -> run (cs ++ cs') s = run cs' s'.
Proof.
  revert s; induction cs as [|c cs IH]; simpl; intros s H.
  - injection H as <-; auto.
  - destruct (step c s) as [[s1| | |]|]; try discriminate. auto.
Qed.

Lemma run_live cs s s' : inv s -> live s -> run cs s = Some (Ok s') -> live s'.
Proof.
  revert s; induction cs as [|c cs IH]; simpl; intros s I L H.
  - injection H as <-; auto.
  - destruct (step c s) as [[s1| | |]|] eqn:E; try discriminate.
    apply (IH s1); auto.
    + apply (step_inv thresholds_of count nsamples scan_opt B c s); auto.
    + apply (live_step c s); auto.
Qed.

Lemma run_workers cs s s' : run cs s = Some (Ok s') ->
  List.length (c_workers s') = List.length (c_workers s).
Proof.
  revert s; induction cs as [|c cs IH]; simpl; intros s H.
  - injection H as <-; auto.
  - destruct (step c s) as [[s1| | |]|] eqn:E; try discriminate.
    rewrite (IH s1 H). apply (workers_length c); auto.
Qed.

Lemma run_bounded W cs s s' : 0 <= W -> Zlen (c_workers s) <= W ->
  run cs s = Some (Ok s') -> Zlen cs + measure W s' <= measure W s.
Proof.
  intros HW. revert s; induction cs as [|c cs IH]; intros s Hs H.
  - simpl in H. injection H as <-. unfold Zlen; simpl. lia.
  - cbn [count_run] in H. destruct (step c s) as [[s1| | |]|] eqn:E; try discriminate.
    pose proof (step_decreases W HW c s s1 Hs E).
    pose proof (workers_length c s s1 E).
    assert (Zlen (c_workers s1) <= W) by (unfold Zlen in *; lia).
    specialize (IH s1 H2 H). rewrite Zlen_cons. lia.
Qed.

End Live.
