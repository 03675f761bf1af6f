(** Python slices and the other frame indices. *)
From Coq Require Import String ZArith List Lia Bool Sorting.Sorted.
From Verif Require Import Base BaseFacts BlockModel SectorModel SectorSpec MultipassModel MultipassSpec
  SparseModel SparseProofs SparseSlice ReadFramesModel ReadFramesSpec.
Import ListNotations.
Open Scope Z_scope.
Local Arguments Z.mul : simpl never.
Local Arguments Z.add : simpl never.
Local Arguments Z.pow : simpl never.

Lemma sorted_map_zseq (R : Z -> Z -> Prop) (f : Z -> Z) n :
  (forall i j, 0 <= i -> i < j -> R (f i) (f j)) -> StronglySorted R (map f (zseq n)).
Proof.
  intros H. unfold zseq. generalize (Z.to_nat n) as m. intros m. rewrite map_map.
  assert (G : forall m s, StronglySorted R (map (fun x => f (Z.of_nat x)) (seq s m))); [|apply G].
  clear m. induction m as [|m IH]; intros s; cbn [seq map]; constructor; auto.
  apply Forall_forall. intros y Hy. apply in_map_iff in Hy as (k & <- & Hk). apply in_seq in Hk. apply H; lia.
Qed.

Lemma sorted_filter {A} (R : A -> A -> Prop) f l : StronglySorted R l -> StronglySorted R (filter f l).
Proof.
  induction 1 as [|a l S IH Ha]; cbn [filter]; [constructor|]. destruct (f a); auto. constructor; auto.
  rewrite Forall_forall in *. intros x Hx. apply filter_In in Hx as [Hx _]. auto.
Qed.

Lemma sorted_zseq n : StronglySorted Z.lt (zseq n).
Proof. rewrite <- (map_id (zseq n)). apply (sorted_map_zseq Z.lt (fun x => x)). auto. Qed.

Lemma slice_up_ok n a b s st l : 0 <= n -> s = Some st /\ 0 < st \/ s = None /\ st = 1 ->
  slice_positions n a b s = Ok l -> slice_up n a b st l.
Proof.
  intros Hn Hs. unfold slice_positions.
  assert (match s with Some s0 => s0 | None => 1 end = st) as -> by (destruct Hs as [[-> ?]|[-> ?]]; auto).
  assert (Hst : 0 < st) by (destruct Hs as [[? ?]|[? ?]]; lia).
  destruct (Z.eqb_spec st 0); [lia|]. destruct (Z.ltb_spec 0 st) as [_|]; [|lia].
  cbv zeta. unfold slice_count. destruct (Z.ltb_spec 0 st) as [_|]; [|lia].
  set (A := match a with Some v => _ | None => 0 end). set (B := match b with Some v => _ | None => n end).
  intros E. injection E as <-. unfold slice_up. fold (from_end n).
  set (from := match a with Some v => Z.max 0 (from_end n v) | None => 0 end).
  set (to := match b with Some v => from_end n v | None => n end).
  split.
  - apply sorted_map_zseq. intros i j Hi Hij. nia.
  - intros x. rewrite in_map_iff.
    assert (HA : 0 <= A <= n /\ (A = from \/ A = n /\ n <= from)).
    { unfold A, from, from_end. destruct a as [v|]; [|lia]. destruct (v <? 0); lia. }
    assert (HB : 0 <= B <= n /\ (forall x, 0 <= x < n -> (x < B <-> x < to))).
    { unfold B, to, from_end. destruct b as [v|]; [destruct (v <? 0)|]; (split; [lia|intros y Hy; lia]). }
    split.
    + intros (k & <- & Hk). apply in_zseq in Hk.
      destruct (Z.ltb_spec A B) as [HAB|]; [|lia].
      assert (Hks : k * st <= B - A - 1).
      { pose proof (Z.mul_div_le (B - A - 1) st Hst). nia. }
      destruct HA as [HA [->|[-> Hf]]]; [|lia].
      split; [nia|]. split.
      * split; [nia|]. apply HB; nia.
      * replace (from + k * st - from) with (k * st) by lia. apply Z_mod_mult.
    + intros (Hx & Hr & Hm). destruct HA as [HA [EA|[EA Hf]]]; [|lia]. rewrite <- EA in *.
      exists ((x - A) / st). assert (Hq : x - A = st * ((x - A) / st)) by (apply Z_div_exact_full_2; lia).
      split; [lia|]. apply in_zseq. destruct HB as [HB HB2].
      assert (x < B) by (apply HB2; lia). destruct (Z.ltb_spec A B); [|lia].
      assert (0 <= (x - A) / st) by (apply Z.div_pos; lia).
      assert ((x - A) / st <= (B - A - 1) / st) by (apply Z.div_le_mono; lia). lia.
Qed.

Lemma slice_down_ok n a b st l : 0 <= n -> st < 0 ->
  slice_positions n a b (Some st) = Ok l -> slice_down n a b st l.
Proof.
  intros Hn Hst. unfold slice_positions.
  destruct (Z.eqb_spec st 0); [lia|]. destruct (Z.ltb_spec 0 st) as [|_]; [lia|].
  cbv zeta. unfold slice_count. destruct (Z.ltb_spec 0 st) as [|_]; [lia|].
  set (A := match a with Some v => _ | None => n - 1 end). set (B := match b with Some v => _ | None => -1 end).
  intros E. injection E as <-. unfold slice_down. fold (from_end n).
  set (from := match a with Some v => Z.min (n - 1) (from_end n v) | None => n - 1 end).
  set (to := match b with Some v => from_end n v | None => -1 end).
  split.
  - apply sorted_map_zseq. intros i j Hi Hij. nia.
  - intros x. rewrite in_map_iff.
    assert (HA : -1 <= A <= n - 1 /\ (A = from \/ A = -1 /\ from <= -1)).
    { unfold A, from, from_end. destruct a as [v|]; [|lia]. destruct (v <? 0); lia. }
    assert (HB : -1 <= B <= n - 1 /\ (forall x, 0 <= x < n -> (B < x <-> to < x))).
    { unfold B, to, from_end. destruct b as [v|]; [destruct (v <? 0)|]; (split; [lia|intros y Hy; lia]). }
    split.
    + intros (k & <- & Hk). apply in_zseq in Hk.
      destruct (Z.ltb_spec B A) as [HAB|]; [|lia].
      assert (Hks : k * - st <= A - B - 1).
      { pose proof (Z.mul_div_le (A - B - 1) (- st) ltac:(lia)). nia. }
      destruct HA as [HA [->|[-> Hf]]]; [|lia].
      split; [nia|]. split.
      * split; [apply HB; nia|nia].
      * replace (from - (from + k * st)) with (k * - st) by lia. apply Z_mod_mult.
    + intros (Hx & Hr & Hm). destruct HA as [HA [EA|[EA Hf]]]; [|lia]. rewrite <- EA in *.
      exists ((A - x) / - st). assert (Hq : A - x = - st * ((A - x) / - st)) by (apply Z_div_exact_full_2; lia).
      split; [lia|]. apply in_zseq. destruct HB as [HB HB2].
      assert (B < x) by (apply HB2; lia). destruct (Z.ltb_spec B A); [|lia].
      assert (0 <= (A - x) / - st) by (apply Z.div_pos; lia).
      assert ((A - x) / - st <= (A - B - 1) / - st) by (apply Z.div_le_mono; lia). lia.
Qed.

Lemma sorted_unique (R : Z -> Z -> Prop) l1 l2 : (forall x y, R x y -> R y x -> False) ->
  StronglySorted R l1 -> StronglySorted R l2 -> (forall x, In x l1 <-> In x l2) -> l1 = l2.
Proof.
  intros HR S1. revert l2. induction S1 as [|a l S IH Ha]; intros l2 S2 Hin.
  - destruct l2 as [|b l2]; auto. exfalso. apply (proj2 (Hin b)). now left.
  - destruct S2 as [|b m S2 Hb]; [exfalso; apply (proj1 (Hin a)); now left|].
    rewrite Forall_forall in Ha, Hb.
    assert (a = b).
    { pose proof (proj1 (Hin a) (or_introl eq_refl)) as [E|E]; auto.
      pose proof (proj2 (Hin b) (or_introl eq_refl)) as [E'|E']; auto. exfalso. eauto. }
    subst b. f_equal. apply IH; auto. intros x. split; intros Hx.
    + destruct (proj1 (Hin x) (or_intror Hx)) as [<-|]; auto. exfalso. specialize (Ha _ Hx). eauto.
    + destruct (proj2 (Hin x) (or_intror Hx)) as [<-|]; auto. exfalso. specialize (Hb _ Hx). eauto.
Qed.

Lemma np_index_ok n i : - n <= i < n -> np_index n i = Ok (from_end n i).
Proof.
  intros H. unfold np_index, from_end. destruct (Z.ltb_spec i 0);
  (destruct (_ && _) eqn:E; [reflexivity|apply andb_false_iff in E as [E|E]; [apply Z.leb_gt in E|apply Z.ltb_ge in E]; lia]).
Qed.

Lemma np_index_ok_inv n i k : np_index n i = Ok k -> - n <= i < n /\ k = from_end n i.
Proof.
  unfold np_index, from_end. destruct (Z.ltb_spec i 0);
  (destruct (_ && _) eqn:E; [|discriminate]; intros H1; injection H1 as <-; apply andb_true_iff in E as [E1 E2];
   apply Z.leb_le in E1; apply Z.ltb_lt in E2; lia).
Qed.

Lemma mapM_index n l l' : mapM (np_index n) l = Ok l' ->
  (forall i, In i l -> - n <= i < n) /\ l' = map (from_end n) l.
Proof.
  intros H. apply mapM_inv in H. induction H as [|x y l l' Hxy _ [IH1 IH2]]; [split; [contradiction|reflexivity]|].
  apply np_index_ok_inv in Hxy as [H1 ->]. subst l'. split; [|reflexivity]. intros i [<-|Hi]; auto.
Qed.

Lemma mapM_index_ok n l : (forall i, In i l -> - n <= i < n) -> mapM (np_index n) l = Ok (map (from_end n) l).
Proof.
  induction l as [|x l IH]; intros H; [reflexivity|]. cbn [mapM map].
  rewrite (np_index_ok n x) by (apply H; now left). cbn [bind]. rewrite IH by (intros; apply H; now right). reflexivity.
Qed.

Lemma true_positions_spec m : StronglySorted Z.lt (true_positions m) /\
  forall x, In x (true_positions m) <-> 0 <= x /\ nth_error m (Z.to_nat x) = Some true.
Proof.
  split; [apply sorted_filter, sorted_zseq|]. intros x. unfold true_positions. rewrite filter_In, in_zseq. split.
  - intros [H1 H2]. split; [lia|]. destruct (nth_error m (Z.to_nat x)) eqn:E.
    + rewrite (nth_error_nth _ _ _ E) in H2. now rewrite H2.
    + apply nth_error_None in E. unfold Zlen in H1. lia.
  - intros [H1 H2]. split.
    + assert (Z.to_nat x < List.length m)%nat by (apply nth_error_Some; congruence). unfold Zlen. lia.
    + now rewrite (nth_error_nth _ _ _ H2).
Qed.

(** The model's selection is the specified one. *)
Lemma frame_indices_picks n sel l : 0 <= n -> frame_indices n sel = Ok l -> picks n sel l.
Proof.
  intros Hn. destruct sel as [[i|a b s|is|m|? ? ?|? ? ?]|]; cbn [frame_indices np_select axis_select];
    try discriminate.
  - intros H. apply bind_ok in H as ([sh l'] & H & E). injection E as <-. apply bind_ok in H as (s & H & E).
    apply bind_ok in H as (js & H & E2). injection E2 as <-. injection E as <- <-.
    apply mapM_index in H as [H ->]. cbn [map]. constructor. apply H. now left.
  - intros H. apply bind_ok in H as ([sh l'] & H & E). injection E as <-. apply bind_ok in H as (s' & H & E).
    apply bind_ok in H as (js & H & E2). injection E2 as <-. injection E as <- <-.
    destruct s as [st|].
    + destruct (Z.lt_trichotomy st 0) as [Hst|[->|Hst]].
      * apply picks_down; auto. eapply slice_down_ok; eauto.
      * discriminate.
      * eapply picks_up; [left; split; [reflexivity|exact Hst]|]. eapply slice_up_ok; eauto.
    + eapply picks_up; [right; split; [reflexivity|reflexivity]|]. eapply slice_up_ok; eauto.
  - intros H. apply bind_ok in H as ([sh l'] & H & E). injection E as <-. apply bind_ok in H as (s & H & E).
    apply bind_ok in H as (js & H & E2). injection E2 as <-. injection E as <- <-.
    apply mapM_index in H as [H ->]. now constructor.
  - intros H. apply bind_ok in H as ([sh l'] & H & E). injection E as <-. apply bind_ok in H as (s & H & E).
    destruct (Z.eqb_spec (Zlen m) n) as [Hm|]; [|discriminate]. injection H as <-. injection E as <- <-.
    destruct (true_positions_spec m). now constructor.
  - intros H. injection H as <-. constructor.
Qed.

Lemma slice_total n a b s : s <> Some 0 -> exists l, slice_positions n a b s = Ok l.
Proof.
  intros H. unfold slice_positions. destruct (Z.eqb_spec (match s with Some s0 => s0 | None => 1 end) 0).
  - destruct s as [st|]; [|discriminate]. now subst.
  - eexists. reflexivity.
Qed.

Lemma picks_frame_indices n sel l : 0 <= n -> picks n sel l -> frame_indices n sel = Ok l.
Proof.
  intros Hn H. destruct H as [|i Hi|is Hi|m l Hm Hs Hi|a b s st l Hs Hu|a b st l Hs Hu];
    cbn [frame_indices np_select axis_select]; auto.
  - cbn [mapM]. rewrite (np_index_ok n i Hi). reflexivity.
  - rewrite (mapM_index_ok n is Hi). reflexivity.
  - rewrite Hm, Z.eqb_refl. cbn [bind]. f_equal. destruct (true_positions_spec m) as [H1 H2].
    apply (sorted_unique Z.lt); auto; [lia|]. intros x. now rewrite H2, Hi.
  - assert (s <> Some 0) as H0 by (intros ->; destruct Hs as [[E ?]|[E ?]]; [injection E as <-; lia|discriminate]).
    destruct (slice_total n a b s H0) as [l' E]. rewrite E. cbn [bind]. f_equal.
    destruct (slice_up_ok n a b s st l' Hn Hs E) as [S1 I1]. destruct Hu as [S2 I2].
    apply (sorted_unique Z.lt); auto; [lia|]. intros x. now rewrite I1, I2.
  - destruct (slice_total n a b (Some st)) as [l' E]; [intros E; injection E; lia|]. rewrite E. cbn [bind]. f_equal.
    destruct (slice_down_ok n a b st l' Hn Hs E) as [S1 I1]. destruct Hu as [S2 I2].
    apply (sorted_unique Z.gt); auto; [lia|]. intros x. now rewrite I1, I2.
Qed.

Lemma frame_indices_throw n sel : (forall l, frame_indices n sel <> Ok l) -> exists m, frame_indices n sel = Throw m.
Proof.
  intros H.
  assert (G : (exists l, frame_indices n sel = Ok l) \/ exists m, frame_indices n sel = Throw m);
    [|destruct G as [[l E]|]; [now apply H in E|auto]].
  assert (GI : forall is, (exists l, mapM (np_index n) is = Ok l) \/ exists m, mapM (np_index n) is = Throw m).
  { induction is as [|i is IH]; cbn [mapM]; [eauto|].
    assert ((exists k, np_index n i = Ok k) \/ exists m, np_index n i = Throw m) as HI
      by (unfold np_index, index_error; destruct (_ && _); eauto).
    destruct HI as [[k ->]|[m ->]]; cbn [bind]; [|eauto].
    destruct IH as [[l ->]|[m ->]]; cbn [bind]; eauto. }
  destruct sel as [[i|a b s|is|m|? ? ?|? ? ?]|]; cbn [frame_indices np_select axis_select]; unfold index_error; eauto.
  - destruct (GI [i]) as [[l ->]|[m ->]]; cbn [bind]; eauto.
  - unfold slice_positions, value_error. destruct (_ =? 0); cbn [bind]; eauto.
  - destruct (GI is) as [[l ->]|[m ->]]; cbn [bind]; eauto.
  - destruct (_ =? n); cbn [bind]; eauto.
  - right. eexists. reflexivity.
  - right. eexists. reflexivity.
Qed.

Lemma picks_range n sel l : 0 <= n -> picks n sel l -> forall x, In x l -> 0 <= x < n.
Proof.
  intros Hn H x Hx. destruct H as [|i Hi|is Hi|m l Hm Hs Hi|a b s st l Hs Hu|a b st l Hs Hu].
  - now apply in_zseq.
  - destruct Hx as [<-|[]]. unfold from_end. destruct (Z.ltb_spec i 0); lia.
  - apply in_map_iff in Hx as (i & <- & Hx). specialize (Hi _ Hx). unfold from_end. destruct (Z.ltb_spec i 0); lia.
  - apply Hi in Hx as [H1 H2]. assert (Z.to_nat x < List.length m)%nat by (apply nth_error_Some; congruence).
    unfold Zlen in Hm. lia.
  - apply Hu in Hx. lia.
  - apply Hu in Hx. lia.
Qed.
