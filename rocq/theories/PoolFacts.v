(** Facts about worker-pool executions that hold for every schedule. *)
From Coq Require Import ZArith List Lia Permutation Bool.
From Verif Require Import Base BaseFacts PoolModel.
Import ListNotations.

Section PoolFacts.
Context {op mem : Type}.
Variable exec : op -> mem -> outcome mem.

Lemma for_each_err {A S} (l : list A) (f : A -> S -> outcome S) m :
  (forall s, m <> Ok s) -> fold_left (fun m x => bind m (f x)) l m = m.
Proof.
  revert m; induction l; simpl; auto; intros m H.
  rewrite IHl; destruct m; simpl; auto; try congruence; exfalso; eapply H; eauto.
Qed.

Definition seq_exec (l : list op) (m : outcome mem) : outcome mem :=
  fold_left (fun m o => bind m (exec o)) l m.

Lemma seq_exec_app l l' m : seq_exec (l ++ l') m = seq_exec l' (seq_exec l m).
Proof. apply fold_left_app. Qed.

Lemma seq_exec_for_each l m : seq_exec l (Ok m) = for_each l exec m.
Proof.
  revert m; induction l; intros; simpl; auto.
  unfold seq_exec in *; simpl. destruct (exec a m) eqn:E; simpl; auto;
    rewrite for_each_err; congruence.
Qed.

Lemma concat_upd (ws : list (list op)) i w t :
  nth_error ws i = Some w ->
  Permutation (w ++ concat (upd ws i t)) (t ++ concat ws).
Proof.
  revert i; induction ws; destruct i; simpl; intros H; try discriminate.
  - inversion H; subst. rewrite !app_assoc. apply Permutation_app_tail, Permutation_app_comm.
  - apply IHws in H.
    transitivity (a ++ w ++ concat (upd ws i t)).
    { rewrite !app_assoc. apply Permutation_app_tail, Permutation_app_comm. }
    rewrite H. rewrite !app_assoc. apply Permutation_app_tail, Permutation_app_comm.
Qed.

(** Work not yet performed. *)
Definition todo (p : pool op mem) : list op :=
  concat (workers p) ++ concat (queue p) ++ concat (pending p).

Definition pool_inv (tasks : list (list op)) (m0 : mem) (p : pool op mem) : Prop :=
  exists dn, memory p = for_each dn exec m0 /\
             Permutation (dn ++ todo p) (concat tasks).

Lemma pool_step_inv tasks m0 c p p' :
  pool_inv tasks m0 p -> pool_step exec c p = Some p' -> pool_inv tasks m0 p'.
Proof.
  intros (dn & Hm & Hp) Hs. unfold pool_step in Hs. destruct c.
  - destruct (pending p) eqn:E; inversion Hs; subst; clear Hs.
    exists dn; split; auto. rewrite <- Hp. unfold todo; simpl. rewrite E; simpl.
    rewrite concat_app; simpl. rewrite app_nil_r, !app_assoc. reflexivity.
  - destruct (nth_error (workers p) i) eqn:Ew; try discriminate.
    destruct l as [|o rest].
    + destruct (queue p) eqn:Eq; inversion Hs; subst; clear Hs.
      exists dn; split; auto. rewrite <- Hp. unfold todo; simpl. rewrite Eq; simpl.
      apply Permutation_app_head. rewrite !app_assoc. apply Permutation_app_tail.
      apply Permutation_app_tail.
      pose proof (concat_upd _ _ _ l Ew) as H; simpl in H. rewrite H.
      apply Permutation_app_comm.
    + inversion Hs; subst; clear Hs.
      exists (dn ++ [o]); split; simpl.
      * rewrite for_each_app, <- Hm. destruct (memory p); simpl; auto.
        destruct (exec o a); auto.
      * rewrite <- Hp. unfold todo; simpl. rewrite <- app_assoc.
        apply Permutation_app_head.
        assert (HH : Permutation (o :: concat (upd (workers p) i rest)) (concat (workers p))).
        { pose proof (concat_upd _ _ _ rest Ew) as H.
          apply Permutation_app_inv_l with (l := rest). rewrite <- H.
          symmetry. apply (Permutation_middle rest). }
        change ([o] ++ concat (upd (workers p) i rest) ++ concat (queue p) ++ concat (pending p))
          with ((o :: concat (upd (workers p) i rest)) ++ concat (queue p) ++ concat (pending p)).
        rewrite HH. reflexivity.
Qed.

Lemma pool_run_inv tasks m0 cs p p' :
  pool_inv tasks m0 p -> pool_run exec cs p = Some p' -> pool_inv tasks m0 p'.
Proof.
  revert p; induction cs; simpl; intros p H E.
  - inversion E; subst; auto.
  - destruct (pool_step exec a p) eqn:Es; try discriminate.
    apply (IHcs p0); [|assumption]. apply (pool_step_inv _ _ _ _ _ H Es).
Qed.

Lemma concat_repeat_nil {A} n : concat (repeat (@nil A) n) = [].
Proof. induction n; simpl; auto. Qed.

Lemma pool_init_inv n tasks m0 : pool_inv tasks m0 (pool_init n tasks m0).
Proof.
  exists []; split; auto. unfold todo, pool_init; simpl.
  rewrite concat_repeat_nil. simpl. reflexivity.
Qed.

Lemma pool_done_todo p : pool_done p -> todo p = [].
Proof.
  intros (H1 & H2 & H3). unfold todo. rewrite H1, H2; simpl. rewrite app_nil_r.
  induction H3; simpl; auto. subst; auto.
Qed.

(** Every complete execution is equivalent to running all operations in some
    order. *)
Theorem pool_complete n tasks m0 cs p :
  pool_run exec cs (pool_init n tasks m0) = Some p -> pool_done p ->
  exists ops, Permutation ops (concat tasks) /\ memory p = for_each ops exec m0.
Proof.
  intros Hr Hd. destruct (pool_run_inv _ _ _ _ _ (pool_init_inv n tasks m0) Hr)
    as (dn & Hm & Hp).
  rewrite (pool_done_todo _ Hd), app_nil_r in Hp. eauto.
Qed.

(** Progress: as long as there is at least one worker, a pool that is not
    finished can step (no deadlock). *)
Theorem pool_progress p :
  workers p <> [] -> ~ pool_done p -> exists c p', pool_step exec c p = Some p'.
Proof.
  intros Hw Hnd. destruct (pending p) as [|t r] eqn:Ep.
  2:{ exists Main. simpl. rewrite Ep. eauto. }
  destruct (queue p) as [|t q] eqn:Eq.
  - (* some worker is busy *)
    assert (exists i o rest, nth_error (workers p) i = Some (o :: rest)).
    { assert (Hx : ~ Forall (fun w => w = []) (workers p)).
      { intros H; apply Hnd; repeat split; auto. }
      clear - Hx. induction (workers p) as [|w ws IH].
      - exfalso; apply Hx; constructor.
      - destruct w as [|o rest].
        + destruct IH as (i & o & rest & H).
          * intros H; apply Hx; constructor; auto.
          * exists (S i), o, rest; auto.
        + exists O, o, rest; auto. }
    destruct H as (i & o & rest & H). exists (Worker i); simpl. rewrite H. eauto.
  - destruct (workers p) as [|w ws] eqn:Ew; try congruence.
    exists (Worker 0); simpl. rewrite Ew; simpl. destruct w; rewrite ?Eq; eauto.
Qed.

(** Termination: every step decreases this measure, so every execution is
    finite, and by [pool_progress] it ends in a finished pool. *)
Definition pool_measure (p : pool op mem) : nat :=
  (2 * List.length (pending p) + List.length (queue p) + List.length (todo p))%nat.

Lemma length_concat_upd (ws : list (list op)) i w t :
  nth_error ws i = Some w ->
  (List.length w + List.length (concat (upd ws i t)) =
   List.length t + List.length (concat ws))%nat.
Proof.
  intros H. apply concat_upd with (t := t) in H. apply Permutation_length in H.
  rewrite !app_length in H. auto.
Qed.

Theorem pool_step_decreases c p p' :
  pool_step exec c p = Some p' -> (pool_measure p' < pool_measure p)%nat.
Proof.
  unfold pool_step, pool_measure, todo. destruct c.
  - destruct (pending p) eqn:E; intros H; inversion H; subst; simpl.
    rewrite concat_app; simpl; rewrite app_nil_r, !app_length; simpl; lia.
  - destruct (nth_error (workers p) i) eqn:Ew; try discriminate.
    destruct l as [|o rest].
    + destruct (queue p) eqn:Eq; intros H; inversion H; subst; simpl.
      pose proof (length_concat_upd _ _ _ l Ew). simpl in *. rewrite !app_length. lia.
    + intros H; inversion H; subst; simpl.
      pose proof (length_concat_upd _ _ _ rest Ew). simpl in *. rewrite !app_length. lia.
Qed.

Lemma pool_step_workers c p p' :
  pool_step exec c p = Some p' ->
  List.length (workers p') = List.length (workers p).
Proof.
  unfold pool_step. destruct c.
  - destruct (pending p); intros H; inversion H; subst; auto.
  - destruct (nth_error (workers p) i); try discriminate.
    destruct l; [destruct (queue p)|]; intros H; inversion H; subst; simpl;
      auto using upd_length.
Qed.

(** From every reachable state some continuation finishes. *)
Lemma pool_can_finish p :
  workers p <> [] ->
  (pool_done p \/ ~ pool_done p) ->
  exists cs p', pool_run exec cs p = Some p' /\ pool_done p'.
Proof.
  remember (pool_measure p) as n eqn:En. revert p En.
  induction n as [n IH] using lt_wf_ind; intros p En Hw Hd.
  destruct Hd as [Hd|Hd].
  - exists [], p; auto.
  - destruct (pool_progress p Hw Hd) as (c & p1 & Hs).
    assert (Hw1 : workers p1 <> []).
    { apply pool_step_workers in Hs. intros E; rewrite E in Hs.
      destruct (workers p); simpl in *; congruence. }
    assert (Hdec : pool_done p1 \/ ~ pool_done p1).
    { unfold pool_done. destruct (pending p1); [|right; intros (H & _); discriminate].
      destruct (queue p1); [|right; intros (_ & H & _); discriminate].
      clear. assert (G : Forall (fun w : list op => w = []) (workers p1) \/
                         ~ Forall (fun w : list op => w = []) (workers p1)).
      { induction (workers p1) as [|w ws [IH|IH]]; auto.
        - destruct w; auto. right; intros H; inversion H; discriminate.
        - right; intros H; inversion H; auto. }
      destruct G; [left|right]; intuition. }
    pose proof (pool_step_decreases _ _ _ Hs).
    destruct (IH (pool_measure p1) ltac:(lia) p1 eq_refl Hw1 Hdec) as (cs & p' & Hr & Hd').
    exists (c :: cs), p'. simpl. rewrite Hs. auto.
Qed.

End PoolFacts.
