(** Counting from a reader: every joint execution is an execution of the reader
    and an execution of the counter on the blocks the reader delivers. *)
From Coq Require Import String ZArith List Lia Bool Permutation.
From Verif Require Import Base BaseFacts BlockModel PermFacts StreamModel SectorModel SectorSpec
  ThreadedModel MultipassModel CountModel CountSpec CountProofs CountLive CountProps JointModel.
Import ListNotations.
Open Scope Z_scope.

Section Generic.
Variable S : source.
Variable out : src_state S -> list block.
Hypothesis out_step : forall c s s', src_step S c s = Some (Ok s') ->
  out s' = out s ++ match src_call S c s with Some b => [b] | None => [] end.
Hypothesis ended_stuck : forall c s, src_ended S s = true -> src_step S c s = None.

Context {Th : Type}.
Variable thresholds_of : list block -> outcome Th.
Variable count : Th -> (Z * Z) -> list Z -> outcome (list Z).
Variable nsamples : Z.
Variable scan_opt : Z * Z.

Notation cstep := (count_step thresholds_of count nsamples scan_opt).
Notation crun := (count_run thresholds_of count nsamples scan_opt).
Notation jstep := (joint_step S thresholds_of count nsamples scan_opt).
Notation jrun := (joint_run S thresholds_of count nsamples scan_opt).

(** An execution of the reader alone. *)
Fixpoint srun (cs : list (src_choice S)) (s : src_state S) : option (outcome (src_state S)) :=
  match cs with
  | [] => Some (Ok s)
  | c :: r => match src_step S c s with
              | Some (Ok s') => srun r s'
              | o => o
              end
  end.

Definition with_todo (l : list block) (s : csys Th) : csys Th :=
  mkSys l (c_workers s) (c_samples s) (c_incomplete s) (c_counting s) (c_thr s) (c_events s) (c_main s).

Lemma with_todo_nil s : c_todo s = [] -> with_todo [] s = s.
Proof. destruct s; simpl; intros ->; reflexivity. Qed.

(** Steps that do not look at the outstanding blocks. *)
Definition map_oo {A B} (f : A -> B) (o : option (outcome A)) : option (outcome B) :=
  match o with None => None | Some m => Some (let* a := m in Ok (f a)) end.

Lemma work_todo i l s : cstep (Work i) (with_todo l s) = map_oo (with_todo l) (cstep (Work i) s).
Proof.
  unfold count_step. cbn [with_todo c_workers]. destruct (nth_error (c_workers s) i) as [w|]; [|reflexivity].
  assert (HW : forall b, worker_wait (with_todo l s) i b = (let* a := worker_wait s i b in Ok (with_todo l a))).
  { intros b. unfold worker_wait. cbn [with_todo c_counting]. destruct (c_counting s); [|reflexivity].
    destruct (block_jobs b); reflexivity. }
  destruct w; cbn [worker_step]; try reflexivity.
  - cbn [with_todo c_counting]. destruct (c_counting s); [|reflexivity]. destruct (block_jobs b); reflexivity.
  - unfold mutex_free. cbn [with_todo c_workers]. destruct (negb _); [|reflexivity].
    cbn [with_todo c_samples c_todo c_incomplete]. destruct (_ <? _); [|cbn [map_oo]; f_equal; apply HW].
    destruct (rd (complete (hdr b)) 0) as [[]| | |]; reflexivity.
  - unfold mutex_free. cbn [with_todo c_workers]. destruct (negb _); [|reflexivity]. cbn [map_oo]. f_equal. apply HW.
  - destruct jobs as [|j r]; [reflexivity|]. unfold count_job. cbn [with_todo c_thr].
    destruct (c_thr s); [|reflexivity]. destruct (count _ _ _); reflexivity.
  - cbn [with_todo c_events c_workers c_main]. destruct (negb _); [reflexivity|].
    destruct (existsb _ _); [reflexivity|]. destruct (c_main s); try reflexivity.
    destruct (_ =? _); reflexivity.
  - cbn [with_todo c_events c_workers]. destruct (2 <=? _); [reflexivity|].
    destruct (push_event _ _ _); reflexivity.
Qed.

Lemma main_todo l s : c_main s <> MJoin -> cstep MainStep (with_todo l s) = map_oo (with_todo l) (cstep MainStep s).
Proof.
  intros HJ. unfold count_step, main_step. cbn [with_todo c_main].
  assert (HC : main_check thresholds_of nsamples scan_opt (with_todo l s) =
               map_oo (with_todo l) (main_check thresholds_of nsamples scan_opt s)).
  { unfold main_check, mutex_free. cbn [with_todo c_workers]. destruct (negb _); [|reflexivity].
    cbn [with_todo c_samples]. destruct (_ =? _); [|reflexivity]. cbn [map_oo]. f_equal.
    unfold main_thresholds. cbn [with_todo c_samples]. destruct (thresholds_of (c_samples s)); cbn [bind]; try reflexivity.
    destruct (rd (c_samples s) 0); reflexivity. }
  destruct (c_main s); try reflexivity; auto; try congruence.
  - destruct jobs as [|j r]; [destruct blocks as [|b bs]; [reflexivity|]; destruct (block_jobs b); reflexivity|].
    unfold count_job. cbn [with_todo c_thr]. destruct (c_thr s); destruct blocks; try reflexivity; destruct (count _ _ _); reflexivity.
  - cbn [with_todo c_events c_workers]. destruct (negb _); [reflexivity|]. destruct (existsb _ _); reflexivity.
  - cbn [with_todo c_events]. destruct (push_event _ _ _); reflexivity.
Qed.

Lemma count_todo c s s' : (forall i k, c <> Take i k) -> cstep c s = Some (Ok s') -> c_todo s' = c_todo s.
Proof.
  intros HT H. assert (E : with_todo (c_todo s) s = s) by (destruct s; reflexivity).
  destruct c as [i k|i|]; [congruence| |].
  - pose proof (work_todo i (c_todo s) s) as W. rewrite E, H in W. cbn [map_oo bind] in W. injection W as ->. reflexivity.
  - destruct (c_main s) eqn:Em; try (pose proof (main_todo (c_todo s) s ltac:(congruence)) as W; rewrite E, H in W;
      cbn [map_oo bind] in W; injection W as ->; reflexivity).
    unfold count_step, main_step in H. rewrite Em in H. destruct (_ && _); [|discriminate]. injection H as <-. reflexivity.
Qed.

(** One joint step, seen from both sides. *)
Lemma jstep_split c s s' : c_todo (j_cnt s) = [] -> jstep c s = Some (Ok s') ->
  c_todo (j_cnt s') = [] /\
  exists d rs ks, out (j_src s') = out (j_src s) ++ d /\
    srun rs (j_src s) = Some (Ok (j_src s')) /\ 1 <= Zlen rs + Zlen ks /\
    forall F, (src_ended S (j_src s) = true -> F = []) ->
      crun ks (with_todo (d ++ F) (j_cnt s)) = Some (Ok (with_todo F (j_cnt s'))).
Proof.
  intros H0 H. destruct c as [c|i|]; unfold joint_step in H.
  - destruct (nth_error (c_workers (j_cnt s)) (src_who S c)) as [[]|] eqn:Ew; try discriminate.
    destruct (src_step S c (j_src s)) as [o|] eqn:Es; [|discriminate].
    injection H as H. apply bind_ok in H as (r & -> & H). injection H as <-. cbn [j_cnt j_src].
    pose proof (out_step c (j_src s) r Es) as HO.
    destruct (src_call S c (j_src s)) as [b|].
    + split; [exact H0|]. exists [b], [c], [Take (src_who S c) 0]. split; [exact HO|].
      cbn [srun]. rewrite Es. split; [reflexivity|]. split; [unfold Zlen; simpl; lia|].
      intros F _. cbn [count_run count_step with_todo c_workers c_todo app]. rewrite Ew. reflexivity.
    + split; [exact H0|]. exists [], [c], []. split; [exact HO|].
      cbn [srun]. rewrite Es. split; [reflexivity|]. split; [unfold Zlen; simpl; lia|]. reflexivity.
  - unfold from_counter in H. destruct (cstep (Work i) (j_cnt s)) as [o|] eqn:Es; [|discriminate].
    injection H as H. apply bind_ok in H as (r & -> & H). injection H as <-. cbn [j_cnt j_src].
    split; [rewrite <- H0; eapply count_todo; eauto; congruence|].
    exists [], [], [Work i]. rewrite app_nil_r. split; [reflexivity|]. split; [reflexivity|].
    split; [unfold Zlen; simpl; lia|]. intros F _.
    cbn [count_run app]. rewrite work_todo, Es. reflexivity.
  - unfold may_join in H. destruct (match c_main (j_cnt s) with MJoin => src_ended S (j_src s) | _ => true end) eqn:Em; [|discriminate].
    unfold from_counter in H. destruct (cstep MainStep (j_cnt s)) as [o|] eqn:Es; [|discriminate].
    injection H as H. apply bind_ok in H as (r & -> & H). injection H as <-. cbn [j_cnt j_src].
    split; [rewrite <- H0; eapply count_todo; eauto; congruence|].
    exists [], [], [MainStep]. rewrite app_nil_r. split; [reflexivity|]. split; [reflexivity|].
    split; [unfold Zlen; simpl; lia|]. intros F HF.
    cbn [count_run app].
    destruct (c_main (j_cnt s)) eqn:Ec; try (rewrite main_todo by congruence; rewrite Es; reflexivity).
    rewrite (HF Em). rewrite with_todo_nil by auto. rewrite Es.
    rewrite with_todo_nil; [reflexivity|]. rewrite <- H0; eapply count_todo; eauto; congruence.
Qed.

Lemma srun_app cs cs' s s' : srun cs s = Some (Ok s') -> srun (cs ++ cs') s = srun cs' s'.
Proof.
  revert s; induction cs as [|c cs IH]; simpl; intros s H; [congruence|].
  destruct (src_step S c s) as [[]|]; try discriminate. auto.
Qed.

Lemma srun_out cs s s' : srun cs s = Some (Ok s') -> exists d, out s' = out s ++ d.
Proof.
  revert s; induction cs as [|c cs IH]; simpl; intros s H.
  - injection H as <-. exists []. now rewrite app_nil_r.
  - destruct (src_step S c s) as [[s1| | |]|] eqn:E; try discriminate.
    destruct (IH _ H) as (d & ->). rewrite (out_step _ _ _ E). rewrite <- app_assoc. eauto.
Qed.

Lemma ended_srun cs s s' : src_ended S s = true -> srun cs s = Some (Ok s') -> s' = s.
Proof. intros E. destruct cs as [|c cs]; simpl; [congruence|]. rewrite ended_stuck by auto. discriminate. Qed.

(** A joint execution is an execution of the reader and one of the counter on
    the blocks delivered from here on. *)
Lemma jrun_split cs : forall s s', c_todo (j_cnt s) = [] -> jrun cs s = Some (Ok s') ->
  c_todo (j_cnt s') = [] /\
  exists F rs ks, out (j_src s') = out (j_src s) ++ F /\
    srun rs (j_src s) = Some (Ok (j_src s')) /\ Zlen cs <= Zlen rs + Zlen ks /\
    crun ks (with_todo F (j_cnt s)) = Some (Ok (j_cnt s')).
Proof.
  induction cs as [|c cs IH]; intros s s' H0 H.
  - cbn [joint_run] in H. injection H as <-. split; auto. exists [], [], []. rewrite app_nil_r.
    split; auto. split; auto. split; [unfold Zlen; simpl; lia|]. cbn [count_run]. now rewrite with_todo_nil.
  - cbn [joint_run] in H. destruct (jstep c s) as [[s1| | |]|] eqn:E; try discriminate.
    destruct (jstep_split c s s1 H0 E) as (H1 & d & r1 & k1 & O1 & R1 & L1 & C1).
    destruct (IH s1 s' H1 H) as (H2 & F & r2 & k2 & O2 & R2 & L2 & C2).
    split; auto. exists (d ++ F), (r1 ++ r2), (k1 ++ k2).
    split; [rewrite O2, O1, app_assoc; reflexivity|].
    split; [rewrite (srun_app _ _ _ _ R1); exact R2|].
    split; [rewrite Zlen_cons, !Zlen_app; lia|].
    erewrite run_app; [exact C2|]. apply C1. intros HE.
    pose proof (ended_srun r1 _ _ HE R1) as E1. rewrite E1 in R2.
    pose proof (ended_srun r2 _ _ HE R2) as E2. rewrite E2, E1 in O2.
    rewrite <- (app_nil_r (out (j_src s))) in O2 at 1. now apply app_inv_head in O2.
Qed.

(** From the start. *)
Lemma jrun_counter cs nw s0 s : out s0 = [] -> jrun cs (joint_init S nw s0) = Some (Ok s) ->
  c_todo (j_cnt s) = [] /\
  exists rs ks, srun rs s0 = Some (Ok (j_src s)) /\ Zlen cs <= Zlen rs + Zlen ks /\
    crun ks (count_init nw (out (j_src s))) = Some (Ok (j_cnt s)).
Proof.
  intros HO H. destruct (jrun_split cs _ _ (eq_refl : c_todo (j_cnt (joint_init S nw s0)) = []) H)
    as (H1 & F & rs & ks & O & R & L & C). cbn [joint_init j_src j_cnt] in *.
  rewrite HO in O. cbn [app] in O. split; auto. exists rs, ks. rewrite O. auto.
Qed.

(** A failing joint execution fails in the reader or in the counter. *)
Lemma jrun_fail cs nw s0 o : out s0 = [] -> jrun cs (joint_init S nw s0) = Some o -> (forall s, o <> Ok s) ->
  exists cs1 s, jrun cs1 (joint_init S nw s0) = Some (Ok s) /\
    ((exists c o', src_step S c (j_src s) = Some o' /\ forall s', o' <> Ok s') \/
     (exists ks o', crun ks (count_init nw (out (j_src s))) = Some o' /\ forall s', o' <> Ok s')).
Proof.
  intros HO H HN.
  assert (G : forall cs cs1 s, jrun cs1 (joint_init S nw s0) = Some (Ok s) -> jrun cs s = Some o ->
    exists cs1 s c, jrun cs1 (joint_init S nw s0) = Some (Ok s) /\ jstep c s = Some o).
  { clear - HN. induction cs as [|c cs IH]; intros cs1 s H1 H; cbn [joint_run] in H.
    - injection H as <-. now elim (HN s).
    - destruct (jstep c s) as [o1|] eqn:E; [|discriminate].
      destruct o1 as [s1| | |]; try (injection H as <-; exists cs1, s, c; auto; fail).
      apply (IH (cs1 ++ [c]) s1); auto. revert H1. generalize (joint_init (Th:=Th) S nw s0).
      clear - E. induction cs1 as [|a cs1 IH]; cbn [joint_run app]; intros j H1.
      + injection H1 as ->. rewrite E. reflexivity.
      + destruct (jstep a j) as [[]|]; try discriminate. auto. }
  destruct (G cs [] _ eq_refl H) as (cs1 & s & c & H1 & Hc). exists cs1, s. split; auto.
  destruct (jrun_counter cs1 nw s0 s HO H1) as (H0 & rs & ks & _ & _ & C).
  destruct c as [c|i|]; unfold joint_step in Hc.
  - left. destruct (nth_error _ _) as [[]|]; try discriminate.
    destruct (src_step S c (j_src s)) as [o'|] eqn:Es; [|discriminate]. exists c, o'. split; auto.
    intros s' ->. cbn [bind] in Hc. injection Hc as <-. eapply HN; reflexivity.
  - right. unfold from_counter in Hc. destruct (cstep (Work i) (j_cnt s)) as [o'|] eqn:Es; [|discriminate].
    exists (ks ++ [Work i]), o'. split.
    + rewrite (run_app _ _ _ _ _ _ _ _ C). cbn [count_run]. rewrite Es. destruct o'; reflexivity.
    + intros s' ->. cbn [bind] in Hc. injection Hc as <-. eapply HN; reflexivity.
  - right. destruct (may_join S s); [|discriminate].
    unfold from_counter in Hc. destruct (cstep MainStep (j_cnt s)) as [o'|] eqn:Es; [|discriminate].
    exists (ks ++ [MainStep]), o'. split.
    + rewrite (run_app _ _ _ _ _ _ _ _ C). cbn [count_run]. rewrite Es. destruct o'; reflexivity.
    + intros s' ->. cbn [bind] in Hc. injection Hc as <-. eapply HN; reflexivity.
Qed.

(** A result is returned only after the reader has ended. *)
Lemma jrun_done_ended cs : forall s0 s ev,
  (forall r, c_main (j_cnt s0) = MDone r -> src_ended S (j_src s0) = true) ->
  jrun cs s0 = Some (Ok s) -> c_main (j_cnt s) = MDone ev -> src_ended S (j_src s) = true.
Proof.
  induction cs as [|c cs IH]; intros s0 s ev HI H Hm; cbn [joint_run] in H.
      - injection H as <-. eapply HI; eauto.
      - destruct (jstep c s0) as [[s1| | |]|] eqn:E; try discriminate. apply (IH s1 s ev); auto. clear H Hm. intros r1 Hr1.
        destruct c as [c|i|]; unfold joint_step in E.
        + destruct (nth_error _ _) as [[]|]; try discriminate.
          destruct (src_step S c (j_src s0)) as [o|] eqn:Es; [|discriminate]. injection E as E.
          apply bind_ok in E as (x & -> & E). injection E as <-. cbn [j_cnt j_src] in *.
          assert (c_main (j_cnt s0) = MDone r1) by (revert Hr1; destruct (src_call S c (j_src s0)); exact (fun x => x)).
          pose proof (HI _ H) as HE. rewrite (ended_stuck c (j_src s0) HE) in Es. discriminate.
        + unfold from_counter in E. destruct (count_step _ _ _ _ _ _) as [o|] eqn:Es; [|discriminate]. injection E as E.
          apply bind_ok in E as (x & -> & E). injection E as <-. cbn [j_cnt j_src] in *.
          apply (HI r1). rewrite <- Hr1. symmetry. unfold count_step in Es.
          destruct (nth_error (c_workers (j_cnt s0)) i) as [w|]; [|discriminate]. clear - Es Hr1.
          unfold worker_step, worker_wait in Es. destruct w; try discriminate.
          * injection Es as Es. destruct (c_counting _); [apply bind_ok in Es as (? & _ & Es)|]; injection Es as <-; reflexivity.
          * destruct (mutex_free _); [|discriminate]. injection Es as Es. destruct (_ <? _).
            -- apply bind_ok in Es as (? & _ & Es). injection Es as <-. reflexivity.
            -- destruct (c_counting _); [apply bind_ok in Es as (? & _ & Es)|]; injection Es as <-; reflexivity.
          * injection Es as <-. cbn [c_main] in Hr1 |- *. destruct (c_main (j_cnt s0)); try discriminate; reflexivity.
          * destruct (mutex_free _); [|discriminate]. injection Es as Es.
            destruct (c_counting _); [apply bind_ok in Es as (? & _ & Es)|]; injection Es as <-; reflexivity.
          * destruct jobs; [injection Es as <-; reflexivity|]. injection Es as Es. apply bind_ok in Es as (? & _ & Es).
            injection Es as <-; reflexivity.
          * destruct (negb _); [discriminate|]. destruct (existsb _ _); [discriminate|]. injection Es as Es.
            destruct (c_main (j_cnt s0)) eqn:Em; try (injection Es as <-; cbn; congruence).
            destruct (_ =? _); [discriminate|]. injection Es as <-; cbn; congruence.
          * injection Es as Es. destruct (2 <=? _); [discriminate|]. apply bind_ok in Es as (? & _ & Es). injection Es as <-; reflexivity.
        + destruct (may_join S s0) eqn:Ej; [|discriminate]. unfold may_join in Ej.
          unfold from_counter in E. destruct (count_step _ _ _ _ _ _) as [o|] eqn:Es; [|discriminate]. injection E as E.
          apply bind_ok in E as (x & -> & E). injection E as <-. cbn [j_cnt j_src] in *.
          unfold count_step, main_step in Es. destruct (c_main (j_cnt s0)) eqn:Em; try discriminate; auto; exfalso.
          * unfold main_check in Es. destruct (mutex_free _); [|discriminate]. injection Es as Es. destruct (_ =? _).
            -- unfold main_thresholds in Es. apply bind_ok in Es as (? & _ & Es). apply bind_ok in Es as (? & _ & Es).
               injection Es as <-. discriminate.
            -- injection Es as <-. discriminate.
          * unfold main_check in Es. destruct (mutex_free _); [|discriminate]. injection Es as Es. destruct (_ =? _).
            -- unfold main_thresholds in Es. apply bind_ok in Es as (? & _ & Es). apply bind_ok in Es as (? & _ & Es).
               injection Es as <-. discriminate.
            -- injection Es as <-. discriminate.
          * injection Es as <-. discriminate.
          * destruct blocks as [|b bs']; destruct jobs as [|j js]; injection Es as Es;
              try (apply bind_ok in Es as (? & _ & Es)); try injection Es as <-; try (rewrite <- Es in Hr1); discriminate.
          * injection Es as Es. destruct (negb _); [discriminate|]. destruct (existsb _ _); [discriminate|]. injection Es as <-. discriminate.
          * injection Es as Es. apply bind_ok in Es as (? & _ & Es). injection Es as <-. discriminate. 
Qed.

Lemma jrun_app cs cs' s s1 : jrun cs s = Some (Ok s1) -> jrun (cs ++ cs') s = jrun cs' s1.
Proof.
  revert s. induction cs as [|a cs IH]; cbn [joint_run app]; intros j H1.
  - injection H1 as ->. reflexivity.
  - destruct (jstep a j) as [[]|]; try discriminate. auto.
Qed.

Lemma jrun_snoc cs c s s1 : jrun cs s = Some (Ok s1) -> jrun (cs ++ [c]) s = jstep c s1.
Proof.
  revert s. induction cs as [|a cs IH]; cbn [joint_run app]; intros j H1.
  - injection H1 as ->. destruct (jstep c s1) as [[]|]; reflexivity.
  - destruct (jstep a j) as [[]|]; try discriminate. auto.
Qed.

(** The thread calling electronCount only gets a result from the counter. *)
Lemma jstep_of_count c s : c_todo (j_cnt s) = [] -> cstep c (j_cnt s) <> None ->
  (forallb is_idle (c_workers (j_cnt s)) = true -> src_ended S (j_src s) = true) ->
  exists c', jstep c' s <> None.
Proof.
  intros H0 H HE. destruct c as [i k|i|].
  - exfalso. apply H. unfold count_step. rewrite H0. destruct (nth_error _ i) as [[]|]; auto.
    destruct k; reflexivity.
  - exists (JWork i). unfold joint_step, from_counter. destruct (cstep (Work i) (j_cnt s)); [discriminate|congruence].
  - exists JMain. unfold joint_step.
    assert (may_join S s = true) as ->.
    { unfold may_join. destruct (c_main (j_cnt s)) eqn:Em; auto. apply HE.
      unfold count_step, main_step in H. rewrite Em in H.
      destruct (forallb is_idle (c_workers (j_cnt s))); auto. }
    unfold from_counter. destruct (cstep MainStep (j_cnt s)); [discriminate|congruence].
Qed.

(** Progress: a thread of the reader that has not ended and is not inside the
    functor can move; when the reader has ended there were enough complete
    blocks. *)
Lemma jprogress nw cs s0 s (ended : nat -> bool) : out s0 = [] -> (0 < nw)%nat ->
  jrun cs (joint_init S nw s0) = Some (Ok s) ->
  (forall i, (i < nw)%nat -> ended i = false -> exists c, src_who S c = i /\ src_step S c (j_src s) <> None) ->
  ((forall i, (i < nw)%nat -> ended i = true) -> src_ended S (j_src s) = true) ->
  (src_ended S (j_src s) = true -> u32 nsamples <= complete_blocks (out (j_src s))) ->
  (forall r, c_main (j_cnt s) <> MDone r) ->
  exists c, jstep c s <> None.
Proof.
  intros HO Hnw H HR HE HC HD.
  destruct (jrun_counter cs nw s0 s HO H) as (H0 & rs & ks & _ & _ & C).
  set (B := out (j_src s)) in *.
  pose proof (inv_init thresholds_of count nsamples scan_opt B nw eq_refl) as I0.
  pose proof (run_inv _ _ _ _ _ _ _ _ I0 C) as I.
  pose proof (run_live _ _ _ _ _ _ _ _ I0 (live_init nsamples B nw) C) as L.
  pose proof (run_workers _ _ _ _ _ _ _ C) as W.
  unfold count_init in W. cbn [c_workers] in W. rewrite repeat_length in W.
  set (ws := c_workers (j_cnt s)) in *.
  assert (HA : (exists i, nth_error ws i = Some WIdle /\ ended i = false) \/
               (forall i, nth_error ws i = Some WIdle -> ended i = true)).
  { clear. destruct (existsb (fun i => match nth_error ws i with Some WIdle => negb (ended i) | _ => false end)
                       (seq 0 (List.length ws))) eqn:E.
    - left. apply existsb_exists in E as (i & _ & E). exists i.
      destruct (nth_error ws i) as [[]|]; try discriminate. split; auto. now destruct (ended i).
    - right. intros i Hi. destruct (ended i) eqn:Ei; auto. exfalso.
      assert (In i (seq 0 (List.length ws))).
      { apply in_seq. assert (nth_error ws i <> None) by congruence. apply nth_error_Some in H. lia. }
      assert (X : existsb (fun i => match nth_error ws i with Some WIdle => negb (ended i) | _ => false end)
                       (seq 0 (List.length ws)) = true).
      { apply existsb_exists. exists i. split; auto. rewrite Hi, Ei. reflexivity. }
      congruence. }
  destruct HA as [(i & Hi & Ei)|HA].
  { assert (Hlt : (i < nw)%nat) by (rewrite <- W; apply nth_error_Some; congruence).
    destruct (HR i Hlt Ei) as (c & <- & Hc). exists (JRead c). unfold joint_step. fold ws. rewrite Hi.
    destruct (src_step S c (j_src s)); [discriminate|congruence]. }
  assert (Hidle : forallb is_idle ws = true -> src_ended S (j_src s) = true).
  { intros Hf. apply HE. intros i Hi. apply HA. rewrite <- W in Hi.
    destruct (nth_error ws i) as [w|] eqn:Ew; [|apply nth_error_None in Ew; lia].
    rewrite forallb_forall in Hf. specialize (Hf w (nth_error_In _ _ Ew)). destruct w; try discriminate. reflexivity. }
  destruct (Z_le_gt_dec (u32 nsamples) (complete_blocks B)) as [Hen|Hfew].
  - destruct (progress thresholds_of count nsamples scan_opt B (j_cnt s) I L) as (c & Hc); auto.
    { intros E. fold ws in E. rewrite E in W. simpl in W. lia. }
    apply (jstep_of_count c); auto.
  - assert (HS : Zlen (c_samples (j_cnt s)) < u32 nsamples).
    { destruct I as [[(rest & C1) C2 _ _] _]. apply (Permutation_filter is_complete) in C1.
      apply Permutation_length in C1. rewrite filter_app, app_length in C1.
      assert (E : filter is_complete (c_samples (j_cnt s)) = c_samples (j_cnt s)).
      { clear - C2. induction C2; simpl; auto. rewrite H, IHC2. reflexivity. }
      rewrite E in C1. unfold complete_blocks, Zlen in *. lia. }
    assert (HNB : c_main (j_cnt s) <> MNotify).
    { intros E. destruct I as [_ [I|(t & I)]].
      - pose proof (ia_main _ _ I) as X. rewrite E in X. destruct X.
      - pose proof (ib_len _ _ _ _ _ _ _ I). lia. }
    destruct (forallb is_idle ws) eqn:Ef.
    { exfalso. specialize (HC (Hidle eq_refl)). lia. }
    assert (exists i w, nth_error ws i = Some w /\ w <> WIdle) as (i & w & Hi & Hw).
    { clear - Ef. induction ws as [|w ws IH]; [discriminate|]. simpl in Ef. destruct (is_idle w) eqn:E.
      - destruct (IH Ef) as (i & w' & H & H'). exists (Datatypes.S i), w'. auto.
      - exists O, w. split; auto. intros ->. discriminate. }
    assert (HA2 : forall b, w <> WAsleep b).
    { intros b ->. destruct (lv_asleep _ _ L b (nth_error_In _ _ Hi)) as [[_ E]|E]; [lia|congruence]. }
    destruct (worker_enabled thresholds_of count nsamples scan_opt (j_cnt s) w i Hi Hw HA2) as (c & Hc).
    apply (jstep_of_count c); auto. fold ws. rewrite Ef. discriminate.
Qed.

End Generic.
