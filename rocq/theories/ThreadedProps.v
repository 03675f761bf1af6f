(** C19: what SectorStreamThreadedReader guarantees for every number of threads
    and every interleaving. *)
From Coq Require Import String ZArith List Lia Bool Permutation.
From Verif Require Import Base BaseFacts PermFacts BlockModel StreamModel StreamSpec SectorModel
  SectorSpec SectorProofs SectorProps ThreadedModel ThreadedSpec ThreadedProofs ThreadedLive.
Import ListNotations.
Open Scope Z_scope.

(** A state that [threads] workers can reach while they read [fs]. *)
Definition treachable (g : geom) (v : Z) (fs : list sfile) (threads : nat) (s : tstate) : Prop :=
  exists cs, trun g v cs (tinit threads (map encode_sfile fs)) = Some (Ok s).

Lemma treachable_inv g v fs threads s : wf_geom g -> v = 4 \/ v = 5 -> wf_tfiles g fs -> same_frame fs ->
  treachable g v fs threads s -> ReachInv g v fs s.
Proof.
  intros Hg Hv [H1 H2] Hs (cs & Hr).
  destruct (trun_ok g v fs Hg Hv (conj H1 H2) Hs cs _ _ (tinit_ok g v fs Hv threads) Hr) as (s' & E & HI).
  injection E as <-. exact HI.
Qed.

(** No interleaving makes two threads store the same pixel, use a frame that
    was erased, read outside a buffer, or raise an exception. *)
Theorem threaded_never_undefined : forall g v fs threads cs res,
  wf_geom g -> v = 4 \/ v = 5 -> wf_tfiles g fs -> same_frame fs ->
  trun g v cs (tinit threads (map encode_sfile fs)) = Some res ->
  exists s, res = Ok s.
Proof.
  intros g v fs threads cs res Hg Hv [H1 H2] Hs Hr.
  destruct (trun_ok g v fs Hg Hv (conj H1 H2) Hs cs _ _ (tinit_ok g v fs Hv threads) Hr) as (s' & E & HI).
  eauto.
Qed.

(** C19: when the workers are done the functor has been called exactly once for
    every frame number with four sectors, with the assembled frame, and for
    nothing else. *)
Theorem threaded_exactly_once : forall g v fs threads cs s,
  wf_geom g -> v = 4 \/ v = 5 -> wf_tfiles g fs -> same_frame fs -> (0 < threads)%nat ->
  trun g v cs (tinit threads (map encode_sfile fs)) = Some (Ok s) -> tfinished s = true ->
  exists ns, NoDup ns /\ (forall n, In n ns <-> nsec n (all_records fs) = 4) /\
    Permutation (t_out s) (map (fun n => numbered_block g v n (records_of n (all_records fs))) ns).
Proof.
  intros g v fs threads cs s Hg Hv Hw Hs Ht Hr Hf.
  assert (HI : ReachInv g v fs s) by (apply (treachable_inv g v fs threads); auto; exists cs; exact Hr).
  apply final_outs; auto.
  - eapply done_open_run; [|eauto]. intros Hin. unfold tinit in Hin. cbn [t_workers] in Hin.
    apply repeat_spec in Hin. discriminate.
  - pose proof (trun_workers g v cs _ _ Hr) as Hl. unfold tinit in Hl. cbn [t_workers] in Hl.
    rewrite repeat_length in Hl. intros E. rewrite E in Hl. simpl in Hl. lia.
Qed.

(** C19, memory: when the workers are done, no delivered frame is still held;
    what is held are the frames with fewer than four sectors, all of them. *)
Theorem threaded_holds_only_incomplete : forall g v fs threads cs s,
  wf_geom g -> v = 4 \/ v = 5 -> wf_tfiles g fs -> same_frame fs -> (0 < threads)%nat ->
  trun g v cs (tinit threads (map encode_sfile fs)) = Some (Ok s) -> tfinished s = true ->
  forall n, (nsec n (all_records fs) = 4 -> map_get n (t_cache s) = None) /\
            (0 < nsec n (all_records fs) < 4 -> exists fr, map_get n (t_cache s) = Some fr).
Proof.
  intros g v fs threads cs s Hg Hv Hw Hs Ht Hr Hf n.
  assert (HI : ReachInv g v fs s) by (apply (treachable_inv g v fs threads); auto; exists cs; exact Hr).
  assert (HC := fun A B => final_cache g v fs A s HI B).
  assert (H := HC (ltac:(destruct Hw; split; auto))). clear HC.
  assert (H' : match map_get n (t_cache s) with
            | Some fr => nsec n (all_records fs) < 4 /\ tf_count fr = nsec n (all_records fs)
            | None => nsec n (all_records fs) = 0 \/ nsec n (all_records fs) = 4
            end).
  { apply H; auto.
    - eapply done_open_run; [|eauto]. intros Hin. unfold tinit in Hin. cbn [t_workers] in Hin.
      apply repeat_spec in Hin. discriminate.
    - pose proof (trun_workers g v cs _ _ Hr) as Hl. unfold tinit in Hl. cbn [t_workers] in Hl.
      rewrite repeat_length in Hl. intros E. rewrite E in Hl. simpl in Hl. lia. }
  destruct (map_get n (t_cache s)) as [fr|]; split; intros; eauto; lia.
Qed.

(** C19, at any moment of any execution: what has been delivered are complete
    frames, each at most once. *)
Theorem threaded_delivers_only_complete : forall g v fs threads s,
  wf_geom g -> v = 4 \/ v = 5 -> wf_tfiles g fs -> same_frame fs ->
  treachable g v fs threads s ->
  exists ns, NoDup ns /\ (forall n, In n ns -> nsec n (all_records fs) = 4) /\
    Permutation (t_out s) (map (fun n => numbered_block g v n (records_of n (all_records fs))) ns).
Proof.
  intros g v fs threads s Hg Hv Hw Hs Hr.
  assert (HI : ReachInv g v fs s) by (eapply treachable_inv; eauto).
  destruct (out_sound g v fs (ltac:(destruct Hw; split; auto)) s HI) as (ns & Hnd & Hc & rest & Hp).
  destruct (Permutation_map_inv _ _ Hp) as (l & E & Hl).
  (* the delivered ones are a prefix of a permutation of all *)
  exists (firstn (List.length (t_out s)) l).
  assert (Hnl : NoDup l) by (eapply Permutation_NoDup; eauto).
  split; [|split].
  - rewrite <- (firstn_skipn (List.length (t_out s)) l) in Hnl. now apply StemProofs.NoDup_app_inv in Hnl.
  - intros n Hn. apply Hc. eapply Permutation_in; [symmetry; exact Hl|].
    rewrite <- (firstn_skipn (List.length (t_out s)) l). apply in_or_app. now left.
  - assert (E2 : t_out s = firstn (List.length (t_out s)) (t_out s ++ rest)).
    { rewrite firstn_app, Nat.sub_diag, firstn_O, app_nil_r, firstn_all. reflexivity. }
    rewrite E2 at 1. rewrite E. rewrite firstn_map. apply Permutation_refl.
Qed.

(** The file a thread uses: from taking it off the queue until it is back on
    the queue or closed (reader.h:396-462). *)
Definition uses (n : nat) (w : tworker) : Prop :=
  match w with
  | WPeek e | WErase e | WHeader e | WCache e _ | WFrame _ e _ _ | WPush e _ => fst e = n
  | _ => False
  end.

(** C19: two threads never use the same file. *)
Theorem threaded_one_thread_per_file : forall g v fs threads s i j w1 w2 n,
  wf_geom g -> v = 4 \/ v = 5 -> wf_tfiles g fs -> same_frame fs ->
  treachable g v fs threads s ->
  nth_error (t_workers s) i = Some w1 -> nth_error (t_workers s) j = Some w2 ->
  uses n w1 -> uses n w2 -> i = j.
Proof.
  intros g v fs threads s i j w1 w2 n Hg Hv Hw Hs Hr Hi Hj H1 H2.
  destruct (Nat.eq_dec i j) as [E|E]; auto. exfalso.
  assert (HI : ReachInv g v fs s) by (eapply treachable_inv; eauto).
  assert (Hu : forall w, uses n w -> In n (held w)).
  { intros w. destruct w; simpl; auto; contradiction. }
  exact (files_exclusive g v fs s i j w1 w2 n HI Hi Hj E (Hu _ H1) (Hu _ H2)).
Qed.

(** ... and a step that reads from a file is a step of the thread that uses it. *)
Theorem threaded_reads_own_file : forall g v s i j s' n,
  tstep g v (i, j) s = Some (Ok s') -> nth_error (t_files s') n <> nth_error (t_files s) n ->
  exists w, nth_error (t_workers s) i = Some w /\ uses n w.
Proof.
  intros g v s i j s' n Hs Hne. unfold tstep in Hs.
  destruct (nth_error (t_workers s) i) as [w|] eqn:Ew; [|discriminate]. exists w. split; auto.
  assert (Hupd : forall k f, nth_error (upd (t_files s) k f) n <> nth_error (t_files s) n -> k = n).
  { intros k f H. destruct (Nat.eq_dec k n); auto. exfalso. apply H. apply nth_error_upd_neq. auto. }
  destruct w as [| |e|e|e|e h|st e h id|e b|b|].
  - destruct (t_open s); injection Hs as <-; now elim Hne.
  - destruct (t_queue s) as [|p l]; [injection Hs as <-; now elim Hne|].
    destruct (nth_error (p :: l) j); [|discriminate]. destruct (existsb _ _); [discriminate|].
    injection Hs as <-. now elim Hne.
  - destruct (nth_error (t_files s) (fst e)) as [[? [|? ?]]|]; try discriminate; injection Hs as <-; now elim Hne.
  - destruct (existsb _ _); [|discriminate]. injection Hs as <-; now elim Hne.
  - destruct (nth_error (t_files s) (fst e)) as [[? ?]|]; [|discriminate].
    destruct (sector_header _) as [[? ?]| | |]; try discriminate. injection Hs as <-.
    cbn [t_files set_worker set_file] in Hne. simpl. eauto.
  - destruct (map_get _ _); injection Hs as <-; now elim Hne.
  - unfold frame_step in Hs. destruct (use_frame s h id) as [fr| | |]; try discriminate. destruct st.
    + destruct (data _); injection Hs as <-; now elim Hne.
    + destruct (tf_locked fr); [discriminate|]. injection Hs as <-; now elim Hne.
    + destruct (data _); injection Hs as <-; now elim Hne.
    + injection Hs as <-; now elim Hne.
    + destruct (nth_error (t_files s) (fst e)) as [[? rem]|]; [|discriminate].
      destruct (_ <=? k); [injection Hs as <-; now elim Hne|].
      destruct rem as [|b0 t]; [injection Hs as <-; now elim Hne|].
      destruct (existsb _ _); [discriminate|].
      match type of Hs with match ?m with _ => _ end = _ => destruct m end; try discriminate.
      injection Hs as <-. cbn [t_files set_worker set_file set_cache] in Hne. simpl. eauto.
    + destruct (_ =? 4); injection Hs as <-; now elim Hne.
    + destruct (existsb _ _); [discriminate|]. injection Hs as <-; now elim Hne.
  - injection Hs as <-; now elim Hne.
  - injection Hs as <-; now elim Hne.
  - discriminate.
Qed.

(** Progress: from every reachable state the workers can finish (no deadlock),
    ... *)
Theorem threaded_can_finish : forall g v fs threads s,
  wf_geom g -> v = 4 \/ v = 5 -> wf_tfiles g fs -> same_frame fs ->
  treachable g v fs threads s ->
  exists cs s', trun g v cs s = Some (Ok s') /\ tfinished s' = true.
Proof.
  intros g v fs threads s Hg Hv Hw Hs Hr.
  assert (HI : ReachInv g v fs s) by (eapply treachable_inv; eauto).
  eapply (can_finish g v fs); eauto.
Qed.

(** ... and no execution does more than a fixed amount of work: apart from
    testing for work while others hold the files, the threads together take at
    most (bytes + 3 files + threads) steps. *)
Theorem threaded_work_bounded : forall g v fs threads cs s,
  trun g v cs (tinit threads (map encode_sfile fs)) = Some (Ok s) ->
  work g v cs (tinit threads (map encode_sfile fs)) <=
    zsum (map (fun f => Zlen (snd (encode_sfile f))) fs) + 3 * Zlen fs + Z.of_nat threads.
Proof.
  intros g v fs threads cs s Hr. pose proof (work_run _ _ _ _ _ Hr) as Hw.
  pose proof (measure_nonneg s).
  assert (measure (tinit threads (map encode_sfile fs)) =
    zsum (map (fun f => Zlen (snd (encode_sfile f))) fs) + 3 * Zlen fs + Z.of_nat threads) as <-; [|lia].
  unfold measure, tinit. cbn [t_files t_queue t_workers].
  rewrite map_map. f_equal; [f_equal|].
  - unfold Zlen. rewrite map_length, seq_length, map_length. reflexivity.
  - clear. induction threads; cbn [repeat map]; [reflexivity|]. change (zsum (weight WCheck :: map weight (repeat WCheck threads))) with (1 + zsum (map weight (repeat WCheck threads))). rewrite IHthreads. lia.
Qed.

(** The reader always starts at least one worker, and exactly the number asked
    for when that is positive. *)
Theorem threaded_worker_count : forall threads hardware, 0 <= hardware ->
  0 < init_threads threads hardware /\ (0 < threads -> init_threads threads hardware = threads).
Proof.
  intros t h Hh. unfold init_threads. destruct (Z.ltb_spec t 1); [|lia].
  destruct (Z.eqb_spec h 0); lia.
Qed.

(** ** Findings *)

(** readAll().get() works once per reader; the second time it raises, whatever
    the number of threads, since the futures of the first are kept. *)
Theorem threaded_second_read_all_refuted : forall threads n, (0 < threads)%nat ->
  (exists f, read_all_calls 1 threads [] = Ok f) /\
  exists m, read_all_calls (2 + n) threads [] = Throw m.
Proof.
  intros threads n Ht.
  assert (H : get_all (repeat true threads) = Ok (repeat false threads)).
  { clear. induction threads; simpl; [reflexivity|]. now rewrite IHthreads. }
  split.
  - eexists. simpl. rewrite H. reflexivity.
  - eexists. simpl. rewrite H. cbn [bind]. destruct threads as [|t]; [lia|]. reflexivity.
Qed.

(** A schedule that runs worker [i] for [n] steps. *)
Definition solo (i n : nat) : list (nat * nat) := repeat (i, O) n.

(** One worker can be erasing a finished file from the list of streams while
    another one tests, without the mutex, whether that list is empty. *)
Theorem threaded_streams_race_refuted : exists cs s,
  trun g44 5 cs (tinit 2 (map encode_sfile files44)) = Some (Ok s) /\ streams_race s.
Proof.
  exists (solo 0 123).
  destruct (trun g44 5 (solo 0 123) (tinit 2 (map encode_sfile files44))) as [[s| | |]|] eqn:E;
    try (vm_compute in E; discriminate).
  exists s. split; auto. exists 1%nat, 0%nat, (0%nat, 2). split; [lia|].
  vm_compute in E. injection E as <-. split; reflexivity.
Qed.

(** If a sector is recorded twice, a thread can be left with a frame that another
    thread has delivered and erased. *)
Definition dup_files : list sfile :=
  [(0, [rec44 0 0 0]); (1, [rec44 0 0 10]); (2, [rec44 0 0 20]); (3, [rec44 0 0 30]); (0, [rec44 0 0 0])].
Theorem threaded_duplicate_sector_refuted : exists cs why,
  trun g44 5 cs (tinit 2 (map encode_sfile dup_files)) = Some (UB why).
Proof. exists ([(1, 0); (1, 4); (1, 0); (1, 0); (1, 0)]%nat ++ solo 0 67 ++ solo 1 1). eexists. vm_compute. reflexivity. Qed.

(** ** Witnesses *)

Example files44_threaded_ok : wf_tfiles g44 files44 /\ same_frame files44.
Proof.
  split; [split|].
  - apply files44_ok.
  - cbn. repeat constructor; simpl; intuition discriminate.
  - intros a b Ha Hb. cbn in Ha, Hb.
    repeat destruct Ha as [<-|Ha]; try contradiction;
      repeat destruct Hb as [<-|Hb]; try contradiction; simpl; intros E; try discriminate E; repeat split; reflexivity.
Qed.

(** A fair scheduler to compute executions: every worker in turn, [skip] steps
    ahead for the first one; the first choice of the queue that is allowed. *)
Fixpoint first_step (g : geom) (v : Z) (i : nat) (js : list nat) (s : tstate) : option ((nat * nat) * tstate) :=
  match js with
  | [] => None
  | j :: r => match tstep g v (i, j) s with
              | Some (Ok s') => Some ((i, j), s')
              | _ => first_step g v i r s
              end
  end.
Fixpoint robin (g : geom) (v : Z) (n i threads : nat) (s : tstate) : list (nat * nat) * tstate :=
  match n with
  | O => ([], s)
  | S m => let i' := if Nat.eqb (S i) threads then O else S i in
           match first_step g v i (seq 0 4) s with
           | Some (c, s') => let '(cs, s2) := robin g v m i' threads s' in (c :: cs, s2)
           | None => robin g v m i' threads s
           end
  end.

(** Three workers in turn: a complete execution and what it delivers. *)
Example files44_three_workers :
  let cs := fst (robin g44 5 600 0 3 (tinit 3 (map encode_sfile files44))) in
  exists s, trun g44 5 cs (tinit 3 (map encode_sfile files44)) = Some (Ok s) /\
    tfinished s = true /\
    map (fun b => (frame_number (hdr b), image_numbers (hdr b), data b)) (t_out s) =
    [(0, [0], Some [0; 1; 2; 3; 10; 11; 12; 13; 20; 21; 22; 23; 30; 31; 32; 33]);
     (1, [1], Some [40; 41; 42; 43; 50; 51; 52; 53; 60; 61; 62; 63; 80; 81; 82; 83])] /\
    map fst (t_cache s) = [2] (* frame 2 has one sector *).
Proof. eexists. split; [vm_compute; reflexivity|]. split; [|split]; vm_compute; reflexivity. Qed.

(** A reachable state in which two threads are filling the same frame. *)
Example files44_two_filling : exists s e1 h1 id e2 h2 k1 k2,
  treachable g44 5 files44 2 s /\
  t_workers s = [WFrame (Fill k1) e1 h1 id; WFrame (Fill k2) e2 h2 id] /\ 0 < k1 /\ 0 < k2.
Proof.
  do 8 eexists. split; [exists (solo 0 11 ++ [(1, 0); (1, 1)]%nat ++ solo 1 6); vm_compute; reflexivity|].
  split; [reflexivity|]. lia.
Qed.

Print Assumptions threaded_never_undefined.
Print Assumptions threaded_exactly_once.
Print Assumptions threaded_holds_only_incomplete.
Print Assumptions threaded_delivers_only_complete.
Print Assumptions threaded_one_thread_per_file.
Print Assumptions threaded_reads_own_file.
Print Assumptions threaded_can_finish.
Print Assumptions threaded_work_bounded.
Print Assumptions threaded_worker_count.
Print Assumptions threaded_second_read_all_refuted.
Print Assumptions threaded_streams_race_refuted.
Print Assumptions threaded_duplicate_sector_refuted.
Print Assumptions files44_three_workers.
Print Assumptions files44_two_filling.
