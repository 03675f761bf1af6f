(** Properties of electron counting over a data set (C24, C25, C26, C29). *)
From Coq Require Import String ZArith List Lia Permutation Bool.
From Verif Require Import Base BaseFacts BlockModel PermFacts CountModel CountSpec
  CountProofs CountLive ElectronModel.
Import ListNotations.
Open Scope Z_scope.

(** ** Padding (C25) *)
Lemma max_frames_spec events :
  (forall l, In l events -> Zlen l <= max_frames events) /\
  (max_frames events = 0 \/ exists l, In l events /\ Zlen l = max_frames events).
Proof.
  unfold max_frames. 
  assert (G : forall m, m <= fold_left (fun m l => if m <? Zlen l then Zlen l else m) events m /\
    (forall l, In l events -> Zlen l <= fold_left (fun m l => if m <? Zlen l then Zlen l else m) events m) /\
    (fold_left (fun m l => if m <? Zlen l then Zlen l else m) events m = m \/
     exists l, In l events /\ Zlen l = fold_left (fun m l => if m <? Zlen l then Zlen l else m) events m)).
  { induction events as [|a ev IH]; intros m; simpl.
    - repeat split; try lia; try contradiction.
    - destruct (Z.ltb_spec m (Zlen a)).
      + destruct (IH (Zlen a)) as (A & B & C). repeat split; try lia.
        * intros l [->|Hl]; auto.
        * right. destruct C as [C|(l & Hl & C)]; eauto.
      + destruct (IH m) as (A & B & C). repeat split; try lia.
        * intros l [->|Hl]; auto. lia.
        * destruct C as [C|(l & Hl & C)]; eauto. }
  destruct (G 0) as (_ & B & C). auto.
Qed.

Lemma resize_longer {A} n (x : A) l : Zlen l <= n ->
  resize_to n x l = l ++ repeat x (Z.to_nat (n - Zlen l)).
Proof. intros H. unfold resize_to. rewrite firstn_all2; auto. unfold Zlen in H; lia. Qed.

(** Padding keeps every list, appends only empty lists, and leaves every
    position with as many lists as the fullest position had. *)
Theorem padding_correct : forall events,
  exists m,
    (forall l, In l events -> Zlen l <= m) /\
    (m = 0 \/ exists l, In l events /\ Zlen l = m) /\
    Zlen (pad_events events) = Zlen events /\
    forall p l, nth_error events p = Some l ->
      nth_error (pad_events events) p = Some (l ++ repeat [] (Z.to_nat (m - Zlen l))) /\
      Zlen (l ++ repeat (@nil Z) (Z.to_nat (m - Zlen l))) = m.
Proof.
  intros events. destruct (max_frames_spec events) as [H1 H2].
  exists (max_frames events). repeat split; auto.
  - unfold pad_events, Zlen. rewrite map_length. reflexivity.
  - unfold pad_events. rewrite nth_error_map, H. simpl. rewrite resize_longer; auto.
    apply H1. eapply nth_error_In; eauto.
  - rewrite Zlen_app, Zlen_repeat. pose proof (H1 l (nth_error_In _ _ H)). lia.
Qed.

Example padding_example :
  pad_events [[[1]; [2; 3]]; []; [[4]]] = [[[1]; [2; 3]]; [[]; []]; [[4]; []]].
Proof. reflexivity. Qed.

(** ** Threaded counting *)
Section Threaded.
Context {Th : Type}.
Variable thresholds_of : list block -> outcome Th.
Variable count : Th -> (Z * Z) -> list Z -> outcome (list Z).
Variable nsamples : Z.
Variable scan_opt : Z * Z.

Notation step := (count_step thresholds_of count nsamples scan_opt).
Notation run := (count_run thresholds_of count nsamples scan_opt).

Lemma flat_jb_ok l : (forall b, In b l -> block_ok b) -> flat_map jb l = flat_map frames_of l.
Proof.
  induction l as [|b l IH]; simpl; intros H; auto.
  rewrite (block_jobs_jb b (frames_of b)) by (apply block_jobs_ok; auto). f_equal; auto.
Qed.

Lemma filter_okp dn p :
  filter (fun d : Z * outcome (list Z) => fst d =? p) (map okp dn) =
  map okp (filter (fun d => fst d =? p) dn).
Proof.
  induction dn as [|d dn IH]; simpl; auto. destruct (fst d =? p); simpl; rewrite IH; auto.
Qed.

Lemma filter_cnt t l p :
  filter (fun d : Z * outcome (list Z) => fst d =? p) (map (cnt count t) l) =
  map (cnt count t) (filter (fun d => fst d =? p) l).
Proof.
  induction l as [|d l IH]; simpl; auto. destruct (fst d =? p); simpl; rewrite IH; auto.
Qed.

(** The state in which a run ends. *)
Lemma threaded_count_final : forall nw blocks cs s r,
  (forall b, In b blocks -> block_ok b) ->
  run cs (count_init nw blocks) = Some (Ok s) -> c_main s = MDone r ->
  exists rest t b0,
    Permutation blocks (c_samples s ++ rest) /\
    Zlen (c_samples s) = u32 nsamples /\
    (forall b, In b (c_samples s) -> is_complete b = true) /\
    c_thr s = Some t /\
    thresholds_of (c_samples s) = Ok t /\
    nth_error (c_samples s) 0 = Some b0 /\
    counted_once (count t)
      (u32 (fst (scan_in_effect scan_opt b0) * snd (scan_in_effect scan_opt b0))) blocks r.
Proof.
  intros nw blocks cs s r Hok Hrun Hmain.
  destruct (run_inv thresholds_of count nsamples scan_opt blocks cs _ s
              (inv_init _ _ _ _ blocks nw eq_refl) Hrun) as [C I].
  destruct I as [I|(t & I)].
  { pose proof (ia_main _ _ I) as X. rewrite Hmain in X. destruct X. }
  destruct I as [I1 I2 I3 I4 (b0 & B1 & B2) I6 (dn & D1 & D2 & D3) I8].
  rewrite Hmain in I8, D3. destruct I8 as (Hr & Htd & Hid).
  destruct C as [(rest & C1) C2 C3 C4].
  exists rest, t, b0. rewrite Forall_forall in C2.
  do 6 (split; [assumption|]).
  assert (Hidle : concat (map (wrem count t) (c_workers s)) = []).
  { clear - Hid. induction Hid as [|w ws Hw _ IH]; simpl; auto. subst w; simpl; auto. }
  rewrite Htd, Hidle in D3. simpl in D3. rewrite !app_nil_r in D3.
  rewrite flat_jb_ok in D3 by auto.
  rewrite <- B2.
  assert (FR : forall p, Permutation (map Ok (map snd (filter (fun d => fst d =? p) dn)))
              (map (fun f => count t (fst f) (snd f)) (frames_at p blocks))).
  { intros p. apply (Permutation_filter (fun d => fst d =? p)) in D3.
    rewrite filter_okp, filter_cnt in D3. apply (Permutation_map snd) in D3.
    rewrite !map_map in D3. cbn [okp cnt snd] in D3.
    unfold frames_at. rewrite !map_map. symmetry. exact D3. }
  assert (LN : forall p, Zlen (map snd (filter (fun d => fst d =? p) dn)) = Zlen (frames_at p blocks)).
  { intros p. pose proof (Permutation_length (FR p)) as E. rewrite !map_length in E.
    unfold Zlen. rewrite map_length. lia. }
  split; [|split].
  - subst r. unfold pad_events, Zlen. rewrite map_length. reflexivity.
  - intros f Hf. rewrite Forall_forall in D2.
    assert (Hin : In (cnt count t f) (map okp dn))
      by (apply (Permutation_in _ D3); apply in_map; auto).
    apply in_map_iff in Hin. destruct Hin as (d & Ed & Hd).
    injection Ed as Ed _. rewrite <- Ed. auto.
  - destruct (max_frames_spec (c_events s)) as [M1 M2].
    exists (max_frames (c_events s)). split.
    + split.
      * intros p Hp. rewrite <- LN. apply M1. eapply nth_error_In. apply D1; auto.
      * destruct M2 as [M2|(l & Hl & M2)]; auto. right.
        apply In_nth_error in Hl. destruct Hl as [k Hk].
        assert (Hlt : (k < List.length (c_events s))%nat) by (apply nth_error_Some; congruence).
        exists (Z.of_nat k). split; [unfold Zlen; lia|].
        assert (Hk' : 0 <= Z.of_nat k < Zlen (c_events s)) by (unfold Zlen; lia).
        pose proof (D1 (Z.of_nat k) Hk') as E. rewrite Nat2Z.id, Hk in E. injection E as E.
        rewrite <- LN, <- E. exact M2.
    + intros p Hp. exists (map snd (filter (fun d => fst d =? p) dn)). split; auto.
      subst r. unfold pad_events. rewrite nth_error_map, (D1 p Hp). simpl.
      rewrite resize_longer, LN; auto.
      apply M1. eapply nth_error_In. apply D1; auto.
Qed.

(** C24 + C25: whatever the number of workers and the interleaving, a run that
    ends returns, for thresholds computed from exactly [nsamples] complete
    delivered blocks, one event list per delivered frame at its own position. *)
Theorem threaded_count_correct : forall nw blocks cs s r,
  (forall b, In b blocks -> block_ok b) ->
  run cs (count_init nw blocks) = Some (Ok s) -> c_main s = MDone r ->
  exists samples rest t b0,
    Permutation blocks (samples ++ rest) /\
    Zlen samples = u32 nsamples /\
    (forall b, In b samples -> is_complete b = true) /\
    thresholds_of samples = Ok t /\
    nth_error samples 0 = Some b0 /\
    counted_once (count t)
      (u32 (fst (scan_in_effect scan_opt b0) * snd (scan_in_effect scan_opt b0))) blocks r.
Proof.
  intros nw blocks cs s r Hok Hrun Hmain.
  destruct (threaded_count_final nw blocks cs s r Hok Hrun Hmain) as (rest & t & b0 & P & L & C & _ & E & B & D).
  exists (c_samples s), rest, t, b0. auto 8.
Qed.

(** C24/C26 safety: for a well-formed delivery no schedule reaches undefined
    behaviour or an exception. *)
Theorem threaded_count_safe : forall nw blocks npos cs o,
  delivery_ok scan_opt npos blocks ->
  counting_total thresholds_of count (u32 nsamples) blocks ->
  1 <= u32 nsamples ->
  run cs (count_init nw blocks) = Some o -> exists s, o = Ok s.
Proof.
  intros nw blocks npos cs o D T HN H.
  destruct (Z_lt_le_dec npos 0) as [Hneg|Hnn].
  { (* no position is possible, so no block holds a frame; use npos wrapped *)
    eapply (run_safe thresholds_of count nsamples scan_opt blocks (u32 npos)); eauto.
    - apply (dl_block _ _ _ D).
    - apply (dl_flag _ _ _ D).
    - intros samples rest HP HL HC. rewrite Forall_forall in HC.
      destruct (T samples rest HP HL HC) as (t & Ht & Hc). exists t. split; auto.
      intros b f Hb Hf. apply Hc. apply in_flat_map; eauto.
    - intros b Hb. rewrite (dl_scan _ _ _ D b Hb). reflexivity.
    - intros b f Hb Hf. assert (In f (flat_map frames_of blocks)) by (apply in_flat_map; eauto).
      apply (dl_pos _ _ _ D) in H0. lia.
    - apply (dl_distinct _ _ _ D).
    - apply inv_init; auto.
    - apply inB_init.
    - apply excl_init. }
  eapply (run_safe thresholds_of count nsamples scan_opt blocks npos); eauto.
  - apply (dl_block _ _ _ D).
  - apply (dl_flag _ _ _ D).
  - intros samples rest HP HL HC. rewrite Forall_forall in HC.
    destruct (T samples rest HP HL HC) as (t & Ht & Hc). exists t. split; auto.
    intros b f Hb Hf. apply Hc. apply in_flat_map; eauto.
  - intros b Hb. rewrite (dl_scan _ _ _ D b Hb). apply u32_id. pose proof (dl_npos _ _ _ D).
    unfold is_u32; lia.
  - intros b f Hb Hf. apply (dl_pos _ _ _ D). apply in_flat_map; eauto.
  - apply (dl_distinct _ _ _ D).
  - apply inv_init; auto.
  - apply inB_init.
  - apply excl_init.
Qed.

(** C26 termination: with enough complete blocks, at least one worker and a
    well-formed delivery, every schedule is bounded in length and can only stop
    when the result has been returned. *)
Theorem threaded_count_terminates : forall nw blocks npos,
  delivery_ok scan_opt npos blocks ->
  counting_total thresholds_of count (u32 nsamples) blocks ->
  1 <= u32 nsamples <= complete_blocks blocks ->
  (1 <= nw)%nat ->
  exists bound, forall cs o, run cs (count_init nw blocks) = Some o ->
    Zlen cs <= bound /\
    exists s, o = Ok s /\
      ((exists r, c_main s = MDone r) \/ exists c s', step c s = Some (Ok s')).
Proof.
  intros nw blocks npos D T HN Hnw.
  exists (measure (Z.of_nat nw) (count_init (Th:=Th) nw blocks)). intros cs o H.
  destruct (threaded_count_safe nw blocks npos cs o D T ltac:(lia) H) as [s ->].
  pose proof (inv_init thresholds_of count nsamples scan_opt blocks nw eq_refl) as I0.
  split.
  - assert (Hw : Zlen (c_workers (count_init (Th:=Th) nw blocks)) <= Z.of_nat nw)
      by (unfold count_init; simpl; rewrite Zlen_repeat; lia).
    pose proof (run_bounded thresholds_of count nsamples scan_opt (Z.of_nat nw) cs _ s
                  ltac:(lia) Hw H).
    pose proof (measure_nonneg (Th:=Th) (Z.of_nat nw) ltac:(lia) s). lia.
  - exists s. split; auto.
    pose proof (run_inv _ _ _ _ _ _ _ _ I0 H) as I.
    pose proof (run_live _ _ _ _ _ _ _ _ I0 (live_init nsamples blocks nw) H) as L.
    pose proof (run_workers _ _ _ _ _ _ _ H) as W.
    destruct (c_main s) eqn:Em; eauto; right;
      (destruct (progress thresholds_of count nsamples scan_opt blocks s I L) as [c Hc];
       [ intros E; rewrite E in W; unfold count_init in W; simpl in W; rewrite repeat_length in W; lia
       | exact (proj2 HN)
       | congruence
       | destruct (step c s) as [o|] eqn:Es; [|contradiction];
         assert (R : run (cs ++ [c]) (count_init nw blocks) = Some o)
           by (rewrite (run_app _ _ _ _ _ [c] _ _ H); simpl; rewrite Es; destruct o; reflexivity);
         destruct (threaded_count_safe nw blocks npos (cs ++ [c]) o D T ltac:(lia) R) as [s' ->];
         eauto ]).
Qed.

(** C26 hang: with fewer complete blocks than requested samples the call never
    returns, whatever the schedule. *)
Theorem threaded_count_hangs : forall nw blocks cs s,
  complete_blocks blocks < u32 nsamples ->
  run cs (count_init nw blocks) = Some (Ok s) ->
  forall r, c_main s <> MDone r.
Proof.
  intros nw blocks cs s HN H r Hm.
  pose proof (run_inv _ _ _ _ _ _ _ _ (inv_init thresholds_of count nsamples scan_opt blocks nw eq_refl) H)
    as [[(rest & C1) C2 C3 C4] [I|(t & I)]].
  - pose proof (ia_main _ _ I) as X. rewrite Hm in X. destruct X.
  - pose proof (ib_len _ _ _ _ _ _ _ I) as HL.
    unfold complete_blocks in HN. apply (Permutation_filter is_complete) in C1.
    apply Permutation_length in C1. rewrite filter_app, app_length in C1.
    assert (E : filter is_complete (c_samples s) = c_samples s).
    { clear - C2. induction C2; simpl; auto. rewrite H, IHC2. reflexivity. }
    rewrite E in C1. unfold Zlen in *. lia.
Qed.

(** C26 hang, the other half: such a call does block: every schedule is bounded,
    so some state is reached in which no thread can move and no result exists. *)
Theorem threaded_count_blocks_forever : forall nw blocks npos,
  delivery_ok scan_opt npos blocks ->
  counting_total thresholds_of count (u32 nsamples) blocks ->
  complete_blocks blocks < u32 nsamples ->
  exists cs s, run cs (count_init nw blocks) = Some (Ok s) /\
    (forall c, step c s = None) /\ (forall r, c_main s <> MDone r).
Proof.
  intros nw blocks npos D T HN.
  assert (Hpos : 1 <= u32 nsamples)
    by (unfold complete_blocks in HN; pose proof (Zlen_nonneg (filter is_complete blocks)); lia).
  set (W := Z.of_nat nw).
  assert (G : forall k cs s, run cs (count_init nw blocks) = Some (Ok s) ->
      measure W s <= Z.of_nat k ->
      exists cs' s', run cs' (count_init nw blocks) = Some (Ok s') /\ (forall c, step c s' = None)).
  { assert (Hlen : forall cs s, run cs (count_init nw blocks) = Some (Ok s) -> Zlen (c_workers s) <= W).
    { intros cs s H. apply run_workers in H. unfold Zlen. rewrite H. unfold count_init. simpl.
      rewrite repeat_length. unfold W; lia. }
    assert (Dec : forall s : csys Th, {c & {o | step c s = Some o}} + {forall c, step c s = None}).
    { intros s.
      assert (DT : forall i, {k & {o | step (Take i k) s = Some o}} + {forall k, step (Take i k) s = None}).
      { intros i. destruct (step (Take i 0) s) as [o|] eqn:E; [left; eauto|]. right.
        intros k. simpl in *. destruct (nth_error (c_workers s) i) as [[]|]; auto.
        destruct (c_todo s) as [|b td]; simpl in E; [|discriminate]. destruct k; reflexivity. }
      assert (DW : forall n, {c & {o | step c s = Some o}} +
                    {forall i, (i < n)%nat -> step (Work i) s = None /\ forall k, step (Take i k) s = None}).
      { induction n as [|n IH]; [right; lia|].
        destruct IH as [?|IH]; [left; auto|].
        destruct (step (Work n) s) as [o|] eqn:E; [left; eauto|].
        destruct (DT n) as [(k & o & Ho)|HT]; [left; eauto|].
        right. intros i Hi. destruct (Nat.eq_dec i n); [subst; auto|]. apply IH; lia. }
      destruct (DW (List.length (c_workers s))) as [?|HW]; [left; auto|].
      destruct (step MainStep s) as [o|] eqn:E; [left; eauto|]. right.
      assert (Hout : forall i, (List.length (c_workers s) <= i)%nat -> nth_error (c_workers s) i = None)
        by (intros; apply nth_error_None; auto).
      intros [i k|i|]; auto.
      - destruct (le_lt_dec (List.length (c_workers s)) i) as [Hi|Hi]; [|apply HW; auto].
        simpl. rewrite Hout; auto.
      - destruct (le_lt_dec (List.length (c_workers s)) i) as [Hi|Hi]; [|apply HW; auto].
        simpl. rewrite Hout; auto. }
    induction k as [|k IH]; intros cs s H Hm;
      (destruct (Dec s) as [(c & o & Ho)|Hno]; [|eauto]);
      (assert (R : run (cs ++ [c]) (count_init nw blocks) = Some o)
         by (rewrite (run_app _ _ _ _ _ [c] _ _ H); simpl; rewrite Ho; destruct o; reflexivity));
      (destruct (threaded_count_safe nw blocks npos (cs ++ [c]) o D T Hpos R) as [s' ->]);
      pose proof (step_decreases _ _ _ _ W ltac:(unfold W; lia) c s s' (Hlen _ _ H) Ho);
      pose proof (measure_nonneg (Th:=Th) W ltac:(unfold W; lia) s').
    - lia.
    - apply (IH (cs ++ [c]) s' R). lia. }
  destruct (G (Z.to_nat (measure W (count_init (Th:=Th) nw blocks))) [] (count_init nw blocks) eq_refl)
    as (cs & s & H & Hno); [lia|].
  exists cs, s. split; auto. split; auto. eapply threaded_count_hangs; eauto.
Qed.

(** Asking for zero sample blocks is undefined behaviour: the first sample block
    is read although there is none. *)
Theorem threaded_count_zero_samples_undefined : forall nw blocks t,
  u32 nsamples = 0 -> thresholds_of [] = Ok t ->
  run [MainStep] (count_init nw blocks) = Some (UB "index past the end").
Proof.
  intros nw blocks t HN Ht. simpl. unfold main_step. simpl. unfold main_check, mutex_free. simpl.
  replace (existsb holds (repeat WIdle nw)) with false by (induction nw; simpl; auto).
  simpl. rewrite HN. simpl. unfold main_thresholds. simpl. rewrite Ht. reflexivity.
Qed.

(** A block without completeness flag is undefined behaviour while samples are
    being collected. *)
Theorem threaded_count_no_flag_undefined : forall nw b blocks,
  0 < u32 nsamples -> complete (hdr b) = [] -> (1 <= nw)%nat ->
  run [Take 0 0; Work 0; Work 0] (count_init nw (b :: blocks)) = Some (UB "index past the end").
Proof.
  intros nw b blocks HN Hc Hnw. destruct nw as [|nw]; [lia|].
  assert (E : existsb holds (repeat WIdle nw) = false) by (clear; induction nw; simpl; auto).
  simpl. unfold mutex_free. simpl. rewrite E. simpl.
  change (Zlen (@nil block)) with 0.
  destruct (Z.ltb_spec 0 (u32 nsamples)); [|lia]. rewrite Hc. reflexivity.
Qed.

(** C49: for every delivery whatsoever (positions may repeat, even within one
    block), every number of workers and every interleaving, two workers are
    never storing events at one position at the same time. *)
Theorem threaded_count_workers_exclusive : forall nw blocks cs s i j li lj p q ei ej ri rj,
  run cs (count_init nw blocks) = Some (Ok s) -> i <> j ->
  nth_error (c_workers s) i = Some (WPushing li p ei ri) ->
  nth_error (c_workers s) j = Some (WPushing lj q ej rj) -> p <> q.
Proof.
  intros nw blocks cs s i j li lj p q ei ej ri rj Hrun Hne Hi Hj <-.
  pose proof (run_excl thresholds_of count nsamples scan_opt cs _ s
                (excl_init blocks nw) Hrun p) as E.
  rewrite pushing_count in E.
  pose proof (zsum_map_upd (fun w => if pushing_at p w then 1 else 0) _ i _ WIdle Hi) as E1.
  rewrite <- (nth_error_upd_neq _ i j WIdle) in Hj by auto.
  pose proof (zsum_map_upd (fun w => if pushing_at p w then 1 else 0) _ j _ WIdle Hj) as E2.
  simpl in E1, E2. rewrite Z.eqb_refl in E1, E2.
  assert (P : forall ws, 0 <= zsum (map (fun w => if pushing_at p w then 1 else 0) ws)).
  { induction ws as [|w ws IH]; simpl; [lia|]. destruct (pushing_at p w); lia. }
  specialize (P (upd (upd (c_workers s) i WIdle) j WIdle)). lia.
Qed.

End Threaded.

(** ** Two frames at one position: the calling thread pushes without the
    position lock, so the vector is modified by two threads at once. *)
Definition one_pixel_block (p : Z) : block :=
  mkBlock (mkHeader (2, 1) (1, 1) 1 4 0 0 0 [p] [true]) (Some [7]).

Theorem threaded_count_two_frames_race_refuted :
  exists (blocks : list block) cs,
    (forall b, In b blocks -> block_ok b /\ is_complete b = true) /\
    (forall f, In f (flat_map frames_of blocks) -> 0 <= fst f < 2) /\
    Zlen (frames_at 0 blocks) = 2 /\
    count_run (fun _ => Ok tt) (fun _ _ f => Ok f) 1 (2, 1) cs (count_init 1 blocks) =
      Some (UB "data race").
Proof.
  exists [one_pixel_block 0; one_pixel_block 0].
  exists [Take 0 0; Work 0; Work 0; Work 0; MainStep; MainStep; MainStep; MainStep; MainStep;
          Take 0 0; Work 0; Work 0; Work 0].
  split; [|split; [|split; [reflexivity|vm_compute; reflexivity]]].
  - assert (X : block_ok (one_pixel_block 0)).
    { constructor; simpl; try lia; try reflexivity. exists [7]. repeat split; reflexivity. }
    intros b Hb. destruct Hb as [<-|[<-|[]]]; auto.
  - intros f Hf. vm_compute in Hf. destruct Hf as [<-|[<-|[]]]; simpl; lia.
Qed.

(** Two workers with frames of position 1: the first is storing, the second
    waits for the position mutex. *)
Example ex_workers_exclusive :
  exists s, count_run (fun _ => Ok tt) (fun _ _ f => Ok f) 1 (2, 1)
    [Take 0 0; Work 0; Work 0; Work 0; MainStep; Take 0 0; Take 1 0; Work 0; Work 1;
     Work 0; Work 1; Work 0]
    (count_init 2 [one_pixel_block 0; one_pixel_block 1; one_pixel_block 1]) = Some (Ok s) /\
  (exists l ev rest, nth_error (c_workers s) 0 = Some (WPushing l 1 ev rest)) /\
  (exists l ev rest, nth_error (c_workers s) 1 = Some (WPush l 1 ev rest)) /\
  count_step (fun _ => Ok tt) (fun _ _ f => Ok f) 1 (2, 1) (Work 1) s = None.
Proof.
  eexists; split; [vm_compute; reflexivity|].
  split; [|split]; try (do 3 eexists); vm_compute; reflexivity.
Qed.

(** ** C29: the events of a position depend on its own frames only *)
Theorem threaded_events_local : forall {Th} (t : Th) count nsamples scan_opt p
    nw1 blocks1 cs1 s1 r1 nw2 blocks2 cs2 s2 r2,
  (forall b, In b blocks1 -> block_ok b) -> (forall b, In b blocks2 -> block_ok b) ->
  count_run (fun _ => Ok t) count nsamples scan_opt cs1 (count_init nw1 blocks1) = Some (Ok s1) ->
  count_run (fun _ => Ok t) count nsamples scan_opt cs2 (count_init nw2 blocks2) = Some (Ok s2) ->
  c_main s1 = MDone r1 -> c_main s2 = MDone r2 ->
  Permutation (frames_at p blocks1) (frames_at p blocks2) ->
  0 <= p < Zlen r1 -> 0 <= p < Zlen r2 ->
  exists evs1 pad1 evs2 pad2,
    nth_error r1 (Z.to_nat p) = Some (evs1 ++ repeat [] pad1) /\
    nth_error r2 (Z.to_nat p) = Some (evs2 ++ repeat [] pad2) /\
    Zlen evs1 = Zlen (frames_at p blocks1) /\
    Permutation evs1 evs2.
Proof.
  intros Th t count nsamples scan_opt p nw1 blocks1 cs1 s1 r1 nw2 blocks2 cs2 s2 r2
    Hok1 Hok2 R1 R2 M1 M2 HP P1 P2.
  destruct (threaded_count_correct _ _ _ _ _ _ _ _ _ Hok1 R1 M1)
    as (sm1 & rs1 & t1 & b1 & _ & _ & _ & E1 & _ & L1 & _ & m1 & _ & F1).
  destruct (threaded_count_correct _ _ _ _ _ _ _ _ _ Hok2 R2 M2)
    as (sm2 & rs2 & t2 & b2 & _ & _ & _ & E2 & _ & L2 & _ & m2 & _ & F2).
  injection E1 as <-. injection E2 as <-.
  rewrite L1 in P1. rewrite L2 in P2.
  destruct (F1 p P1) as (e1 & N1 & Q1). destruct (F2 p P2) as (e2 & N2 & Q2).
  exists e1. eexists. exists e2. eexists. split; [exact N1|]. split; [exact N2|]. split.
  - apply Permutation_length in Q1. rewrite !map_length in Q1. unfold Zlen. lia.
  - apply (Permutation_map (fun f => count t (fst f) (snd f))) in HP.
    rewrite HP, <- Q2 in Q1.
    apply (Permutation_map (fun o => match o with Ok l => l | _ => [] end)) in Q1.
    rewrite !map_map, !map_id in Q1. exact Q1.
Qed.

(** ** Classic (iterator) counting *)
Section Classic.
Variable count1 : (Z * Z) -> list Z -> outcome (list Z).
Variable dims : Z * Z.
Variable n : Z.

Definition at_pos (p : Z) (fs : list delivered_frame) : list ((Z * Z) * list Z) :=
  map snd (filter (fun f => fst f =? p) fs).

Definition slot_ok (fs : list delivered_frame) (p : Z) (slot : list (list Z)) : Prop :=
  exists ev, slot = [ev] /\
    match last (map Some (at_pos p fs)) None with
    | None => ev = []
    | Some f => count1 (fst f) (snd f) = Ok ev
    end.

Definition slots_ok (fs : list delivered_frame) (e : events_t) : Prop :=
  Zlen e = n /\ forall p, 0 <= p < n -> exists slot, nth_error e (Z.to_nat p) = Some slot /\ slot_ok fs p slot.

Lemma last_snoc {A} (l : list A) x d : last (l ++ [x]) d = x.
Proof. induction l; simpl; auto. destruct (l ++ [x]) eqn:E; auto. destruct l; discriminate. Qed.

Lemma slots_step fs e f ev :
  slots_ok fs e -> 0 <= fst f < n -> count1 (fst (snd f)) (snd (snd f)) = Ok ev ->
  exists e', (let* slot := rd e (fst f) in let* slot := wr slot 0 ev in wr e (fst f) slot) = Ok e' /\
             slots_ok (fs ++ [f]) e'.
Proof.
  intros [HL HS] Hp Hc. destruct (HS _ Hp) as (slot & Hs & ev0 & -> & _).
  assert (E : rd e (fst f) = Ok [ev0]).
  { rewrite (rd_ok e (fst f) []) by lia. f_equal. apply nth_error_nth; auto. }
  rewrite E. cbn [bind]. rewrite (wr_ok [ev0] 0) by (unfold Zlen; simpl; lia). cbn [bind].
  rewrite wr_ok by lia. eexists; split; [reflexivity|]. split; [rewrite Zlen_upd; auto|].
  intros p Hpn. unfold slot_ok, at_pos. rewrite filter_app. simpl.
  destruct (Z.eqb_spec (fst f) p) as [Ep|Ne].
  - subst p. rewrite nth_error_upd_eq by (unfold Zlen in HL; lia).
    eexists; split; [reflexivity|]. exists ev. split; auto.
    rewrite !map_app. simpl. rewrite last_snoc. exact Hc.
  - rewrite nth_error_upd_neq by lia. rewrite app_nil_r. apply HS; auto.
Qed.

Lemma classic_block fs e b :
  slots_ok fs e -> block_ok b -> frame_dims (hdr b) = dims ->
  (forall f, In f (frames_of b) -> 0 <= fst f < n) ->
  (forall f, In f (frames_of b) -> exists ev, count1 (fst (snd f)) (snd (snd f)) = Ok ev) ->
  exists e', for_loop (images_in_block (hdr b)) (classic_frame count1 dims b) e = Ok e' /\
             slots_ok (fs ++ frames_of b) e'.
Proof.
  intros HS [[Hw Hh] HI (d & Hd & HL & HL2 & HL3)] HD HP HC.
  unfold frames_of in *. rewrite Hd in *. rewrite HI, HD in *.
  set (ns := image_numbers (hdr b)) in *. destruct dims as [w h]. cbn [fst snd] in *.
  set (mk := fun i => (zat ns i, ((w, h), image d w h i))) in *.
  destruct (for_loop_inv (fun i e => slots_ok (fs ++ map mk (zseq i)) e)
              (Zlen ns) (classic_frame count1 (w, h) b) e) as (e' & E & HS').
  - apply Zlen_nonneg.
  - simpl. rewrite app_nil_r. exact HS.
  - intros i e1 Hi HS1. unfold classic_frame. unfold block_data. rewrite Hd. cbn [bind].
    unfold raw_frame. cbn [fst snd].
    assert (0 <= i * w < 2 ^ 32) by nia.
    assert (w * h <= Zlen d) by nia.
    assert (i * w * h + w * h <= Zlen d) by nia.
    assert (0 <= i * w * h) by nia.
    rewrite (u32_id (w * h)) by (unfold is_u32; nia).
    rewrite (u32_id (i * w)) by (unfold is_u32; lia).
    rewrite (u32_id (i * w * h)) by (unfold is_u32; nia).
    destruct (Z.leb_spec (i * w * h + w * h) (Zlen d)); try lia. cbn [bind].
    assert (Hin : In (mk i) (map mk (zseq (Zlen ns)))) by (apply in_map, in_zseq; lia).
    destruct (HC _ Hin) as [ev He]. unfold mk in He at 1 2. cbn [fst snd] in He.
    unfold image in He. rewrite Z.mul_assoc in He. rewrite He. cbn [bind].
    fold ns. rewrite rd_zat by lia. cbn [bind].
    rewrite zseq_succ by lia. rewrite map_app, app_assoc. cbn [map].
    apply (slots_step _ e1 (mk i) ev HS1 (HP _ Hin)).
    unfold mk. cbn [fst snd]. unfold image. rewrite Z.mul_assoc. exact He.
  - eauto.
Qed.
End Classic.

(** The classic counter returns for each position the events of the last frame
    delivered for it ([] if there is none); earlier frames of the same position
    are overwritten. *)
Theorem classic_count_correct : forall count1 scan blocks b0 rest n,
  blocks = b0 :: rest ->
  (forall b, In b blocks -> block_ok b /\ frame_dims (hdr b) = frame_dims (hdr b0)) ->
  fst (scan_in_effect scan b0) <> 0 -> snd (scan_in_effect scan b0) <> 0 ->
  fst (scan_in_effect scan b0) * snd (scan_in_effect scan b0) = n -> 0 <= n < 2 ^ 32 ->
  (forall f, In f (flat_map frames_of blocks) -> 0 <= fst f < n) ->
  (forall f, In f (flat_map frames_of blocks) -> exists ev, count1 (fst (snd f)) (snd (snd f)) = Ok ev) ->
  exists r, electronCountClassic count1 scan blocks = Ok r /\ Zlen r = n /\
    forall p, 0 <= p < n -> exists ev,
      nth_error r (Z.to_nat p) = Some [ev] /\
      match last_frame p blocks with
      | None => ev = []
      | Some f => count1 (fst f) (snd f) = Ok ev
      end.
Proof.
  intros count1 scan blocks b0 rest n Hb Hok S1 S2 Hn Hr HP HC.
  unfold electronCountClassic. rewrite Hb. fold (scan_in_effect scan b0).
  destruct (Z.eqb_spec (fst (scan_in_effect scan b0)) 0); [contradiction|].
  destruct (Z.eqb_spec (snd (scan_in_effect scan b0)) 0); [contradiction|]. cbn [orb].
  rewrite Hn, u32_id by auto. rewrite <- Hb.
  match goal with |- context [for_each _ ?f _] => set (body := f) end.
  destruct (for_each_inv (fun pre e => slots_ok count1 n (flat_map frames_of pre) e) blocks body
              (repeat [[]] (Z.to_nat n))) as (r & E & HL & HS).
  - split; [rewrite Zlen_repeat; lia|]. intros p Hp. exists [[]]. split.
    + apply nth_error_repeat. lia.
    + exists []. split; reflexivity.
  - intros pre b post e Hsplit HS. unfold body. rewrite flat_map_app. cbn [flat_map].
    rewrite app_nil_r.
    assert (Hin : In b blocks) by (rewrite Hsplit; apply in_app_iff; right; left; auto).
    destruct (Hok b Hin) as [Hbk HD].
    destruct (classic_block count1 (frame_dims (hdr b0)) n _ _ b HS Hbk HD) as (e' & E & HS').
    + intros f Hf. apply HP. apply in_flat_map; eauto.
    + intros f Hf. apply HC. apply in_flat_map; eauto.
    + exists e'. split; [exact E|exact HS'].
  - exists r. split; [exact E|]. split; auto. intros p Hp.
    destruct (HS p Hp) as (slot & Hs & ev & -> & Hev). exists ev. split; auto.
Qed.

(** C29 for the classic counter. *)
Theorem classic_events_local : forall count1 scan blocks1 blocks2 r1 r2 n c1 l1 c2 l2 p,
  blocks1 = c1 :: l1 -> blocks2 = c2 :: l2 ->
  (forall b, In b blocks1 -> block_ok b /\ frame_dims (hdr b) = frame_dims (hdr c1)) ->
  (forall b, In b blocks2 -> block_ok b /\ frame_dims (hdr b) = frame_dims (hdr c2)) ->
  scan_in_effect scan c1 = scan_in_effect scan c2 ->
  fst (scan_in_effect scan c1) <> 0 -> snd (scan_in_effect scan c1) <> 0 ->
  fst (scan_in_effect scan c1) * snd (scan_in_effect scan c1) = n -> 0 <= n < 2 ^ 32 ->
  (forall f, In f (flat_map frames_of (blocks1 ++ blocks2)) ->
     0 <= fst f < n /\ exists ev, count1 (fst (snd f)) (snd (snd f)) = Ok ev) ->
  electronCountClassic count1 scan blocks1 = Ok r1 ->
  electronCountClassic count1 scan blocks2 = Ok r2 ->
  0 <= p < n -> frames_at p blocks1 = frames_at p blocks2 ->
  nth_error r1 (Z.to_nat p) = nth_error r2 (Z.to_nat p) /\ nth_error r1 (Z.to_nat p) <> None.
Proof.
  intros count1 scan blocks1 blocks2 r1 r2 n c1 l1 c2 l2 p E1 E2 Ok1 Ok2 ES S1 S2 Hn Hr HF R1 R2 Hp Heq.
  destruct (classic_count_correct count1 scan blocks1 c1 l1 n E1 Ok1 S1 S2 Hn Hr) as (r1' & R1' & _ & F1).
  { intros f Hf. apply HF. rewrite flat_map_app. apply in_app_iff; auto. }
  { intros f Hf. apply HF. rewrite flat_map_app. apply in_app_iff; auto. }
  rewrite ES in S1, S2, Hn.
  destruct (classic_count_correct count1 scan blocks2 c2 l2 n E2 Ok2 S1 S2 Hn Hr) as (r2' & R2' & _ & F2).
  { intros f Hf. apply HF. rewrite flat_map_app. apply in_app_iff; auto. }
  { intros f Hf. apply HF. rewrite flat_map_app. apply in_app_iff; auto. }
  rewrite R1 in R1'. injection R1' as <-. rewrite R2 in R2'. injection R2' as <-.
  destruct (F1 p Hp) as (ev1 & N1 & L1). destruct (F2 p Hp) as (ev2 & N2 & L2).
  unfold last_frame in *. rewrite Heq in L1. rewrite N1, N2. split; [|discriminate].
  destruct (last _ None) as [f|]; congruence.
Qed.

(** ** Non-vacuity *)
Definition ex_block (p v : Z) : block :=
  mkBlock (mkHeader (3, 1) (2, 1) 1 4 0 0 0 [p] [true]) (Some [v; 0]).
Definition ex_blocks : list block := [ex_block 0 5; ex_block 2 9; ex_block 1 6].
Definition ex_count (t : Z) (d : Z * Z) (f : list Z) : outcome (list Z) :=
  Ok (filter (fun x => t <? x) f).

Example ex_delivery : delivery_ok (0, 0) 3 ex_blocks.
Proof.
  constructor.
  - intros b Hb. destruct Hb as [<-|[<-|[<-|[]]]]; constructor; simpl; try lia;
      eexists; (split; [reflexivity|]); repeat split; reflexivity.
  - intros b Hb. destruct Hb as [<-|[<-|[<-|[]]]]; discriminate.
  - intros b Hb. destruct Hb as [<-|[<-|[<-|[]]]]; reflexivity.
  - lia.
  - intros f Hf. vm_compute in Hf. destruct Hf as [<-|[<-|[<-|[]]]]; simpl; lia.
  - vm_compute. repeat constructor; simpl; lia.
Qed.

Example ex_total : counting_total (fun s => Ok (Zlen s)) ex_count (u32 2) ex_blocks.
Proof. intros samples rest _ _ _. eexists; split; eauto. intros f _. eexists; reflexivity. Qed.

(** A complete run with two workers, and its result. *)
Example ex_run : exists cs s,
  count_run (fun s => Ok (Zlen s)) ex_count 2 (0, 0) cs (count_init 2 ex_blocks) = Some (Ok s) /\
  c_main s = MDone [[[5]]; [[6]]; [[9]]].
Proof.
  exists [Take 0 0; Take 1 1; Work 1; Work 1; Work 0; Work 0; Work 0; Take 1 0; Work 1; Work 1;
          MainStep; MainStep; Work 1; MainStep; MainStep; Work 1; Work 1; Work 1; Work 1;
          MainStep; MainStep; MainStep; MainStep; MainStep; MainStep; MainStep; MainStep].
  eexists. split; vm_compute; reflexivity.
Qed.

Example ex_terminates : exists bound, forall cs o,
  count_run (fun s => Ok (Zlen s)) ex_count 2 (0, 0) cs (count_init 2 ex_blocks) = Some o ->
  Zlen cs <= bound /\ exists s, o = Ok s /\
    ((exists r, c_main s = MDone r) \/
     exists c s', count_step (fun s => Ok (Zlen s)) ex_count 2 (0, 0) c s = Some (Ok s')).
Proof.
  apply (threaded_count_terminates (fun s => Ok (Zlen s)) ex_count 2 (0, 0) 2 ex_blocks 3).
  - apply ex_delivery.
  - apply ex_total.
  - vm_compute. split; discriminate.
  - lia.
Qed.

Example ex_hang : exists cs s,
  count_run (fun s => Ok (Zlen s)) ex_count 4 (0, 0) cs (count_init 2 ex_blocks) = Some (Ok s) /\
  (forall c, count_step (fun s => Ok (Zlen s)) ex_count 4 (0, 0) c s = None) /\
  (forall r, c_main s <> MDone r).
Proof.
  apply (threaded_count_blocks_forever (fun s => Ok (Zlen s)) ex_count 4 (0, 0) 2 ex_blocks 3).
  - apply ex_delivery.
  - intros samples rest _ _ _. eexists; split; eauto. intros f _. eexists; reflexivity.
  - reflexivity.
Qed.

(** The frame counter of ElectronModel.v is an instance of the parameters. *)
Definition u16_frame_count (t : (Z * Z)) (d : Z * Z) (f : list Z) : outcome (list Z) :=
  electronCountFrame u16_ops false None None
    (QArith_base.inject_Z (fst t)) (QArith_base.inject_Z (snd t)) false
    (QArith_base.inject_Z 0) false d f.

Example ex_run_u16 : exists cs s,
  count_run (fun s => Ok (5, 100)) u16_frame_count 1 (0, 0) cs (count_init 1 ex_blocks) = Some (Ok s) /\
  c_main s = MDone [[[]]; [[0]]; [[0]]].
Proof.
  exists [Take 0 0; Work 0; Work 0; Work 0; MainStep; MainStep;
          MainStep; MainStep; MainStep; MainStep; MainStep;
          Take 0 0; Work 0; Work 0; Work 0; Work 0; Work 0;
          Take 0 0; Work 0; Work 0; Work 0; Work 0; Work 0; MainStep].
  eexists. split; vm_compute; reflexivity.
Qed.

Example ex_classic :
  electronCountClassic (fun _ f => Ok (filter (fun x => 4 <? x) f)) (0, 0)
    [ex_block 0 5; ex_block 2 9; ex_block 0 8] = Ok [[[8]]; [[]]; [[9]]].
Proof. reflexivity. Qed.

Print Assumptions padding_correct.
Print Assumptions threaded_count_correct.
Print Assumptions threaded_count_safe.
Print Assumptions threaded_count_terminates.
Print Assumptions threaded_count_hangs.
Print Assumptions threaded_count_blocks_forever.
Print Assumptions threaded_count_zero_samples_undefined.
Print Assumptions threaded_count_no_flag_undefined.
Print Assumptions threaded_count_workers_exclusive.
Print Assumptions threaded_count_two_frames_race_refuted.
Print Assumptions threaded_events_local.
Print Assumptions classic_count_correct.
Print Assumptions classic_events_local.
