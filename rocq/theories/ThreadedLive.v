(** Progress of SectorStreamThreadedReader. *)
From Coq Require Import String ZArith List Lia Bool Permutation Sorting.Sorted.
From Verif Require Import Base BaseFacts PermFacts BlockModel StemProofs StreamModel StreamSpec
  StreamProofs SectorModel SectorSpec SectorProofs ThreadedModel ThreadedSpec ThreadedProofs.
Import ListNotations.
Open Scope Z_scope.
Local Arguments skipn : simpl never.
Local Arguments firstn : simpl never.
Local Arguments Z.mul : simpl never.
Local Arguments Z.add : simpl never.

(** A step that does no work: testing m_streams while files are left, or
    finding the queue empty. *)
Definition spins (c : nat * nat) (s : tstate) : bool :=
  match nth_error (t_workers s) (fst c) with
  | Some WCheck => match t_open s with [] => false | _ => true end
  | Some WNext => match t_queue s with [] => true | _ => false end
  | _ => false
  end.

(** The number of other steps of an execution. *)
Fixpoint work (g : geom) (v : Z) (cs : list (nat * nat)) (s : tstate) : Z :=
  match cs with
  | [] => 0
  | c :: r => (if spins c s then 0 else 1) +
              match tstep g v c s with Some (Ok s') => work g v r s' | _ => 0 end
  end.

Definition weight (w : tworker) : Z :=
  match w with
  | WDone => 0
  | WCheck | WNext => 1
  | WCall _ => 2
  | WErase _ | WHeader _ => 2
  | WPeek _ => 3
  | WPush _ _ => 6
  | WFrame Collect _ _ _ => 7
  | WFrame Count _ _ _ => 8
  | WFrame (Fill _) _ _ _ => 9
  | WFrame Store _ _ _ => 10
  | WFrame Alloc _ _ _ => 11
  | WFrame Lock _ _ _ => 12
  | WFrame Load _ _ _ => 13
  | WCache _ _ => 14
  end.

Definition measure (s : tstate) : Z :=
  zsum (map (fun f => Zlen (snd f)) (t_files s)) + 3 * Zlen (t_queue s) + zsum (map weight (t_workers s)).

Lemma Zlen_remove_nth {A} i (l : list A) x : nth_error l i = Some x -> Zlen (remove_nth i l) = Zlen l - 1.
Proof.
  intros H. pose proof (Permutation_length (remove_nth_perm _ _ _ H)). unfold Zlen. simpl in H0. lia.
Qed.

Lemma sector_header_len rem h rem' : sector_header rem = Ok (h, rem') -> Zlen rem = Zlen rem' + 16.
Proof.
  unfold sector_header. destruct (Z.ltb_spec (Zlen rem) 16); [discriminate|].
  cbn [bind]. intros H0.
  assert (rem' = skipn 16 rem).
  { revert H0. destruct (rd (words 2 4 rem) 0); try discriminate. cbn [bind].
    destruct (rd (words 2 4 rem) 1); try discriminate. cbn [bind].
    destruct (rd (words 4 2 (skipn 8 rem)) 0); try discriminate. cbn [bind].
    destruct (rd (words 4 2 (skipn 8 rem)) 1); try discriminate. cbn [bind].
    destruct (rd (words 4 2 (skipn 8 rem)) 2); try discriminate. cbn [bind].
    destruct (rd (words 4 2 (skipn 8 rem)) 3); try discriminate. cbn [bind].
    intros [= _ E]. congruence. }
  subst. unfold Zlen in *. rewrite skipn_length. lia.
Qed.

Lemma measure_step g v c s s' : tstep g v c s = Some (Ok s') ->
  measure s' = measure s /\ spins c s = true \/ measure s' < measure s /\ spins c s = false.
Proof.
  intros Hs. destruct c as [i j]. unfold tstep in Hs. unfold spins. cbn [fst].
  destruct (nth_error (t_workers s) i) as [w|] eqn:Ew; [|discriminate].
  assert (Hws : forall w', zsum (map weight (upd (t_workers s) i w')) = zsum (map weight (t_workers s)) - weight w + weight w')
    by (intros; apply zsum_upd; auto).
  unfold measure.
  destruct w as [| |e|e|e|e h|st e h id|e b|b|].
  - destruct (t_open s) eqn:Eo; injection Hs as <-; cbn [t_files t_queue t_workers set_worker]; rewrite Hws; cbn [weight]; [right|left]; split; auto; lia.
  - destruct (t_queue s) as [|q0 q] eqn:Eq.
    + injection Hs as <-. left. cbn [t_files t_queue t_workers set_worker]. rewrite Hws, Eq. cbn [weight]. split; auto; lia.
    + rewrite <- Eq in Hs |- *. destruct (nth_error (t_queue s) j) as [e|] eqn:Ej; [|discriminate].
      destruct (existsb _ _); [discriminate|]. injection Hs as <-. right.
      cbn [t_files t_queue t_workers set_worker]. rewrite Hws, (Zlen_remove_nth _ _ _ Ej). cbn [weight]. split; auto; lia.
  - destruct (nth_error (t_files s) (fst e)) as [[sec [|b0 t]]|]; try discriminate; injection Hs as <-;
      cbn [t_files t_queue t_workers set_worker]; rewrite Hws; cbn [weight]; right; split; auto; lia.
  - destruct (existsb _ _); [|discriminate]. injection Hs as <-.
    cbn [t_files t_queue t_workers set_worker]; rewrite Hws; cbn [weight]; right; split; auto; lia.
  - destruct (nth_error (t_files s) (fst e)) as [[sec rem]|] eqn:Ef; [|discriminate].
    destruct (sector_header rem) as [[h rem']| | |] eqn:Eh; try discriminate. injection Hs as <-.
    apply sector_header_len in Eh.
    cbn [t_files t_queue t_workers set_worker set_file]; rewrite Hws, (zsum_upd _ _ _ _ _ Ef); cbn [weight snd]; right; split; auto; unfold bytes in *; pose proof (Zlen_nonneg rem); lia.
  - destruct (map_get _ _); injection Hs as <-; cbn [t_files t_queue t_workers set_worker]; rewrite Hws; cbn [weight]; right; split; auto; lia.
  - right. split; auto. unfold frame_step in Hs. destruct (use_frame s h id) as [fr| | |]; try discriminate.
    destruct st.
    + destruct (data _); injection Hs as <-; cbn [t_files t_queue t_workers set_worker]; rewrite Hws; cbn [weight]; lia.
    + destruct (tf_locked fr); [discriminate|]. injection Hs as <-; cbn [t_files t_queue t_workers set_worker set_cache]; rewrite Hws; cbn [weight]; lia.
    + destruct (data _); injection Hs as <-; cbn [t_files t_queue t_workers set_worker set_cache]; rewrite Hws; cbn [weight]; lia.
    + injection Hs as <-; cbn [t_files t_queue t_workers set_worker set_cache]; rewrite Hws; cbn [weight]; lia.
    + destruct (nth_error (t_files s) (fst e)) as [[sec rem]|] eqn:Ef; [|discriminate].
      destruct (_ <=? k); [injection Hs as <-; cbn [t_files t_queue t_workers set_worker]; rewrite Hws; cbn [weight]; lia|].
      destruct rem as [|b0 t]; [injection Hs as <-; cbn [t_files t_queue t_workers set_worker]; rewrite Hws; cbn [weight]; lia|].
      destruct (existsb _ _); [discriminate|].
      match type of Hs with match ?m with _ => _ end = _ => destruct m end; try discriminate.
      injection Hs as <-. cbn [t_files t_queue t_workers set_worker set_file set_cache].
      rewrite Hws, (zsum_upd _ _ _ _ _ Ef). cbn [weight snd].
      assert (Zlen (tl t) <= Zlen t) by (destruct t; unfold Zlen; simpl; lia).
      assert (Zlen (b0 :: t) = 1 + Zlen t) by (unfold Zlen; simpl; lia). unfold bytes in *. lia.
    + destruct (_ =? 4); injection Hs as <-; cbn [t_files t_queue t_workers set_worker set_cache]; rewrite Hws; cbn [weight]; lia.
    + destruct (existsb _ _); [discriminate|]. injection Hs as <-; cbn [t_files t_queue t_workers set_worker set_cache]; rewrite Hws; cbn [weight]; lia.
  - injection Hs as <-; cbn [t_files t_queue t_workers set_worker]; rewrite Hws; cbn [weight].
    right; split; auto. unfold Zlen. rewrite app_length. simpl. lia.
  - injection Hs as <-; cbn [t_files t_queue t_workers set_worker]; rewrite Hws; cbn [weight]; right; split; auto; lia.
  - discriminate.
Qed.

Lemma measure_nonneg s : 0 <= measure s.
Proof.
  unfold measure.
  assert (0 <= zsum (map (fun f : Z * bytes => Zlen (snd f)) (t_files s))).
  { induction (t_files s); simpl; [lia|]. pose proof (Zlen_nonneg (snd a)). lia. }
  assert (0 <= zsum (map weight (t_workers s))).
  { induction (t_workers s) as [|w l IH]; simpl; [lia|].
    assert (0 <= weight w) by (destruct w as [| | | | | |st e h id| | |]; simpl; try lia; destruct st; lia). lia. }
  pose proof (Zlen_nonneg (t_queue s)). unfold bytes in *; lia.
Qed.

Lemma work_bounded g v cs : forall s, work g v cs s <= measure s + 1.
Proof.
  induction cs as [|c cs IH]; intros s; simpl.
  - pose proof (measure_nonneg s). lia.
  - destruct (tstep g v c s) as [[s1|m|m|]|] eqn:E.
    + specialize (IH s1). destruct (measure_step _ _ _ _ _ E) as [[H ->]|[H ->]]; lia.
    + pose proof (measure_nonneg s). destruct (spins c s); lia.
    + pose proof (measure_nonneg s). destruct (spins c s); lia.
    + pose proof (measure_nonneg s). destruct (spins c s); lia.
    + pose proof (measure_nonneg s). destruct (spins c s); lia.
Qed.

Lemma work_run g v cs : forall s s', trun g v cs s = Some (Ok s') -> work g v cs s <= measure s - measure s'.
Proof.
  induction cs as [|c cs IH]; intros s s'; simpl.
  - intros [= <-]. lia.
  - destruct (tstep g v c s) as [[s1|m|m|]|] eqn:E; try discriminate. intros H.
    specialize (IH _ _ H). destruct (measure_step _ _ _ _ _ E) as [[Hm ->]|[Hm ->]]; lia.
Qed.

Lemma trun_app g v a : forall b s s1, trun g v a s = Some (Ok s1) -> trun g v (a ++ b) s = trun g v b s1.
Proof.
  induction a as [|c a IH]; simpl; intros b s s1 H.
  - now injection H as ->.
  - destruct (tstep g v c s) as [[s2| | |]|]; try discriminate. eauto.
Qed.

Section Live.
Variables (g : geom) (v : Z) (fs : list sfile).
Hypothesis Hg : wf_geom g.
Hypothesis Hv : v = 4 \/ v = 5.
Hypothesis HR : trecs_ok g (all_records fs).
Hypothesis Hsame : same_frame fs.

Lemma queue_min (q : list tentry) : q <> [] ->
  exists j e, nth_error q j = Some e /\ existsb (fun e' => snd e' <? snd e) q = false.
Proof.
  intros Hq.
  assert (H : exists e, In e q /\ forall e', In e' q -> snd e <= snd e').
  { induction q as [|a [|b q] IH]; [congruence| |].
    - exists a. split; [now left|]. intros e' [<-|[]]. lia.
    - destruct IH as (e & He & Hmin); [discriminate|].
      destruct (Z_le_gt_dec (snd a) (snd e)).
      + exists a. split; [now left|]. intros e' [<-|H]; [lia|]. specialize (Hmin e' H). lia.
      + exists e. split; [now right|]. intros e' [<-|H]; [lia|]. auto. }
  destruct H as (e & He & Hmin). apply In_nth_error in He as [j Hj]. exists j, e. split; auto.
  apply not_true_is_false. intros H. apply existsb_exists in H as (e' & H1 & H2).
  apply Z.ltb_lt in H2. specialize (Hmin e' H1). lia.
Qed.

Lemma step_enabled s i w : ReachInv g v fs s -> nth_error (t_workers s) i = Some w ->
  match w with
  | WDone => True
  | WFrame Lock _ h _ => (forall fr, map_get (sh_frame h) (t_cache s) = Some fr -> tf_locked fr = false) ->
      exists s', tstep g v (i, O) s = Some (Ok s')
  | _ => exists j s', tstep g v (i, j) s = Some (Ok s')
  end.
Proof.
  intros HI Hw.
  assert (Hok : forall j o, tstep g v (i, j) s = Some o -> exists s', tstep g v (i, j) s = Some (Ok s')).
  { intros j o H. destruct (tstep_ok g v fs Hg Hv HR Hsame _ _ _ HI H) as (s' & -> & _). eauto. }
  assert (Hsome : forall j, tstep g v (i, j) s <> None -> exists s', tstep g v (i, j) s = Some (Ok s')).
  { intros j H. destruct (tstep g v (i, j) s) as [o|] eqn:E; [|congruence]. rewrite <- E. eapply Hok; eauto. }
  destruct w as [| |e|e|e|e h|st e h id|e b|b|]; auto.
  - exists O. apply Hsome. unfold tstep. rewrite Hw. now destruct (t_open s).
  - destruct (t_queue s) as [|q0 q] eqn:Eq.
    + exists O. apply Hsome. unfold tstep. rewrite Hw, Eq. discriminate.
    + destruct (queue_min (t_queue s)) as (j & e & Hj & Hmin); [congruence|].
      exists j. apply Hsome. unfold tstep. rewrite Hw. rewrite Eq. rewrite <- Eq. rewrite Hj, Hmin. discriminate.
  - exists O. apply Hsome. unfold tstep. rewrite Hw. destruct (nth_error (t_files s) (fst e)) as [[? [|? ?]]|]; discriminate.
  - exists O. apply Hsome. unfold tstep. rewrite Hw. destruct (existsb _ _); discriminate.
  - exists O. apply Hsome. unfold tstep. rewrite Hw. destruct (nth_error (t_files s) (fst e)) as [[? ?]|]; [|discriminate].
    destruct (sector_header _) as [[? ?]| | |]; discriminate.
  - exists O. apply Hsome. unfold tstep. rewrite Hw. destruct (map_get _ _); discriminate.
  - assert (Hf : forall x, frame_step g v s i st e h id = Some x \/ st = Lock ->
       match st with
       | Lock => (forall fr, map_get (sh_frame h) (t_cache s) = Some fr -> tf_locked fr = false) ->
           exists s', tstep g v (i, O) s = Some (Ok s')
       | _ => exists j s', tstep g v (i, j) s = Some (Ok s')
       end).
    { intros x Hx. destruct st; try (destruct Hx as [Hx|Hx]; [|discriminate]; exists O; apply (Hok O x); unfold tstep; now rewrite Hw).
      intros Hl. apply Hsome. unfold tstep. rewrite Hw. unfold frame_step.
      destruct HI as (pend & gws & done & outs & I).
      rewrite (i_ws _ _ _ _ _ _ _ _ I), nth_error_map' in Hw.
      destruct (nth_error gws i) as [[w o]|] eqn:Ei; [|discriminate]. injection Hw as ->.
      destruct (i_wok _ _ _ _ _ _ _ _ I _ _ Ei) as [(fr & Hget & Hid) _].
      unfold use_frame. rewrite Hget, Hid, Z.eqb_refl, (Hl fr Hget). discriminate. }
    destruct (frame_step g v s i st e h id) as [x|] eqn:Ex.
    { specialize (Hf x (or_introl eq_refl)). destruct st; exact Hf. }
    destruct st; try (specialize (Hf (Ok s)); exact (Hf (or_intror eq_refl))); exfalso; clear Hf Hok Hsome;
      unfold frame_step in Ex; destruct (use_frame s h id) as [fr| | |]; try discriminate.
    + destruct (data _); discriminate.
    + destruct (data _); discriminate.
    + destruct (nth_error (t_files s) (fst e)) as [[sec rem]|]; [|discriminate].
      destruct (_ <=? k); [discriminate|]. destruct rem as [|b0 t]; [discriminate|].
      destruct (existsb _ _); [discriminate|].
      match type of Ex with match ?m with _ => _ end = _ => destruct m end; discriminate.
    + destruct (_ =? 4); discriminate.
    + destruct (existsb _ _); discriminate.
  - exists O. apply Hsome. unfold tstep. rewrite Hw. discriminate.
  - exists O. apply Hsome. unfold tstep. rewrite Hw. discriminate.
Qed.

Definition waiting (w : tworker) : bool :=
  match w with WDone | WCheck | WNext => true | _ => false end.

Lemma some_work s : ReachInv g v fs s -> tfinished s = false ->
  exists cs s', trun g v cs s = Some (Ok s') /\ measure s' < measure s.
Proof.
  intros HI Hnf. pose proof HI as (pend & gws & done & outs & I).
  assert (Hone : forall i j s', tstep g v (i, j) s = Some (Ok s') -> spins (i, j) s = false ->
            exists cs s', trun g v cs s = Some (Ok s') /\ measure s' < measure s).
  { intros i j s' H1 H2. exists [(i, j)], s'. cbn [trun]. rewrite H1. split; auto.
    destruct (measure_step _ _ _ _ _ H1) as [[_ H]|[H _]]; [congruence|auto]. }
  destruct (forallb waiting (t_workers s)) eqn:Ew.
  - (* nobody holds a file *)
    rewrite forallb_forall in Ew.
    assert (Hh : flat_map (fun x : tworker * option (Z * srec) => held (fst x)) gws = []).
    { rewrite (i_ws _ _ _ _ _ _ _ _ I) in Ew. clear - Ew. induction gws as [|[w o] l IH]; auto. simpl.
      assert (held w = []) as ->.
      { specialize (Ew w (or_introl eq_refl)). destruct w; try discriminate; auto. }
      apply IH. intros x Hx. apply Ew. now right. }
    pose proof (i_open _ _ _ _ _ _ _ _ I) as Hop. rewrite Hh, app_nil_r in Hop.
    assert (Hex : exists w, In w (t_workers s) /\ is_done w = false).
    { unfold tfinished in Hnf. clear - Hnf. induction (t_workers s) as [|w l IH]; [discriminate|].
      simpl in Hnf. destruct (is_done w) eqn:E.
      - destruct (IH Hnf) as (x & Hx & H). exists x. split; auto. now right.
      - exists w. split; auto. now left. }
    destruct Hex as (w & Hin & Hnd). apply In_nth_error in Hin as [i Hi].
    pose proof (Ew w (nth_error_In _ _ Hi)) as Hwt.
    assert (Hlen : (i < List.length (t_workers s))%nat) by (apply nth_error_Some; congruence).
    destruct w; try discriminate.
    + (* WCheck *)
      destruct (t_open s) as [|n0 op] eqn:Eo.
      * destruct (step_enabled s i _ HI Hi) as (j & s' & Hs). eapply Hone; eauto.
        unfold spins. simpl. now rewrite Hi, Eo.
      * destruct (step_enabled s i _ HI Hi) as (j & s1 & Hs). pose proof Hs as Hs0.
        destruct (tstep_ok g v fs Hg Hv HR Hsame _ _ _ HI Hs) as (s1' & E1 & HI1). injection E1 as <-.
        unfold tstep in Hs0. rewrite Hi, Eo in Hs0. injection Hs0 as <-.
        assert (Hi1 : nth_error (t_workers (set_worker s i WNext)) i = Some WNext) by (apply nth_error_upd_eq; auto).
        destruct (step_enabled _ i _ HI1 Hi1) as (j2 & s2 & Hs2).
        exists [(i, j); (i, j2)], s2. cbn [trun]. rewrite Hs, Hs2. split; auto.
        destruct (measure_step _ _ _ _ _ Hs) as [[H1 _]|[H1 _]], (measure_step _ _ _ _ _ Hs2) as [[H2 Hsp]|[H2 _]]; try lia.
        exfalso. unfold spins in Hsp. cbn [fst] in Hsp. rewrite Hi1 in Hsp. cbn [t_queue set_worker] in Hsp.
        destruct (t_queue s) eqn:Eq; [|discriminate]. simpl in Hop. symmetry in Hop. apply Permutation_nil in Hop. discriminate.
    + (* WNext *)
      destruct (t_queue s) as [|q0 q] eqn:Eq.
      * destruct (step_enabled s i _ HI Hi) as (j & s1 & Hs). pose proof Hs as Hs0.
        destruct (tstep_ok g v fs Hg Hv HR Hsame _ _ _ HI Hs) as (s1' & E1 & HI1). injection E1 as <-.
        unfold tstep in Hs0. rewrite Hi, Eq in Hs0. injection Hs0 as <-.
        assert (Hi1 : nth_error (t_workers (set_worker s i WCheck)) i = Some WCheck) by (apply nth_error_upd_eq; auto).
        destruct (step_enabled _ i _ HI1 Hi1) as (j2 & s2 & Hs2).
        exists [(i, j); (i, j2)], s2. cbn [trun]. rewrite Hs, Hs2. split; auto.
        destruct (measure_step _ _ _ _ _ Hs) as [[H1 _]|[H1 _]], (measure_step _ _ _ _ _ Hs2) as [[H2 Hsp]|[H2 _]]; try lia.
        exfalso. unfold spins in Hsp. cbn [fst] in Hsp. rewrite Hi1 in Hsp. cbn [t_open set_worker] in Hsp.
        simpl in Hop. symmetry in Hop. apply Permutation_nil in Hop. rewrite Hop in Hsp. discriminate.
      * destruct (step_enabled s i _ HI Hi) as (j & s' & Hs). eapply Hone; eauto.
        unfold spins. simpl. now rewrite Hi, Eq.
  - (* some worker is at work *)
    assert (Hex : exists w, In w (t_workers s) /\ waiting w = false).
    { clear - Ew. induction (t_workers s) as [|w l IH]; [discriminate|].
      simpl in Ew. destruct (waiting w) eqn:E.
      - destruct (IH Ew) as (x & Hx & H). exists x. split; auto. now right.
      - exists w. split; auto. now left. }
    destruct Hex as (w & Hin & Hnd). apply In_nth_error in Hin as [i Hi].
    pose proof (step_enabled s i w HI Hi) as Hen.
    assert (Hsp : forall j, spins (i, j) s = false).
    { intros j. unfold spins. cbn [fst]. rewrite Hi. destruct w; auto; discriminate. }
    destruct w as [| |e|e|e|e h|st e h id|e b|b|]; try discriminate;
      try (destruct Hen as (j & s' & Hs); eapply Hone; eauto; fail).
    destruct st; try (destruct Hen as (j & s' & Hs); eapply Hone; eauto; fail).
    (* waiting for a mutex *)
    destruct (i_wok _ _ _ _ _ _ _ _ I i (WFrame Lock e h id, snd (nth i gws (WDone, None)))) as [(fr & Hget & Hid) _].
    { rewrite (i_ws _ _ _ _ _ _ _ _ I), nth_error_map' in Hi. destruct (nth_error gws i) as [[w o]|] eqn:Ei; [|discriminate].
      injection Hi as ->. rewrite (nth_error_nth _ _ _ Ei). reflexivity. }
    destruct (tf_locked fr) eqn:El.
    2: { destruct Hen as (s' & Hs); [intros fr' Hf; congruence|]. eapply Hone; eauto. }
    pose proof (i_cache _ _ _ _ _ _ _ _ I (sh_frame h)) as Hc. rewrite Hget in Hc. destruct Hc as (_ & F2 & _).
    rewrite El in F2. cbn [b2z] in F2.
    (* the holder of the mutex can move *)
    assert (Hhold : exists j x P, (P = is_alloc \/ P = is_store) /\ nth_error gws j = Some x /\ in_frame P (sh_frame h) (fst x) = true).
    { assert (Hpos : forall P, 0 < cnt P gws -> exists j x, nth_error gws j = Some x /\ P (fst x) = true).
      { clear. intros P. unfold cnt. induction gws as [|x l IH]; simpl; [lia|]. unfold b2z at 1.
        destruct (P (fst x)) eqn:E; intros H; [exists O, x; auto|].
        destruct IH as (j & y & Hj & Hy); [lia|]. exists (S j), y. auto. }
      destruct (Z_lt_le_dec 0 (cnt (in_frame is_alloc (sh_frame h)) gws)) as [H|H].
      - destruct (Hpos _ H) as (j & x & Hj & Hx). exists j, x, is_alloc. auto.
      - destruct (Hpos (in_frame is_store (sh_frame h))) as (j & x & Hj & Hx); [lia|]. exists j, x, is_store. auto. }
    destruct Hhold as (j & [w o] & P & HP & Hj & Hx). cbn [fst] in Hx.
    assert (Hwj : nth_error (t_workers s) j = Some w).
    { rewrite (i_ws _ _ _ _ _ _ _ _ I), nth_error_map', Hj. reflexivity. }
    pose proof (step_enabled s j w HI Hwj) as Hen2.
    destruct w as [| |e2|e2|e2|e2 h2|st2 e2 h2 id2|e2 b|b|]; try discriminate.
    cbn [in_frame] in Hx. apply andb_prop in Hx as [_ Hx].
    assert (Hst : st2 = Alloc \/ st2 = Store) by (destruct HP as [-> | ->]; destruct st2; try discriminate; auto).
    assert (Hs : exists j2 s', tstep g v (j, j2) s = Some (Ok s')) by (destruct Hst; subst st2; exact Hen2).
    destruct Hs as (j2 & s' & Hs). eapply Hone; eauto. unfold spins. cbn [fst]. rewrite Hwj. reflexivity.
Qed.

Lemma can_finish s : ReachInv g v fs s ->
  exists cs s', trun g v cs s = Some (Ok s') /\ tfinished s' = true.
Proof.
  intros HI. remember (Z.to_nat (measure s)) as m eqn:Em. revert s HI Em.
  induction m as [m IH] using lt_wf_ind. intros s HI Em.
  destruct (tfinished s) eqn:Ef; [exists [], s; auto|].
  destruct (some_work s HI Ef) as (cs & s1 & Hr & Hlt).
  destruct (trun_ok g v fs Hg Hv HR Hsame _ _ _ HI Hr) as (s1' & E & HI1). injection E as <-.
  destruct (IH (Z.to_nat (measure s1))) with (s := s1) as (cs2 & s2 & Hr2 & Hf2); auto.
  { pose proof (measure_nonneg s1). lia. }
  exists (cs ++ cs2), s2. split; auto. rewrite (trun_app _ _ _ _ _ _ Hr). auto.
Qed.
End Live.
