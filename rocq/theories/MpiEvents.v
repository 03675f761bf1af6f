(** gatherEvents under every schedule. *)
From Coq Require Import String ZArith List Lia Bool.
From Verif Require Import Base BaseFacts PermFacts BlockModel StreamModel StreamSpec
  StreamProofs SectorModel SectorSpec SectorProofs ThreadedModel ThreadedProofs MultipassModel MultipassSpec
  MultipassProofs MpiModel MpiSpec MpiCodec MpiProofs MpiWorld.
Import ListNotations.
Open Scope Z_scope.
Local Arguments skipn : simpl never.
Local Arguments firstn : simpl never.
Local Arguments Z.mul : simpl never.
Local Arguments Z.add : simpl never.
Local Arguments Z.pow : simpl never.

Notation evs_t := (list (list (list Z))).

(** ** Merging one rank *)

Definition zipapp {A} (a b : list (list A)) : list (list A) :=
  map (fun p => fst p ++ snd p) (combine a b).

Lemma upd_here {A} (l : list A) x y t : upd (l ++ x :: t) (List.length l) y = l ++ y :: t.
Proof. induction l as [|a l IH]; cbn [app List.length upd]; [reflexivity|]. now rewrite IH. Qed.

Lemma merge_from ev : forall (l acc : evs_t), List.length acc = List.length ev ->
  merge_events (partial_map (Zlen l) ev) (l ++ acc) = Ok (l ++ zipapp acc ev).
Proof.
  induction ev as [|x ev IH]; intros l [|a acc] HL; try discriminate; [reflexivity|].
  cbn [List.length] in HL.
  assert (HN : forall y, merge_events (partial_map (Zlen l + 1) ev) (l ++ y :: acc) = Ok (l ++ y :: zipapp acc ev)).
  { intros y. replace (Zlen l + 1) with (Zlen (l ++ [y])) by (unfold Zlen; rewrite app_length; cbn [List.length]; lia).
    change (l ++ y :: acc) with (l ++ [y] ++ acc). rewrite app_assoc, IH by lia. now rewrite <- app_assoc. }
  unfold zipapp. cbn [partial_map combine map fst snd]. fold (zipapp acc ev).
  destruct x as [|v x]; [rewrite app_nil_r; apply HN|].
  unfold merge_events in *. cbn [for_each fst snd].
  pose proof (Zlen_nonneg l). assert (Hz : Z.to_nat (Zlen l) = List.length l) by (unfold Zlen; lia).
  unfold rd. destruct (Z.ltb_spec (Zlen l) 0); [lia|]. rewrite Hz, nth_error_app2, Nat.sub_diag by lia. cbn [nth_error bind].
  unfold wr. destruct (Z.ltb_spec (Zlen l) 0); [lia|]. rewrite app_length. cbn [List.length orb].
  destruct (Z.leb_spec (Z.of_nat (List.length l + S (List.length acc))) (Zlen l)); [unfold Zlen in *; lia|].
  cbn [bind]. rewrite Hz, upd_here. apply HN.
Qed.

Lemma merge_one ev acc : List.length acc = List.length ev ->
  merge_events (partial_map 0 ev) acc = Ok (zipapp acc ev).
Proof. intros H. apply (merge_from ev [] acc H). Qed.

Lemma map_nth_seq {A} (l : list A) d : map (fun p => nth p l d) (seq 0 (List.length l)) = l.
Proof.
  induction l as [|a l IH]; [reflexivity|]. cbn [List.length seq map nth]. f_equal.
  rewrite <- seq_shift, map_map. exact IH.
Qed.

Lemma zipapp_map {A} (f h : nat -> list A) l : zipapp (map f l) (map h l) = map (fun p => f p ++ h p) l.
Proof. unfold zipapp. induction l as [|x l IH]; [reflexivity|]. cbn [map combine fst snd]. now rewrite IH. Qed.

Lemma all_events_snoc n evs ev : List.length ev = n ->
  zipapp (all_events n evs) ev = all_events n (evs ++ [ev]).
Proof.
  intros H. unfold all_events. rewrite <- (map_nth_seq ev []) at 1. rewrite H, zipapp_map.
  apply map_ext. intros p. rewrite flat_map_app. cbn [flat_map]. now rewrite app_nil_r.
Qed.

Lemma all_events_one n ev : List.length ev = n -> all_events n [ev] = ev.
Proof.
  intros H. unfold all_events. cbn [flat_map]. transitivity (map (fun p => nth p ev []) (seq 0 n)).
  - apply map_ext. intros p. now rewrite app_nil_r.
  - rewrite <- H. apply map_nth_seq.
Qed.

Lemma all_events_len n evs : List.length (all_events n evs) = n.
Proof. unfold all_events. now rewrite map_length, seq_length. Qed.

(** ** Size of the messages *)

Lemma flat_len {A} (e : A -> bytes) (c : A -> Z) l : (forall x, In x l -> Zlen (e x) = c x) ->
  Zlen (flat_map e l) = zsum (map c l).
Proof.
  induction l as [|x l IH]; intros H; [reflexivity|]. cbn [flat_map map zsum]. rewrite Zlen_app, H by now left.
  rewrite IH; auto. intros; apply H; now right.
Qed.

Lemma put8_len v : Zlen (put 8 v) = 8. Proof. unfold Zlen. now rewrite put_length. Qed.
Lemma put4_len v : Zlen (put 4 v) = 4. Proof. unfold Zlen. now rewrite put_length. Qed.

Lemma words_len (l : list Z) : Zlen (put_list (put 4) l) = 8 + 4 * Zlen l.
Proof.
  unfold put_list. rewrite Zlen_app, put8_len, (flat_len _ (fun _ => 4)) by (intros; apply put4_len).
  f_equal. induction l as [|x l IH]; [reflexivity|]. cbn [map zsum]. rewrite Zlen_cons, IH. lia.
Qed.

Lemma frames_bytes (fr : list (list Z)) : Zlen (put_list (put_list (put 4)) fr) = 8 + zsum (map (fun l => 8 + 4 * Zlen l) fr).
Proof.
  unfold put_list at 1. rewrite Zlen_app, put8_len. f_equal. apply flat_len. intros; apply words_len.
Qed.

Lemma sum8_nonneg (fr : list (list Z)) : Zlen fr <= zsum (map (fun l => 8 + 4 * Zlen l) fr).
Proof.
  induction fr as [|x fr IH]; [apply Z.le_refl|]. cbn [map zsum]. rewrite Zlen_cons. pose proof (Zlen_nonneg x). lia.
Qed.

Lemma message_bytes ev : Zlen (serialize_events ev) <= event_bytes ev.
Proof.
  unfold serialize_events, put_map, event_bytes. unfold put_list at 1. rewrite Zlen_app, put8_len.
  apply Z.add_le_mono_l. generalize 0.
  induction ev as [|x ev IH]; intros i; [apply Z.le_refl|]. cbn [partial_map map zsum]. specialize (IH (i + 1)).
  pose proof (sum8_nonneg x). pose proof (Zlen_nonneg x).
  destruct x as [|v x]; [lia|]. cbn [flat_map]. rewrite Zlen_app. unfold put_pair at 1. cbn [fst snd].
  rewrite Zlen_app, put4_len, frames_bytes. lia.
Qed.

Lemma wf_small n ev : wf_events n ev -> small_events ev.
Proof.
  intros (HL & Hn & HB & HV). split; [unfold Zlen; lia|]. intros fr Hfr.
  assert (HF : zsum (map (fun l => 8 + 4 * Zlen l) fr) < 2 ^ 64).
  { unfold event_bytes in HB.
    assert (12 + zsum (map (fun l => 8 + 4 * Zlen l) fr) <= zsum (map (fun frames => 12 + zsum (map (fun l => 8 + 4 * Zlen l) frames)) ev)); [|lia].
    apply zsum_in.
    - intros y Hy. apply in_map_iff in Hy as (z & <- & _). pose proof (sum8_nonneg z). pose proof (Zlen_nonneg z). lia.
    - apply in_map_iff. exists fr. auto. }
  pose proof (sum8_nonneg fr). split; [lia|]. intros l Hl. split.
  - assert (8 + 4 * Zlen l <= zsum (map (fun l => 8 + 4 * Zlen l) fr)); [|pose proof (Zlen_nonneg l); lia].
    apply zsum_in.
    + intros y Hy. apply in_map_iff in Hy as (z & <- & _). pose proof (Zlen_nonneg z). lia.
    + apply in_map_iff. exists l. auto.
  - exact (HV fr l Hfr Hl).
Qed.

(** ** The invariant *)

Section Gather.
Variables (n : nat) (e0 : evs_t) (es : list evs_t).
Hypothesis HE : forall ev, In ev (e0 :: es) -> wf_events n ev.
Let R := List.length es.

(** The messages of sender [i] (rank i + 1) that rank 0 has not received. *)
Definition pending (r : groot) (i : nat) (ev : evs_t) : list bytes :=
  match r with
  | GSize k => if (S i <? k)%nat then [] else gsend ev
  | GData k _ => if (S i <? k)%nat then [] else if (S i =? k)%nat then [serialize_events ev] else gsend ev
  end.

Definition root_ok (r : groot) : Prop :=
  match r with
  | GSize k => (1 <= k <= S R)%nat
  | GData k m => (1 <= k <= R)%nat /\ forall ev, nth_error es (k - 1) = Some ev -> m = Zlen (serialize_events ev)
  end.

Definition root_rank (r : groot) : nat := match r with GSize k => k | GData k _ => k end.

Record ginv (s : gstate) : Prop := {
  gi_root : root_ok (ge_root s);
  gi_events : ge_events s = all_events n (firstn (root_rank (ge_root s)) (e0 :: es));
  gi_chan : List.length (ge_chan s) = R;
  gi_todo : List.length (ge_todo s) = R;
  gi_msgs : forall i ev, nth_error es i = Some ev -> exists c t,
      nth_error (ge_chan s) i = Some c /\ nth_error (ge_todo s) i = Some t /\
      c ++ t = pending (ge_root s) i ev
}.

Lemma ginv_start : ginv (gstart (e0 :: es)).
Proof.
  constructor; cbn [gstart ge_root ge_events ge_chan ge_todo hd tl root_rank].
  - cbn. lia.
  - change (firstn 1 (e0 :: es)) with [e0]. symmetry. apply all_events_one. apply HE. now left.
  - apply map_length.
  - apply map_length.
  - intros i ev Hi. exists [], (gsend ev). split; [now rewrite (map_nth_error _ _ _ Hi)|].
    split; [now rewrite (map_nth_error _ _ _ Hi)|]. cbn [app pending].
    destruct (Nat.ltb_spec (S i) 1); [lia|reflexivity].
Qed.

Lemma es_at k : (1 <= k <= R)%nat -> exists ev, nth_error es (k - 1) = Some ev.
Proof.
  intros Hk. destruct (nth_error es (k - 1)) as [ev|] eqn:E; eauto. apply nth_error_None in E. unfold R in Hk. lia.
Qed.

Lemma es_wf i ev : nth_error es i = Some ev -> wf_events n ev.
Proof. intros H. apply HE. right. eapply nth_error_In; eauto. Qed.

Lemma firstn_next k ev : (1 <= k)%nat -> nth_error es (k - 1) = Some ev -> firstn (S k) (e0 :: es) = firstn k (e0 :: es) ++ [ev].
Proof.
  intros Hk H. assert (HN : nth_error (e0 :: es) k = Some ev) by (destruct k; [lia|]; cbn in *; now rewrite Nat.sub_0_r in H).
  clear H. revert HN. generalize (e0 :: es) as l. clear Hk. induction k as [|k IH]; intros [|a l] H; try discriminate.
  - injection H as ->. reflexivity.
  - change (firstn (S (S k)) (a :: l)) with (a :: firstn (S k) l). rewrite (IH l H). reflexivity.
Qed.

Lemma ginv_step sync c s o : ginv s -> gstep sync c s = Some o -> exists s', o = Ok s' /\ ginv s'.
Proof.
  intros [IR IE IC IT IM] H. destruct c as [|c].
  - cbn [gstep] in H. destruct (ge_root s) as [k|k m] eqn:ER; cbn [root_ok root_rank] in *.
    + destruct (nth_error (ge_chan s) (k - 1)) as [[|x ms]|] eqn:EC; try discriminate.
      assert (Hk : (1 <= k <= R)%nat).
      { assert (k - 1 < R)%nat by (rewrite <- IC; apply nth_error_Some; congruence). lia. }
      destruct (es_at k Hk) as [ev Hev]. destruct (IM _ _ Hev) as (ch & t & H1 & H2 & H3).
      rewrite EC in H1. injection H1 as <-. cbn [pending] in H3.
      destruct (Nat.ltb_spec (S (k - 1)) k); [lia|]. unfold gsend in H3. cbn [app] in H3.
      pose proof (f_equal (hd []) H3) as Hx. pose proof (f_equal (@tl _) H3) as Hms. cbn [hd tl] in Hx, Hms. clear H3.
      pose proof (message_bytes ev). pose proof (Zlen_nonneg (serialize_events ev)).
      assert (HB : event_bytes ev < 2 ^ 64) by apply (es_wf _ _ Hev).
      assert (Eg : get 8 x = Ok (Zlen (serialize_events ev), [])).
      { rewrite Hx. rewrite <- (app_nil_r (put 8 _)). unfold u64. rewrite Z.mod_small by lia. apply get_put_small.
        change (256 ^ Z.of_nat 8) with (2 ^ 64). lia. }
      rewrite Eg in H. injection H as <-. eexists. split; [reflexivity|].
      constructor; cbn [ge_root ge_events ge_chan ge_todo root_ok root_rank]; auto.
      * split; auto. intros ev' Hev'. congruence.
      * now rewrite upd_length.
      * intros i ev' Hi. destruct (IM i ev' Hi) as (c' & t' & A & B & C).
        destruct (Nat.eq_dec i (k - 1)) as [->|Hne].
        -- exists ms, t. rewrite nth_error_upd_eq by (apply nth_error_Some; congruence).
           split; auto. split; auto. assert (ev' = ev) as -> by congruence. rewrite Hms. cbn [pending].
           destruct (Nat.ltb_spec (S (k - 1)) k); [lia|]. destruct (Nat.eqb_spec (S (k - 1)) k); [reflexivity|lia].
        -- exists c', t'. rewrite nth_error_upd_neq by auto. split; auto. split; auto. rewrite C. cbn [pending].
           destruct (Nat.ltb_spec (S i) k); auto. destruct (Nat.eqb_spec (S i) k); [lia|reflexivity].
    + destruct (nth_error (ge_chan s) (k - 1)) as [[|x ms]|] eqn:EC; try discriminate.
      destruct IR as [Hk Hm]. destruct (es_at k Hk) as [ev Hev]. rewrite (Hm ev Hev) in *.
      destruct (IM _ _ Hev) as (ch & t & H1 & H2 & H3). rewrite EC in H1. injection H1 as <-. cbn [pending] in H3.
      destruct (Nat.ltb_spec (S (k - 1)) k); [lia|]. destruct (Nat.eqb_spec (S (k - 1)) k); [|lia].
      cbn [app] in H3. injection H3 as -> Hms. apply app_eq_nil in Hms as [-> ->].
      rewrite Z.ltb_irrefl in H. pose proof (es_wf _ _ Hev) as Hw.
      pose proof (events_ok ev (wf_small n ev Hw) []) as Hl. rewrite app_nil_r in Hl. rewrite Hl in H. cbn [bind] in H.
      rewrite IE, merge_one in H by (rewrite all_events_len; symmetry; apply Hw).
      injection H as <-. eexists. split; [reflexivity|].
      constructor; cbn [ge_root ge_events ge_chan ge_todo root_ok root_rank]; auto.
      * lia.
      * rewrite all_events_snoc by apply Hw. f_equal. symmetry. apply firstn_next; auto. lia.
      * now rewrite upd_length.
      * intros i ev' Hi. destruct (IM i ev' Hi) as (c' & t' & A & B & C).
        destruct (Nat.eq_dec i (k - 1)) as [->|Hne].
        -- exists [], []. rewrite nth_error_upd_eq by (apply nth_error_Some; congruence).
           split; auto. split; auto. cbn [pending]. destruct (Nat.ltb_spec (S (k - 1)) (S k)); [reflexivity|lia].
        -- exists c', t'. rewrite nth_error_upd_neq by auto. split; auto. split; auto. rewrite C. cbn [pending].
           destruct (Nat.ltb_spec (S i) k); destruct (Nat.ltb_spec (S i) (S k)); try lia; auto.
           destruct (Nat.eqb_spec (S i) k); [lia|reflexivity].
  - cbn [gstep] in H. destruct (nth_error (ge_todo s) c) as [[|x ms]|] eqn:ET; try discriminate.
    destruct (nth_error (ge_chan s) c) as [ch|] eqn:EC; [|discriminate].
    assert (HS : Some (Ok (mkGS (ge_root s) (ge_events s) (upd (ge_chan s) c (ch ++ [x])) (upd (ge_todo s) c ms))) = Some o)
      by (destruct sync; destruct ch; auto; discriminate).
    injection HS as <-. eexists. split; [reflexivity|].
    constructor; cbn [ge_root ge_events ge_chan ge_todo]; auto; try now rewrite upd_length.
    intros i ev Hi. destruct (IM i ev Hi) as (c' & t' & A & B & C). destruct (Nat.eq_dec i c) as [->|Hne].
    + exists (ch ++ [x]), ms. rewrite !nth_error_upd_eq by (apply nth_error_Some; congruence).
      split; auto. split; auto. rewrite <- app_assoc. cbn [app]. congruence.
    + exists c', t'. rewrite !nth_error_upd_neq by auto. auto.
Qed.

Lemma ginv_run sync cs : forall s o, ginv s -> grun sync cs s = Some o -> exists s', o = Ok s' /\ ginv s'.
Proof.
  induction cs as [|c cs IH]; intros s o I H; cbn [grun] in H.
  - injection H as <-. eauto.
  - destruct (gstep sync c s) as [o'|] eqn:E; [|discriminate].
    destruct (ginv_step sync c s o' I E) as (s' & -> & I'). eapply IH; eauto.
Qed.

Lemma ginv_final s : ginv s -> gfinished s = true ->
  ge_events s = all_events n (e0 :: es) /\ (forall c, In c (ge_chan s) -> c = []) /\ (forall t, In t (ge_todo s) -> t = []).
Proof.
  intros [IR IE IC IT IM] H. unfold gfinished in H. destruct (ge_root s) as [k|]; [|discriminate].
  apply Z.eqb_eq in H. unfold Zlen in H. rewrite IC in H. cbn [root_rank] in IE.
  assert (k = S R) as -> by lia.
  assert (HP : forall i c, nth_error (ge_chan s) i = Some c -> c = []).
  { intros i c Hc. assert (Hi : (i < R)%nat) by (rewrite <- IC; apply nth_error_Some; congruence).
    destruct (es_at (S i)) as [ev Hev]; [lia|]. replace (S i - 1)%nat with i in Hev by lia.
    destruct (IM i ev Hev) as (c' & t' & A & B & C). cbn [pending] in C.
    destruct (Nat.ltb_spec (S i) (S R)); [|lia]. apply app_eq_nil in C as [-> _]. congruence. }
  assert (HQ : forall i c, nth_error (ge_todo s) i = Some c -> c = []).
  { intros i c Hc. assert (Hi : (i < R)%nat) by (rewrite <- IT; apply nth_error_Some; congruence).
    destruct (es_at (S i)) as [ev Hev]; [lia|]. replace (S i - 1)%nat with i in Hev by lia.
    destruct (IM i ev Hev) as (c' & t' & A & B & C). cbn [pending] in C.
    destruct (Nat.ltb_spec (S i) (S R)); [|lia]. apply app_eq_nil in C as [_ ->]. congruence. }
  split; [|split].
  - rewrite IE. rewrite firstn_all2; [reflexivity|]. cbn [List.length]. fold R. lia.
  - intros c Hc. apply In_nth_error in Hc as [i Hi]. eauto.
  - intros c Hc. apply In_nth_error in Hc as [i Hi]. eauto.
Qed.

(** ** Progress *)

Lemma ginv_moves sync s : ginv s -> gfinished s = false -> exists c s', gstep sync c s = Some (Ok s').
Proof.
  intros I H.
  assert (HM : exists c o, gstep sync c s = Some o).
  { destruct I as [IR IE IC IT IM].
    assert (Hk : (1 <= root_rank (ge_root s) <= R)%nat /\
      forall i ev, S i = root_rank (ge_root s) -> pending (ge_root s) i ev <> []).
    { unfold gfinished in H. destruct (ge_root s) as [k|k m]; cbn [root_ok root_rank pending] in *.
      - apply Z.eqb_neq in H. unfold Zlen in H. rewrite IC in H. split; [lia|].
        intros i ev Hi. destruct (Nat.ltb_spec (S i) k); [lia|discriminate].
      - split; [apply IR|]. intros i ev Hi. destruct (Nat.ltb_spec (S i) k); [lia|].
        destruct (Nat.eqb_spec (S i) k); [discriminate|lia]. }
    destruct Hk as [Hk Hp]. set (k := root_rank (ge_root s)) in *.
    destruct (es_at k Hk) as [ev Hev]. destruct (IM _ _ Hev) as (ch & t & H1 & H2 & H3).
    specialize (Hp (k - 1)%nat ev ltac:(lia)). destruct ch as [|x ch].
    - destruct t as [|x t]; [cbn in H3; congruence|]. exists k. destruct k as [|k'] eqn:Ek; [lia|].
      cbn [gstep]. replace (S k' - 1)%nat with k' in * by lia. rewrite H1, H2. destruct sync; eauto.
    - exists 0%nat. cbn [gstep]. unfold k in H1. destruct (ge_root s) as [j|j m]; cbn [root_rank] in H1; rewrite H1.
      + destruct (get 8 x) as [[? ?]| | |]; eauto.
      + destruct (m <? Zlen x); eauto. destruct (Zlen x <? m); eauto.
        destruct (let* (pm, _) := load_events x in merge_events pm (ge_events s)); eauto. }
  destruct HM as (c & o & E). destruct (ginv_step sync c s o I E) as (s' & -> & _). eauto.
Qed.

(** Two sends and two receives for each of the other ranks. *)
Definition gmeasure (s : gstate) : Z :=
  2 * zsum (map Zlen (ge_todo s)) + zsum (map Zlen (ge_chan s)).

Lemma gmeasure_step sync c s s' : gstep sync c s = Some (Ok s') -> gmeasure s' = gmeasure s - 1.
Proof.
  intros H. unfold gmeasure. destruct c as [|c]; cbn [gstep] in H.
  - destruct (ge_root s) as [k|k m].
    + destruct (nth_error (ge_chan s) (k - 1)) as [[|x ms]|] eqn:EC; try discriminate.
      destruct (get 8 x) as [[v ?]| | |]; try discriminate. injection H as <-. cbn [ge_todo ge_chan].
      rewrite (zsum_upd Zlen _ _ _ _ EC). rewrite Zlen_cons. lia.
    + destruct (nth_error (ge_chan s) (k - 1)) as [[|x ms]|] eqn:EC; try discriminate.
      destruct (m <? Zlen x); try discriminate. destruct (Zlen x <? m); try discriminate.
      destruct (let* (pm, _) := load_events x in merge_events pm (ge_events s)); try discriminate.
      injection H as <-. cbn [ge_todo ge_chan]. rewrite (zsum_upd Zlen _ _ _ _ EC). rewrite Zlen_cons. lia.
  - destruct (nth_error (ge_todo s) c) as [[|x ms]|] eqn:ET; try discriminate.
    destruct (nth_error (ge_chan s) c) as [ch|] eqn:EC; [|discriminate].
    assert (HS : Some (Ok (mkGS (ge_root s) (ge_events s) (upd (ge_chan s) c (ch ++ [x])) (upd (ge_todo s) c ms))) = Some (Ok s'))
      by (destruct sync; destruct ch; auto; discriminate).
    injection HS as <-. cbn [ge_todo ge_chan].
    rewrite (zsum_upd Zlen _ _ _ _ EC), (zsum_upd Zlen _ _ _ _ ET). rewrite Zlen_cons, Zlen_app. 
    change (Zlen [x]) with 1. lia.
Qed.

Lemma gmeasure_nonneg s : 0 <= gmeasure s.
Proof.
  unfold gmeasure.
  assert (forall l : list (list bytes), 0 <= zsum (map Zlen l)) as HZ.
  { intros l. apply zsum_nonneg. intros y Hy. apply in_map_iff in Hy as (z & <- & _). apply Zlen_nonneg. }
  pose proof (HZ (ge_todo s)). pose proof (HZ (ge_chan s)). lia.
Qed.

Lemma gmeasure_run sync cs : forall s s', grun sync cs s = Some (Ok s') -> gmeasure s' = gmeasure s - Zlen cs.
Proof.
  induction cs as [|c cs IH]; intros s s' H; cbn [grun] in H.
  - injection H as <-. unfold Zlen. cbn [List.length]. lia.
  - destruct (gstep sync c s) as [[s1| | |]|] eqn:E; try discriminate.
    rewrite (IH _ _ H), (gmeasure_step _ _ _ _ E), Zlen_cons. lia.
Qed.

Lemma gmeasure_start : gmeasure (gstart (e0 :: es)) = 4 * Z.of_nat R.
Proof.
  unfold gmeasure, gstart, R. cbn [ge_todo ge_chan tl]. clear HE. induction es as [|e l IH]; [reflexivity|].
  cbv zeta in IH. cbn [map zsum List.length]. change (Zlen (gsend e)) with 2. change (Zlen (@nil bytes)) with 0. lia.
Qed.

Lemma grun_app sync cs1 cs2 s s' : grun sync cs1 s = Some (Ok s') -> grun sync (cs1 ++ cs2) s = grun sync cs2 s'.
Proof.
  revert s. induction cs1 as [|c cs IH]; intros s H; cbn [grun app] in *; [now injection H as <-|].
  destruct (gstep sync c s) as [[s1| | |]|]; try discriminate. auto.
Qed.

Lemma ginv_can sync s : ginv s -> exists cs s', grun sync cs s = Some (Ok s') /\ gfinished s' = true.
Proof.
  remember (Z.to_nat (gmeasure s)) as m eqn:Em. revert s Em. induction m as [m IH] using (well_founded_induction Nat.lt_wf_0).
  intros s Em I. destruct (gfinished s) eqn:Ef; [exists [], s; auto|].
  destruct (ginv_moves sync s I Ef) as (c & s1 & E1).
  destruct (ginv_step sync c s _ I E1) as (s1' & Eq & I1). injection Eq as <-.
  pose proof (gmeasure_step _ _ _ _ E1). pose proof (gmeasure_nonneg s1). pose proof (gmeasure_nonneg s).
  destruct (IH (Z.to_nat (gmeasure s1)) ltac:(lia) s1 eq_refl I1) as (cs & s' & E & F).
  exists (c :: cs), s'. cbn [grun]. rewrite E1. auto.
Qed.
End Gather.
