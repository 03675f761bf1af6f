(** Invariants of the threaded electron counter. *)
From Coq Require Import String ZArith List Lia Permutation Bool.
From Verif Require Import Base BaseFacts BlockModel PermFacts CountModel CountSpec.
Import ListNotations.
Open Scope Z_scope.
Local Arguments skipn : simpl never.
Local Arguments firstn : simpl never.

Lemma block_jobs_ok b : block_ok b -> block_jobs b = Ok (frames_of b).
Proof.
  intros [[Hw Hh] HI (d & Hd & HL & HL2 & HL3)]. unfold block_jobs, frames_of. rewrite Hd, HI.
  set (ns := image_numbers (hdr b)) in *. set (dims := frame_dims (hdr b)) in *.
  destruct dims as [w h] eqn:Edims. cbn [fst snd] in *.
  match goal with |- for_loop _ ?f _ = _ => set (body := f) end.
  destruct (for_loop_inv (fun i jobs => jobs =
    map (fun i => (zat ns i, ((w, h), image d w h i))) (zseq i)) (Zlen ns) body []) as (l & E & ->).
  - apply Zlen_nonneg.
  - reflexivity.
  - intros i jobs Hi ->. unfold body. unfold block_data. rewrite Hd. cbn [bind].
    unfold raw_frame. cbn [fst snd].
    assert (0 <= i * w < 2 ^ 32) by nia.
    assert (w * h <= Zlen d) by nia.
    assert (i * w * h + w * h <= Zlen d) by nia.
    assert (0 <= i * w * h) by nia.
    rewrite (u32_id (w * h)) by (unfold is_u32; nia).
    rewrite (u32_id (i * w)) by (unfold is_u32; lia).
    rewrite (u32_id (i * w * h)) by (unfold is_u32; nia).
    destruct (Z.leb_spec (i * w * h + w * h) (Zlen d)); try lia. cbn [bind].
    fold ns. rewrite rd_zat by lia. cbn [bind]. eexists; split; [reflexivity|].
    rewrite zseq_succ by lia. rewrite map_app. cbn [map]. unfold image.
    rewrite Z.mul_assoc. reflexivity.
  - rewrite E. reflexivity.
Qed.

Definition jb (b : block) : list job :=
  match block_jobs b with Ok l => l | _ => [] end.

Lemma block_jobs_jb b l : block_jobs b = Ok l -> jb b = l.
Proof. unfold jb. intros ->. reflexivity. Qed.

Definition okp (d : Z * list Z) : Z * outcome (list Z) := (fst d, Ok (snd d)).

Lemma outcome_dec {A} (dec : forall x y : A, {x = y} + {x <> y}) :
  forall x y : outcome A, {x = y} + {x <> y}.
Proof. decide equality; apply string_dec. Defined.

Definition zl_dec : forall x y : list Z, {x = y} + {x <> y} := list_eq_dec Z.eq_dec.

Definition item_dec : forall x y : Z * outcome (list Z), {x = y} + {x <> y}.
Proof. intros [a b] [c d]. destruct (Z.eq_dec a c), (outcome_dec zl_dec b d);
  [left; congruence|right; congruence..]. Defined.

Definition block_dec : forall x y : block, {x = y} + {x <> y}.
Proof.
  assert (P : forall x y : Z * Z, {x = y} + {x <> y}).
  { intros [a b] [c d]. destruct (Z.eq_dec a c), (Z.eq_dec b d); [left; congruence|right; congruence..]. }
  assert (H : forall x y : header, {x = y} + {x <> y}).
  { decide equality; try apply Z.eq_dec; try apply P; try apply zl_dec.
    apply (list_eq_dec bool_dec). }
  intros [h1 d1] [h2 d2]. destruct (H h1 h2); [|right; congruence].
  assert (D : {d1 = d2} + {d1 <> d2}) by (decide equality; apply zl_dec).
  destruct D; [left; congruence|right; congruence].
Defined.

Section Threaded.
Context {Th : Type}.
Variable thresholds_of : list block -> outcome Th.
Variable count : Th -> (Z * Z) -> list Z -> outcome (list Z).
Variable nsamples : Z.
Variable scan_opt : Z * Z.
Variable B : list block.

Notation step := (count_step thresholds_of count nsamples scan_opt).
Notation run := (count_run thresholds_of count nsamples scan_opt).
Notation N := (u32 nsamples).

Definition cnt (t : Th) (j : job) : Z * outcome (list Z) :=
  (fst j, count t (fst (snd j)) (snd (snd j))).

Definition wblk (w : wphase) : list block :=
  match w with WGot b | WWantLock b | WAsleep b | WAwake b => [b] | _ => [] end.

Definition pre_w (w : wphase) : Prop :=
  match w with WCount _ _ | WPush _ _ _ _ | WPushing _ _ _ _ => False | _ => True end.

Definition pre_m (m : mphase) : Prop :=
  match m with MLock | MAsleep | MAwake => True | _ => False end.

Definition wrem (t : Th) (w : wphase) : list (Z * outcome (list Z)) :=
  match w with
  | WIdle | WNotify => []
  | WGot b | WWantLock b | WAsleep b | WAwake b => map (cnt t) (jb b)
  | WCount _ jobs => map (cnt t) jobs
  | WPush _ p ev rest | WPushing _ p ev rest => (p, Ok ev) :: map (cnt t) rest
  end.

Definition mrem (t : Th) (extra : list block) (m : mphase) : list (Z * outcome (list Z)) :=
  match m with
  | MLock | MAsleep | MAwake | MNotify => map (cnt t) (flat_map jb extra)
  | MExtra bs jobs => map (cnt t) jobs ++ map (cnt t) (flat_map jb bs)
  | MPush p ev rest bs | MPushing p ev rest bs =>
    (p, Ok ev) :: map (cnt t) rest ++ map (cnt t) (flat_map jb bs)
  | MJoin | MDone _ => []
  end.

Definition ev_is (e : events_t) (dn : list (Z * list Z)) : Prop :=
  forall p, 0 <= p < Zlen e ->
    nth_error e (Z.to_nat p) = Some (map snd (filter (fun d => fst d =? p) dn)).

Record common (s : csys Th) : Prop := {
  cm_sub : exists rest, Permutation B (c_samples s ++ rest);
  cm_cpl : Forall (fun b => is_complete b = true) (c_samples s);
  cm_inc : Forall (fun b => is_complete b = false) (c_incomplete s);
  cm_len : Zlen (c_samples s) <= N
}.

Record invA (s : csys Th) : Prop := {
  ia_counting : c_counting s = false;
  ia_main : pre_m (c_main s);
  ia_workers : Forall pre_w (c_workers s);
  ia_perm : Permutation B (c_todo s ++ concat (map wblk (c_workers s)) ++
                           c_samples s ++ c_incomplete s)
}.

Definition total_positions (s : csys Th) : Prop :=
  exists b0, nth_error (c_samples s) 0 = Some b0 /\
    Zlen (c_events s) = u32 (fst (scan_in_effect scan_opt b0) * snd (scan_in_effect scan_opt b0)).

Record invB (t : Th) (s : csys Th) : Prop := {
  ib_counting : c_counting s = true;
  ib_thr : c_thr s = Some t;
  ib_thr_of : thresholds_of (c_samples s) = Ok t;
  ib_len : Zlen (c_samples s) = N;
  ib_npos : total_positions s;
  ib_main : ~ pre_m (c_main s);
  ib_done : exists dn,
    ev_is (c_events s) dn /\
    Forall (fun d => 0 <= fst d < Zlen (c_events s)) dn /\
    Permutation (map (cnt t) (flat_map jb B))
      (map okp dn ++ map (cnt t) (flat_map jb (c_todo s)) ++
       concat (map (wrem t) (c_workers s)) ++
       mrem t (c_samples s ++ c_incomplete s) (c_main s));
  ib_final : match c_main s with
             | MDone r => r = pad_events (c_events s) /\ c_todo s = [] /\
                          Forall (fun w => w = WIdle) (c_workers s)
             | _ => True end
}.

Definition inv (s : csys Th) : Prop := common s /\ (invA s \/ exists t, invB t s).

Lemma map_wake {A} (f : wphase -> A) ws :
  (forall w, f (wake w) = f w) -> map f (map wake ws) = map f ws.
Proof. intros H. rewrite map_map. apply map_ext; auto. Qed.

Lemma map_wake_upd {A} (f : wphase -> A) ws i w :
  (forall w, f (wake w) = f w) -> map f (upd (map wake ws) i w) = map f (upd ws i w).
Proof.
  intros H. revert i; induction ws; destruct i; simpl; auto; f_equal; auto using map_wake.
Qed.

Lemma wblk_wake w : wblk (wake w) = wblk w.
Proof. destruct w; reflexivity. Qed.
Lemma wrem_wake t w : wrem t (wake w) = wrem t w.
Proof. destruct w; reflexivity. Qed.
Lemma pre_w_wake w : pre_w w -> pre_w (wake w).
Proof. destruct w; auto. Qed.

Lemma push_event_ok e p ev e' dn :
  push_event e p ev = Ok e' -> ev_is e dn ->
  0 <= p < Zlen e /\ Zlen e' = Zlen e /\ ev_is e' (dn ++ [(p, ev)]).
Proof.
  unfold push_event. intros H He.
  apply bind_ok in H. destruct H as (l & Hr & Hw).
  apply rd_ok_inv in Hr. destruct Hr as [Hp Hl].
  apply wr_ok_inv in Hw. destruct Hw as [_ ->].
  rewrite Zlen_upd. repeat split; try lia.
  intros q Hq. rewrite Zlen_upd in Hq. rewrite filter_app, map_app. simpl.
  destruct (Z.eqb_spec p q) as [->|Ne].
  - rewrite nth_error_upd_eq by (unfold Zlen in *; lia).
    rewrite He in Hl by lia. injection Hl as <-. reflexivity.
  - rewrite nth_error_upd_neq by lia. rewrite app_nil_r. apply He; auto.
Qed.

Lemma inv_init nw : B = B -> inv (count_init nw B).
Proof.
  intros _. split.
  - constructor; simpl; auto.
    + exists B; auto.
    + unfold Zlen; simpl. apply u32_range.
  - left. constructor; simpl; auto.
    + apply Forall_forall. intros w Hw. apply repeat_spec in Hw. subst; exact I.
    + replace (concat (map wblk (repeat WIdle nw))) with (@nil block).
      * rewrite !app_nil_r. reflexivity.
      * induction nw; simpl; auto.
Qed.

Ltac inv_some := match goal with H : Some _ = Some _ |- _ => injection H as H end.

Lemma step_take i k s s' : inv s -> step (Take i k) s = Some (Ok s') -> inv s'.
Proof.
  intros [C I] H. unfold count_step in H.
  destruct (nth_error (c_workers s) i) as [w|] eqn:Ew; [|discriminate].
  destruct w; try discriminate.
  destruct (nth_error (c_todo s) k) as [b|] eqn:Eb; [|discriminate].
  injection H as <-. split.
  - destruct C; constructor; auto.
  - destruct I as [I|(t & I)]; [left|right; exists t].
    + destruct I; constructor; simpl; auto.
      * apply Forall_upd; simpl; auto.
      * apply nth_error_split_perm in Eb.
        destruct (concat_map_upd wblk _ _ _ Ew) as (R & P1 & P2).
        specialize (P2 (WGot b)). simpl in P1, P2.
        perm_solve block_dec.
    + destruct I as [I1 I2 I3 I4 I5 I6 (dn & D1 & D2 & D3) I8]; constructor; auto.
      * exists dn. simpl. split; auto. split; auto.
        apply nth_error_split_perm in Eb.
        apply (flat_map_perm jb) in Eb. apply (Permutation_map (cnt t)) in Eb.
        simpl in Eb. rewrite map_app in Eb.
        destruct (concat_map_upd (wrem t) _ _ _ Ew) as (R & P1 & P2).
        specialize (P2 (WGot b)). simpl in P1, P2.
        perm_solve item_dec.
      * simpl. destruct (c_main s); auto. destruct I8 as (_ & Htd & _).
        rewrite Htd in Eb. destruct k; discriminate.
Qed.

Lemma set_worker_common s i w : common s -> common (set_worker s i w).
Proof. intros []; constructor; auto. Qed.

(** A worker moves without touching shared data, keeping its pending work. *)
Lemma set_worker_B t s i w w' :
  invB t s -> nth_error (c_workers s) i = Some w -> w <> WIdle ->
  Permutation (wrem t w) (wrem t w') -> invB t (set_worker s i w').
Proof.
  intros [I1 I2 I3 I4 I5 I6 (dn & D1 & D2 & D3) I8] Ew Ni Hp.
  constructor; auto.
  - exists dn. simpl. split; auto. split; auto.
    destruct (concat_map_upd (wrem t) _ _ _ Ew) as (R & P1 & P2). specialize (P2 w').
    perm_solve item_dec.
  - simpl. destruct (c_main s); auto. destruct I8 as (_ & _ & F).
    pose proof (Forall_nth_error _ _ _ _ F Ew). contradiction.
Qed.

Lemma set_worker_A s i w w' :
  invA s -> nth_error (c_workers s) i = Some w ->
  pre_w w' -> wblk w = wblk w' -> invA (set_worker s i w').
Proof.
  intros [I1 I2 I3 I4] Ew Hp Hb. constructor; simpl; auto.
  - apply Forall_upd; auto.
  - destruct (concat_map_upd wblk _ _ _ Ew) as (R & P1 & P2). specialize (P2 w').
    rewrite <- Hb in P2. perm_solve block_dec.
Qed.

Lemma worker_wait_inv s i b w s' :
  common s -> (invA s \/ exists t, invB t s) ->
  nth_error (c_workers s) i = Some w -> (w = WWantLock b \/ w = WAwake b) ->
  worker_wait s i b = Ok s' -> inv s'.
Proof.
  intros C I Ew Hw H. unfold worker_wait in H.
  assert (Hblk : wblk w = [b]) by (destruct Hw; subst; auto).
  assert (Hrem : forall t, wrem t w = map (cnt t) (jb b)) by (intros; destruct Hw; subst; auto).
  assert (Hni : w <> WIdle) by (destruct Hw; subst; discriminate).
  destruct I as [I|(t & I)].
  - rewrite (ia_counting _ I) in H. injection H as <-.
    split; [apply set_worker_common; auto|]. left.
    apply (set_worker_A s i w); simpl; auto.
  - rewrite (ib_counting _ _ I) in H. apply bind_ok in H. destruct H as (jobs & Hj & H).
    injection H as <-. split; [apply set_worker_common; auto|]. right. exists t.
    apply (set_worker_B t s i w); auto. rewrite Hrem. simpl.
    rewrite (block_jobs_jb _ _ Hj). reflexivity.
Qed.

Lemma step_work i s s' : inv s -> step (Work i) s = Some (Ok s') -> inv s'.
Proof.
  intros [C I] H. unfold count_step in H.
  destruct (nth_error (c_workers s) i) as [w|] eqn:Ew; [|discriminate].
  destruct w; simpl in H.
  - discriminate.
  - (* WGot *)
    injection H as H. destruct I as [I|(t & I)].
    + rewrite (ia_counting _ I) in H. injection H as <-.
      split; [apply set_worker_common; auto|]. left. apply (set_worker_A s i _ _ I Ew); simpl; auto.
    + rewrite (ib_counting _ _ I) in H. apply bind_ok in H. destruct H as (jobs & Hj & H).
      injection H as <-. split; [apply set_worker_common; auto|]. right; exists t.
      apply (set_worker_B t s i _ _ I Ew); [discriminate|]. simpl.
      rewrite (block_jobs_jb _ _ Hj). reflexivity.
  - (* WWantLock *)
    destruct (mutex_free s); [|discriminate]. injection H as H.
    destruct (Z.ltb_spec (Zlen (c_samples s)) N) as [Hlt|Hge].
    + apply bind_ok in H. destruct H as (c & Hc & H).
      destruct I as [I|(t & I)]; [|pose proof (ib_len _ _ I); lia].
      destruct I as [I1 I2 I3 I4].
      assert (Ec : is_complete b = c).
      { unfold is_complete. unfold rd in Hc. destruct (complete (hdr b)) as [|c0 ?]; cbn in Hc; [discriminate|].
        congruence. }
      injection H as <-.
      destruct (concat_map_upd wblk _ _ _ Ew) as (R & P1 & P2).
      set (w' := if Zlen (if c then c_samples s ++ [b] else c_samples s) =? N then WNotify else WIdle).
      assert (Hw' : wblk w' = []) by (unfold w'; destruct (_ =? _); auto).
      assert (Hp' : pre_w w') by (unfold w'; destruct (_ =? _); exact Logic.I).
      assert (P : Permutation B (c_todo s ++ concat (map wblk (upd (c_workers s) i w')) ++
          (if c then c_samples s ++ [b] else c_samples s) ++
          (if c then c_incomplete s else c_incomplete s ++ [b]))).
      { specialize (P2 w'). rewrite Hw' in P2. simpl in P1, P2.
        destruct c; perm_solve block_dec. }
      split.
      * destruct C as [C1 C2 C3 C4]. constructor; simpl.
        -- exists (c_todo s ++ concat (map wblk (upd (c_workers s) i w')) ++
                   (if c then c_incomplete s else c_incomplete s ++ [b])).
           clear - P. perm_solve block_dec.
        -- destruct c; auto. apply Forall_app; auto.
        -- destruct c; auto. apply Forall_app; auto.
        -- destruct c; [|lia]. rewrite Zlen_app. change (Zlen [b]) with 1. lia.
      * left. constructor; simpl; auto. apply Forall_upd; auto.
    + apply (worker_wait_inv s i b (WWantLock b)); auto.
  - (* WNotify *)
    injection H as <-. split; [destruct C; constructor; auto|].
    destruct I as [I|(t & I)]; [left|right; exists t].
    + destruct I as [I1 I2 I3 I4]. constructor; simpl; auto.
      * destruct (c_main s); simpl in *; auto.
      * apply Forall_upd; [|exact Logic.I]. clear - I3. induction I3; simpl; auto using pre_w_wake.
      * rewrite map_wake_upd by apply wblk_wake.
        destruct (concat_map_upd wblk _ _ _ Ew) as (R & P1 & P2). specialize (P2 WIdle).
        simpl in P1, P2. perm_solve block_dec.
    + destruct I as [I1 I2 I3 I4 I5 I6 (dn & D1 & D2 & D3) I8]. constructor; simpl; auto.
      * destruct (c_main s); simpl in *; auto.
      * exists dn. split; auto. split; auto. rewrite map_wake_upd by apply wrem_wake.
        destruct (concat_map_upd (wrem t) _ _ _ Ew) as (R & P1 & P2). specialize (P2 WIdle).
        assert (Em : mrem t (c_samples s ++ c_incomplete s)
                  (match c_main s with MAsleep => MAwake | m => m end) =
                  mrem t (c_samples s ++ c_incomplete s) (c_main s)) by (destruct (c_main s); auto).
        rewrite Em. simpl in P1, P2. perm_solve item_dec.
      * destruct (c_main s); auto. destruct I8 as (_ & _ & F).
        pose proof (Forall_nth_error _ _ _ _ F Ew). discriminate.
  - discriminate.
  - (* WAwake *)
    destruct (mutex_free s); [|discriminate]. injection H as H.
    apply (worker_wait_inv s i b (WAwake b)); auto.
  - (* WCount *)
    destruct I as [I|(t & I)].
    { pose proof (Forall_nth_error _ _ _ _ (ia_workers _ I) Ew) as F. destruct F. }
    destruct jobs as [|j rest].
    + injection H as <-. split; [apply set_worker_common; auto|]. right; exists t.
      apply (set_worker_B t s i _ _ I Ew); [discriminate|]. reflexivity.
    + injection H as H. apply bind_ok in H. destruct H as (ev & He & H). injection H as <-.
      split; [apply set_worker_common; auto|]. right; exists t.
      apply (set_worker_B t s i _ _ I Ew); [discriminate|]. simpl.
      unfold count_job in He. rewrite (ib_thr _ _ I) in He.
      unfold cnt at 1. rewrite He. reflexivity.
  - (* WPush *)
    destruct I as [I|(t & I)].
    { pose proof (Forall_nth_error _ _ _ _ (ia_workers _ I) Ew) as F. destruct F. }
    destruct (negb _); [injection H as H; discriminate|].
    destruct (existsb _ _); [discriminate|]. injection H as H.
    assert (s' = set_worker s i (WPushing locked pos ev rest)).
    { destruct (c_main s); try congruence. destruct (_ =? _); congruence. }
    subst s'. split; [apply set_worker_common; auto|]. right; exists t.
    apply (set_worker_B t s i _ _ I Ew); [discriminate|]. reflexivity.
  - (* WPushing *)
    destruct I as [I|(t & I)].
    { pose proof (Forall_nth_error _ _ _ _ (ia_workers _ I) Ew) as F. destruct F. }
    injection H as H. destruct (_ <=? _); [discriminate|]. apply bind_ok in H. destruct H as (e & He & H). injection H as <-.
    split; [destruct C; constructor; auto|]. right; exists t.
    destruct I as [I1 I2 I3 I4 (b0 & B1 & B2) I6 (dn & D1 & D2 & D3) I8].
    destruct (push_event_ok _ _ _ _ _ He D1) as (Hp & HL & D1').
    constructor; simpl; auto.
    + exists b0. simpl. split; auto. rewrite HL. auto.
    + exists (dn ++ [(pos, ev)]). split; auto. split.
      { rewrite HL. apply Forall_app. split; auto. }
      destruct (concat_map_upd (wrem t) _ _ _ Ew) as (R & P1 & P2).
      specialize (P2 (WCount locked rest)). rewrite map_app. simpl in P1, P2 |- *.
      unfold okp at 2. cbn [fst snd].
      perm_solve item_dec.
    + destruct (c_main s); auto. destruct I8 as (_ & _ & F).
      pose proof (Forall_nth_error _ _ _ _ F Ew). discriminate.
Qed.

Lemma set_main_common s m : common s -> common (set_main s m).
Proof. intros []; constructor; auto. Qed.

Lemma set_main_B t s m :
  invB t s -> ~ pre_m m -> (forall r, m <> MDone r) ->
  Permutation (mrem t (c_samples s ++ c_incomplete s) (c_main s))
              (mrem t (c_samples s ++ c_incomplete s) m) ->
  invB t (set_main s m).
Proof.
  intros [I1 I2 I3 I4 I5 I6 (dn & D1 & D2 & D3) I8] Hp Hd Hr. constructor; auto.
  - exists dn. split; auto. split; auto. simpl. rewrite <- Hr. exact D3.
  - simpl. destruct m; auto. exfalso; eapply Hd; eauto.
Qed.

Lemma step_main s s' : inv s -> step MainStep s = Some (Ok s') -> inv s'.
Proof.
  intros [C I] H. unfold count_step, main_step in H.
  assert (CK : main_check thresholds_of nsamples scan_opt s = Some (Ok s') -> pre_m (c_main s) ->
               inv s').
  { clear H. intros H Hm. unfold main_check in H. destruct (mutex_free s); [|discriminate].
    injection H as H.
    destruct I as [I|(t & I)]; [|exfalso; apply (ib_main _ _ I); auto].
    destruct (Z.eqb_spec (Zlen (c_samples s)) N) as [En|Nn].
    - unfold main_thresholds in H.
      apply bind_ok in H. destruct H as (t & Ht & H).
      apply bind_ok in H. destruct H as (b0 & Hb & H). injection H as <-.
      destruct I as [I1 I2 I3 I4].
      split; [destruct C; constructor; auto|]. right; exists t. constructor; simpl; auto.
      + exists b0. simpl. split.
        * apply rd_ok_inv in Hb. destruct Hb as [_ Hb]. exact Hb.
        * rewrite Zlen_repeat. fold (scan_in_effect scan_opt b0).
          rewrite Z2Nat.id; auto. apply u32_range.
      + exists []. split; [|split; auto].
        * intros p Hp. rewrite Zlen_repeat in Hp. simpl.
          rewrite nth_error_repeat by lia. reflexivity.
        * simpl.
          assert (F : forall ws, Forall pre_w ws ->
             concat (map (wrem t) ws) = map (cnt t) (flat_map jb (concat (map wblk ws)))).
          { clear. induction 1 as [|w ws Hw _ IH]; simpl; auto.
            rewrite flat_map_app, map_app, IH. f_equal.
            destruct w; simpl in *; rewrite ?app_nil_r; auto; contradiction. }
          rewrite F by auto. apply (flat_map_perm jb) in I4.
          apply (Permutation_map (cnt t)) in I4.
          rewrite I4. rewrite !flat_map_app, !map_app. reflexivity.
    - injection H as <-. split; [apply set_main_common; auto|]. left.
      destruct I as [I1 I2 I3 I4]. constructor; simpl; auto. }
  destruct (c_main s) eqn:Em; try (apply CK; simpl; auto; fail); clear CK.
  - discriminate.
  - (* MNotify *)
    injection H as <-. split; [destruct C; constructor; auto|].
    destruct I as [I|(t & I)]; [pose proof (ia_main _ I) as X; rewrite Em in X; destruct X|].
    right; exists t.
    destruct I as [I1 I2 I3 I4 I5 I6 (dn & D1 & D2 & D3) I8]. constructor; simpl; auto.
    exists dn. split; auto. split; auto. rewrite map_wake by apply wrem_wake.
    rewrite Em in D3. exact D3.
  - (* MExtra *)
    destruct I as [I|(t & I)]; [pose proof (ia_main _ I) as X; rewrite Em in X; destruct X|].
    destruct jobs as [|j rest]; [destruct blocks as [|b bs]|].
    + injection H as <-. split; [apply set_main_common; auto|]. right; exists t.
      apply set_main_B; auto; [discriminate|]. rewrite Em. reflexivity.
    + injection H as H. apply bind_ok in H. destruct H as (jobs & Hj & H). injection H as <-.
      split; [apply set_main_common; auto|]. right; exists t.
      apply set_main_B; auto; [discriminate|]. rewrite Em. simpl.
      rewrite map_app, (block_jobs_jb _ _ Hj). reflexivity.
    + assert (H' : (let* ev := count_job count s j in Ok (set_main s (MPush (fst j) ev rest blocks))) = Ok s')
        by (destruct blocks; injection H as H; exact H).
      clear H. apply bind_ok in H'. destruct H' as (ev & He & H). injection H as <-.
      split; [apply set_main_common; auto|]. right; exists t.
      apply set_main_B; auto; [discriminate|]. rewrite Em. simpl.
      unfold count_job in He. rewrite (ib_thr _ _ I) in He. unfold cnt at 1. rewrite He. reflexivity.
  - (* MPush *)
    destruct I as [I|(t & I)]; [pose proof (ia_main _ I) as X; rewrite Em in X; destruct X|].
    injection H as H. destruct (negb _); [discriminate|]. destruct (existsb _ _); [discriminate|].
    injection H as <-. split; [apply set_main_common; auto|]. right; exists t.
    apply set_main_B; auto; [discriminate|]. rewrite Em. reflexivity.
  - (* MPushing *)
    destruct I as [I|(t & I)]; [pose proof (ia_main _ I) as X; rewrite Em in X; destruct X|].
    injection H as H. apply bind_ok in H. destruct H as (e & He & H). injection H as <-.
    split; [destruct C; constructor; auto|]. right; exists t.
    destruct I as [I1 I2 I3 I4 (b0 & B1 & B2) I6 (dn & D1 & D2 & D3) I8].
    destruct (push_event_ok _ _ _ _ _ He D1) as (Hp & HL & D1').
    constructor; simpl; auto.
    + exists b0. simpl. split; auto. rewrite HL. auto.
    + exists (dn ++ [(pos, ev)]). split; auto. split.
      { rewrite HL. apply Forall_app. split; auto. }
      rewrite Em in D3. rewrite map_app. simpl in D3 |- *. unfold okp at 2. cbn [fst snd].
      perm_solve item_dec.
  - (* MJoin *)
    destruct I as [I|(t & I)]; [pose proof (ia_main _ I) as X; rewrite Em in X; destruct X|].
    destruct (forallb is_idle (c_workers s)) eqn:Ei; [|discriminate].
    destruct (Z.eqb_spec (Zlen (c_todo s)) 0) as [Et|]; [|discriminate]. injection H as <-.
    split; [apply set_main_common; auto|]. right; exists t.
    destruct I as [I1 I2 I3 I4 I5 I6 (dn & D1 & D2 & D3) I8]. constructor; simpl; auto.
    + exists dn. split; auto. split; auto. rewrite Em in D3. exact D3.
    + split; auto. split.
      * destruct (c_todo s); auto. unfold Zlen in Et. simpl in Et. lia.
      * apply Forall_forall. intros w Hw. rewrite forallb_forall in Ei. apply Ei in Hw.
        destruct w; simpl in Hw; congruence.
  - discriminate.
Qed.

Lemma step_inv c s s' : inv s -> step c s = Some (Ok s') -> inv s'.
Proof.
  destruct c; [apply step_take|apply step_work|apply step_main].
Qed.

Lemma run_inv cs s s' : inv s -> run cs s = Some (Ok s') -> inv s'.
Proof.
  revert s; induction cs as [|c cs IH]; simpl; intros s I H.
  - injection H as <-; auto.
  - destruct (step c s) as [[s1| | |]|] eqn:E; try discriminate.
    apply (IH s1); auto. apply (step_inv c s); auto.
Qed.

End Threaded.
