(** C77: one file holds what was saved to it first. *)
From Coq Require Import String ZArith List Bool Lia.
From Verif Require Import Base PyModel SparseModel SparseSpec SparseFileModel SparseFileSpec
  SparseFileProps StemPyModel SaveModel SaveSpec.
Import ListNotations.
Open Scope list_scope.
Open Scope Z_scope.

(** ** The three parts of a file *)

Definition counts_part (s : store) :=
  (s_version s, s_pos s, (s_nx s, s_ny s), s_frames s, (s_fx s, s_fy s), s_meta s).
Definition raw_part (s : store) := (s_raw s, s_dims s, s_rawpos s).
Definition stem_part (s : store) := (s_stem s, s_names s).

Lemma save_counts_other sa m s :
  raw_part (fst (save_counts sa m s)) = raw_part s /\ stem_part (fst (save_counts sa m s)) = stem_part s.
Proof.
  unfold save_counts, steps, andthen, attr, create, shape_attr. cbn [fst].
  destruct s as [ver pos nx ny fr fx fy me raw di rp st na]; cbn.
  destruct pos; cbn; [split; reflexivity|].
  destruct (sp_scan sa) as [|s0 [|s1 scan]]; try (split; reflexivity).
  destruct fr; [split; reflexivity|].
  destruct (sp_frame sa) as [|f0 [|f1 frame]]; split; reflexivity.
Qed.

Lemma save_raw_other a d p s :
  counts_part (fst (save_raw a d p s)) = counts_part s /\ stem_part (fst (save_raw a d p s)) = stem_part s.
Proof.
  unfold save_raw, steps, andthen, attr, create.
  destruct s as [ver pos nx ny fr fx fy me raw di rp st na]; cbn.
  destruct raw; cbn; [split; reflexivity|].
  destruct d; cbn; (destruct p; cbn; [destruct rp; cbn|]; split; reflexivity).
Qed.

Lemma save_stem_other sh v n s :
  counts_part (fst (save_stem sh v n s)) = counts_part s /\ raw_part (fst (save_stem sh v n s)) = raw_part s.
Proof.
  unfold save_stem, steps, andthen, attr, create.
  destruct (negb _); [split; reflexivity|].
  destruct s as [ver pos nx ny fr fx fy me raw di rp st na]; cbn.
  destruct st; cbn; split; reflexivity.
Qed.

(** ** What one call does to its own part *)

Lemma save_counts_again sa m s : s_pos s <> None ->
  exists msg, save_counts sa m s = (set_version (Some 3) s, Throw msg).
Proof.
  intros H. unfold save_counts, steps, andthen, attr, create. cbn [s_pos set_version].
  destruct (s_pos s); [|congruence]. eexists. reflexivity.
Qed.

Lemma save_counts_pos sa m s : s_pos (fst (save_counts sa m s)) <> None.
Proof.
  destruct (s_pos s) eqn:E.
  - assert (N : s_pos s <> None) by congruence.
    destruct (save_counts_again sa m s N) as [msg ->]. cbn. congruence.
  - unfold save_counts, steps, andthen, attr, create, shape_attr.
    destruct s as [ver pos nx ny fr fx fy me raw di rp st na]; cbn in *. subst pos. cbn.
    destruct (sp_scan sa) as [|s0 [|s1 scan]]; try discriminate.
    destruct fr; [discriminate|].
    destruct (sp_frame sa) as [|f0 [|f1 frame]]; discriminate.
Qed.

Lemma save_counts_fails sa m s : s_pos s <> None \/ (List.length (sp_scan sa) < 2)%nat \/
  (List.length (sp_frame sa) < 2)%nat -> exists msg, snd (save_counts sa m s) = Throw msg.
Proof.
  intros H. destruct (s_pos s) eqn:E.
  - assert (N : s_pos s <> None) by congruence.
    destruct (save_counts_again sa m s N) as [msg ->]. now exists msg.
  - destruct H as [H|H]; [congruence|].
    unfold save_counts, steps, andthen, attr, create, shape_attr.
    destruct s as [ver pos nx ny fr fx fy me raw di rp st na]; cbn in *. subst pos. cbn.
    destruct (sp_scan sa) as [|s0 [|s1 scan]]; cbn; try (eexists; reflexivity).
    destruct fr; cbn; [eexists; reflexivity|].
    destruct (sp_frame sa) as [|f0 [|f1 frame]]; cbn; try (eexists; reflexivity).
    cbn in H. exfalso. lia.
Qed.

Lemma save_counts_first sa m s : s_pos s = None -> s_frames s = None ->
  (2 <= List.length (sp_scan sa))%nat -> (2 <= List.length (sp_frame sa))%nat ->
  exists s0 s1 scan f0 f1 frame, sp_scan sa = s0 :: s1 :: scan /\ sp_frame sa = f0 :: f1 :: frame /\
  snd (save_counts sa m s) = Ok tt /\
  counts_part (fst (save_counts sa m s)) =
    (Some 3, Some (zseq (num_scans sa)), (Some s1, Some s0),
     Some (map (map u32) (concat (sp_data sa))), (Some f0, Some f1),
     Some (save_dict (MDict m) (match s_meta s with Some g => g | None => Group [] [] end))).
Proof.
  intros E F Ls Lf. unfold save_counts, steps, andthen, attr, create, shape_attr.
  destruct s as [ver pos nx ny fr fx fy me raw di rp st na]; cbn in *. subst pos fr. cbn.
  destruct (sp_scan sa) as [|s0 [|s1 scan]]; cbn in Ls; try lia.
  destruct (sp_frame sa) as [|f0 [|f1 frame]]; cbn in Lf; try lia.
  cbn. do 6 eexists. repeat split.
Qed.

Lemma save_raw_again a d p s : s_raw s <> None -> exists msg, save_raw a d p s = (s, Throw msg).
Proof.
  intros H. unfold save_raw, steps, andthen, create. destruct (s_raw s); [|congruence].
  eexists. reflexivity.
Qed.

Lemma save_raw_first a d p s : s_raw s = None -> s_rawpos s = None -> s_dims s = None ->
  snd (save_raw a d p s) = Ok tt /\
  raw_part (fst (save_raw a d p s)) = (Some (nd_copy a), d, p).
Proof.
  intros E F G. unfold save_raw, steps, andthen, attr, create.
  destruct s as [ver pos nx ny fr fx fy me raw di rp st na]; cbn in *. subst raw rp di. cbn.
  destruct d, p; split; reflexivity.
Qed.

Lemma save_stem_unnamed sh v n s : fst (fst sh) <> Zlen n ->
  exists msg, save_stem sh v n s = (s, Throw msg).
Proof.
  intros H. unfold save_stem. destruct (Z.eqb_spec (fst (fst sh)) (Zlen n)); [contradiction|].
  eexists. reflexivity.
Qed.

Lemma save_stem_again sh v n s : s_stem s <> None -> exists msg, save_stem sh v n s = (s, Throw msg).
Proof.
  intros H. unfold save_stem. destruct (negb _); [eexists; reflexivity|].
  unfold steps, andthen, create. destruct (s_stem s); [|congruence]. eexists. reflexivity.
Qed.

Lemma save_stem_first sh v n s : s_stem s = None -> fst (fst sh) = Zlen n ->
  snd (save_stem sh v n s) = Ok tt /\ stem_part (fst (save_stem sh v n s)) = (Some (sh, v), Some n).
Proof.
  intros E H. unfold save_stem. rewrite H, Z.eqb_refl. cbn [negb].
  unfold steps, andthen, create. rewrite E. cbn. split; reflexivity.
Qed.

(** ** Histories *)

Lemma history_app a b s : history (a ++ b) s =
  (fst (history b (fst (history a s))), snd (history a s) ++ snd (history b (fst (history a s)))).
Proof.
  revert s. induction a as [|c a IH]; intros s; cbn [history app].
  - cbn. now destruct (history b s).
  - destruct (do_save c s) as [s1 e]. rewrite IH.
    destruct (history a s1) as [s2 es]. cbn. reflexivity.
Qed.

Lemma history_length cs s : List.length (snd (history cs s)) = List.length cs.
Proof.
  revert s. induction cs as [|c cs IH]; intros s; cbn [history]; [reflexivity|].
  destruct (do_save c s) as [s1 e]. specialize (IH s1). destruct (history cs s1). cbn in *. now rewrite IH.
Qed.

Lemma history_cons c cs s : fst (history (c :: cs) s) = fst (history cs (fst (do_save c s))).
Proof. cbn [history]. destruct (do_save c s) as [s1 e]. cbn. now destruct (history cs s1). Qed.

Lemma history_result before c after s :
  nth_error (snd (history (before ++ c :: after) s)) (List.length before) =
  Some (snd (do_save c (fst (history before s)))).
Proof.
  rewrite history_app. cbn [snd]. rewrite nth_error_app2 by (rewrite history_length; lia).
  rewrite history_length, Nat.sub_diag. cbn [history].
  destruct (do_save c (fst (history before s))) as [s1 e]. now destruct (history after s1).
Qed.

Lemma counts_never cs s : never is_counts cs -> counts_part (fst (history cs s)) = counts_part s.
Proof.
  revert s. induction cs as [|c cs IH]; intros s N; [reflexivity|].
  rewrite history_cons, IH by (intros x Hx; apply N; now right).
  destruct c as [sa m|a d p|sh v n]; cbn [do_save].
  - exfalso. apply (N (SaveCounts sa m)); [now left|]. now exists sa, m.
  - apply save_raw_other.
  - apply save_stem_other.
Qed.

Lemma part_pos s s' : counts_part s' = counts_part s -> s_pos s' = s_pos s /\ s_version s' = s_version s /\
  s_frames s' = s_frames s /\ s_meta s' = s_meta s.
Proof. unfold counts_part. intros [= A B C D E F]. auto. Qed.

Lemma counts_keep cs s : s_version s = Some 3 -> s_pos s <> None ->
  counts_part (fst (history cs s)) = counts_part s.
Proof.
  revert s. induction cs as [|c cs IH]; intros s V P; [reflexivity|].
  rewrite history_cons.
  assert (X : counts_part (fst (do_save c s)) = counts_part s).
  { destruct c as [sa m|a d p|sh v n]; cbn [do_save].
    - destruct (save_counts_again sa m s P) as [msg ->]. cbn. unfold counts_part. cbn. now rewrite V.
    - apply save_raw_other.
    - apply save_stem_other. }
  destruct (part_pos _ _ X) as (A & B & _). rewrite IH; [exact X|congruence|congruence].
Qed.

Lemma pos_stays cs s : s_pos s <> None -> s_pos (fst (history cs s)) <> None.
Proof.
  revert s. induction cs as [|c cs IH]; intros s P; [exact P|].
  rewrite history_cons. apply IH. destruct c as [sa m|a d p|sh v n]; cbn [do_save].
  - apply save_counts_pos.
  - destruct (part_pos _ _ (proj1 (save_raw_other a d p s))) as (-> & _). exact P.
  - destruct (part_pos _ _ (proj1 (save_stem_other sh v n s))) as (-> & _). exact P.
Qed.

Lemma raw_never cs s : never is_raw cs -> raw_part (fst (history cs s)) = raw_part s.
Proof.
  revert s. induction cs as [|c cs IH]; intros s N; [reflexivity|].
  rewrite history_cons, IH by (intros x Hx; apply N; now right).
  destruct c as [sa m|a d p|sh v n]; cbn [do_save].
  - apply save_counts_other.
  - exfalso. apply (N (SaveRaw a d p)); [now left|]. now exists a, d, p.
  - apply save_stem_other.
Qed.

Lemma raw_keep cs s : s_raw s <> None -> raw_part (fst (history cs s)) = raw_part s.
Proof.
  revert s. induction cs as [|c cs IH]; intros s P; [reflexivity|].
  rewrite history_cons.
  assert (X : raw_part (fst (do_save c s)) = raw_part s).
  { destruct c as [sa m|a d p|sh v n]; cbn [do_save].
    - apply save_counts_other.
    - now destruct (save_raw_again a d p s P) as [msg ->].
    - apply save_stem_other. }
  rewrite IH; [exact X|]. unfold raw_part in X. congruence.
Qed.

Lemma stem_never cs s : never is_named_stem cs -> stem_part (fst (history cs s)) = stem_part s.
Proof.
  revert s. induction cs as [|c cs IH]; intros s N; [reflexivity|].
  rewrite history_cons, IH by (intros x Hx; apply N; now right).
  destruct c as [sa m|a d p|sh v n]; cbn [do_save].
  - apply save_counts_other.
  - apply save_raw_other.
  - destruct (Z.eq_dec (fst (fst sh)) (Zlen n)) as [E|E].
    + exfalso. apply (N (SaveStem sh v n)); [now left|].
      destruct sh as [[a b] c]. now exists a, b, c, v, n.
    + now destruct (save_stem_unnamed sh v n s E) as [msg ->].
Qed.

Lemma stem_keep cs s : s_stem s <> None -> stem_part (fst (history cs s)) = stem_part s.
Proof.
  revert s. induction cs as [|c cs IH]; intros s P; [reflexivity|].
  rewrite history_cons.
  assert (X : stem_part (fst (do_save c s)) = stem_part s).
  { destruct c as [sa m|a d p|sh v n]; cbn [do_save].
    - apply save_counts_other.
    - apply save_raw_other.
    - now destruct (save_stem_again sh v n s P) as [msg ->]. }
  rewrite IH; [exact X|]. unfold stem_part in X. congruence.
Qed.

(** The parts after the first call of their kind. *)

Lemma counts_after cs sa m : first is_counts cs (SaveCounts sa m) -> in_order (SaveCounts sa m) ->
  exists s0 s1 scan f0 f1 frame, sp_scan sa = s0 :: s1 :: scan /\ sp_frame sa = f0 :: f1 :: frame /\
  counts_part (fst (history cs empty_store)) =
    (Some 3, Some (zseq (num_scans sa)), (Some s1, Some s0),
     Some (map (map u32) (concat (sp_data sa))), (Some f0, Some f1),
     Some (save_dict (MDict m) (Group [] []))).
Proof.
  intros (before & after & -> & _ & N) [Ls Lf]. rewrite history_app. cbn [fst].
  set (s := fst (history before empty_store)).
  assert (X : counts_part s = counts_part empty_store) by (apply counts_never; exact N).
  destruct (part_pos _ _ X) as (A & B & C & D). cbn in A, B, C, D.
  destruct (save_counts_first sa m s A C Ls Lf) as (s0 & s1 & scan & f0 & f1 & frame & E1 & E2 & Eo & E).
  rewrite D in E. exists s0, s1, scan, f0, f1, frame. split; [exact E1|]. split; [exact E2|].
  rewrite history_cons. cbn [do_save]. rewrite counts_keep; [exact E| |].
  - unfold counts_part in E. congruence.
  - unfold counts_part in E. congruence.
Qed.

Lemma raw_after cs a d p : first is_raw cs (SaveRaw a d p) ->
  raw_part (fst (history cs empty_store)) = (Some (nd_copy a), d, p).
Proof.
  intros (before & after & -> & _ & N). rewrite history_app. cbn [fst].
  set (s := fst (history before empty_store)).
  assert (X : raw_part s = raw_part empty_store) by (apply raw_never; exact N).
  unfold raw_part in X. cbn in X. injection X as X1 X2 X3.
  destruct (save_raw_first a d p s X1 X3 X2) as [_ E].
  rewrite history_cons. cbn [do_save]. rewrite raw_keep; [exact E|].
  unfold raw_part in E. congruence.
Qed.

Lemma stem_after cs sh v n : first is_named_stem cs (SaveStem sh v n) ->
  stem_part (fst (history cs empty_store)) = (Some (sh, v), Some n).
Proof.
  intros (before & after & -> & (a & b & c & v' & n' & E & Hn) & N). injection E as -> -> ->.
  rewrite history_app. cbn [fst].
  set (s := fst (history before empty_store)).
  assert (X : stem_part s = stem_part empty_store) by (apply stem_never; exact N).
  unfold stem_part in X. cbn in X. injection X as X1 X2.
  destruct (save_stem_first (a, b, c) v' n' s X1 Hn) as [_ E].
  rewrite history_cons. cbn [do_save]. rewrite stem_keep; [exact E|].
  unfold stem_part in E. congruence.
Qed.

Lemma first_or_never P cs : (forall c, P c \/ ~ P c) -> (exists c, first P cs c) \/ never P cs.
Proof.
  intros D. induction cs as [|c cs IH]; [right; intros x []|].
  destruct (D c) as [Hc|Hc].
  - left. exists c, [], cs. split; [reflexivity|]. split; [exact Hc|]. intros x [].
  - destruct IH as [(c' & before & after & -> & Hc' & N)|N].
    + left. exists c', (c :: before), after. split; [reflexivity|]. split; [exact Hc'|].
      intros x [<-|Hx]; [exact Hc|now apply N].
    + right. intros x [<-|Hx]; [exact Hc|now apply N].
Qed.

Lemma is_counts_dec c : is_counts c \/ ~ is_counts c.
Proof. destruct c; [left; repeat eexists|right..]; intros (? & ? & ?); discriminate. Qed.

Lemma is_raw_dec c : is_raw c \/ ~ is_raw c.
Proof. destruct c; [right|left; repeat eexists|right]; intros (? & ? & ? & ?); discriminate. Qed.

Lemma is_stem_dec c : is_named_stem c \/ ~ is_named_stem c.
Proof.
  destruct c as [sa m|a d p|[[a b] c] v n]; [right; intros (? & ? & ? & ? & ? & ? & _); discriminate..|].
  destruct (Z.eq_dec a (Zlen n)) as [E|E].
  - left. now exists a, b, c, v, n.
  - right. intros (a' & b' & c' & v' & n' & X & Hn). injection X as -> -> -> -> ->. contradiction.
Qed.

Lemma counts_taken before : ~ never is_counts before ->
  s_pos (fst (history before empty_store)) <> None.
Proof.
  intros N. destruct (first_or_never is_counts before is_counts_dec) as [(c & b & a & -> & (sa & m & ->) & _)|H]; [|contradiction].
  rewrite history_app. cbn [fst]. rewrite history_cons. apply pos_stays, save_counts_pos.
Qed.

(** ** The theorems *)

(** A call of a history on a new file succeeds exactly if its arguments are in
    order and no earlier call has taken its place; otherwise it raises. *)
Theorem C77_results cs k c : nth_error cs k = Some c ->
  exists e, nth_error (snd (history cs empty_store)) k = Some e /\
    (e = Ok tt \/ exists msg, e = Throw msg) /\
    (e = Ok tt <-> in_order c /\ forall j c', (j < k)%nat -> nth_error cs j = Some c' -> ~ occupies c' c).
Proof.
  intros H. apply nth_error_split in H as (before & after & -> & <-).
  exists (snd (do_save c (fst (history before empty_store)))). split; [apply history_result|].
  set (s := fst (history before empty_store)).
  assert (B : forall (P : save -> Prop), (forall j c', (j < List.length before)%nat ->
              nth_error (before ++ c :: after) j = Some c' -> ~ P c') <-> never P before).
  { intros P. split.
    - intros Hj x Hx. apply In_nth_error in Hx as [j Hj']. assert (j < List.length before)%nat by (apply nth_error_Some; congruence).
      apply (Hj j x); [assumption|]. now rewrite nth_error_app1.
    - intros N j c' L E. rewrite nth_error_app1 in E by exact L. apply N. exact (nth_error_In _ _ E). }
  rewrite (B (fun c' => occupies c' c)). clear B.
  assert (OK : forall (G : Prop) e, (e = Ok tt /\ G) \/ ((exists msg, e = Throw msg) /\ ~ G) ->
             (e = Ok tt \/ exists msg, e = Throw msg) /\ (e = @Ok unit tt <-> G)).
  { intros G e [[-> HG]|[[msg ->] HG]]; (split; [eauto|]); split; auto; try discriminate; contradiction. }
  destruct c as [sa m|a d p|sh v n]; cbn [do_save in_order]; apply OK.
  - assert (O : never (fun c' => occupies c' (SaveCounts sa m)) before <-> never is_counts before).
    { split; intros N x Hx Px; apply (N x Hx).
      - left. split; [exact Px|]. now exists sa, m.
      - destruct Px as [[Px _]|[[_ (? & ? & ? & E)]|[_ (? & ? & ? & ? & ? & E & _)]]]; [exact Px|discriminate..]. }
    rewrite O. destruct (first_or_never is_counts before is_counts_dec) as [(c0 & F)|N].
    + right. assert (N : ~ never is_counts before).
      { intros N. destruct F as (b & a & -> & Hc & _). apply (N c0); [apply in_app_iff; right; now left|exact Hc]. }
      split; [|tauto]. apply save_counts_fails. left. now apply counts_taken.
    + destruct (part_pos _ _ (counts_never before empty_store N)) as (A & _ & C & _). fold s in A, C. cbn in A, C.
      destruct (Nat.lt_ge_cases (List.length (sp_scan sa)) 2) as [L1|L1];
        [right; split; [apply save_counts_fails; auto|lia]|].
      destruct (Nat.lt_ge_cases (List.length (sp_frame sa)) 2) as [L2|L2];
        [right; split; [apply save_counts_fails; auto|lia]|].
      left. destruct (save_counts_first sa m s A C L1 L2) as (? & ? & ? & ? & ? & ? & _ & _ & E & _). auto.
  - assert (O : never (fun c' => occupies c' (SaveRaw a d p)) before <-> never is_raw before).
    { split; intros N x Hx Px; apply (N x Hx).
      - right. left. split; [exact Px|]. now exists a, d, p.
      - destruct Px as [[_ (? & ? & E)]|[[Px _]|[_ (? & ? & ? & ? & ? & E & _)]]]; [discriminate|exact Px|discriminate]. }
    rewrite O. destruct (first_or_never is_raw before is_raw_dec) as [(c0 & F)|N].
    + right. assert (N : ~ never is_raw before).
      { intros N. destruct F as (b & a' & -> & Hc & _). apply (N c0); [apply in_app_iff; right; now left|exact Hc]. }
      split; [|tauto]. destruct F as (b & a' & Ebef & (a0 & d0 & p0 & ->) & Nb).
      assert (R : s_raw s <> None).
      { pose proof (raw_after before a0 d0 p0) as RA. unfold raw_part in RA. fold s in RA.
        assert (X : first is_raw before (SaveRaw a0 d0 p0)) by (exists b, a'; repeat split; auto; now exists a0, d0, p0).
        specialize (RA X). congruence. }
      destruct (save_raw_again a d p s R) as [msg ->]. now exists msg.
    + pose proof (raw_never before empty_store N) as X. fold s in X. unfold raw_part in X. cbn in X.
      injection X as X1 X2 X3. left. destruct (save_raw_first a d p s X1 X3 X2) as [E _]. auto.
  - destruct (Z.eq_dec (fst (fst sh)) (Zlen n)) as [En|En].
    + assert (I : is_named_stem (SaveStem sh v n)) by (destruct sh as [[x y] z]; now exists x, y, z, v, n).
      assert (O : never (fun c' => occupies c' (SaveStem sh v n)) before <-> never is_named_stem before).
      { split; intros N x Hx Px; apply (N x Hx).
        - right. right. now split.
        - destruct Px as [[_ (? & ? & E)]|[[_ (? & ? & ? & E)]|[Px _]]]; [discriminate|discriminate|exact Px]. }
      rewrite O. destruct (first_or_never is_named_stem before is_stem_dec) as [(c0 & F)|N].
      * right. assert (N : ~ never is_named_stem before).
        { intros N. destruct F as (b & a' & -> & Hc & _). apply (N c0); [apply in_app_iff; right; now left|exact Hc]. }
        split; [|tauto].
        assert (R : s_stem s <> None).
        { assert (exists sh0 v0 n0, c0 = SaveStem sh0 v0 n0) as (sh0 & v0 & n0 & ->).
          { destruct F as (b & a' & _ & (x & y & z & v0 & n0 & -> & _) & _). now exists (x, y, z), v0, n0. }
          pose proof (stem_after before sh0 v0 n0 F) as RA. unfold stem_part in RA. fold s in RA. congruence. }
        destruct (save_stem_again sh v n s R) as [msg ->]. now exists msg.
      * pose proof (stem_never before empty_store N) as X. fold s in X. unfold stem_part in X. cbn in X.
        injection X as X1 X2. left. destruct (save_stem_first sh v n s X1 En) as [E _]. auto.
    + right. destruct (save_stem_unnamed sh v n s En) as [msg ->]. split; [now exists msg|]. tauto.
Qed.

(** After any history of saves of any kind, load_electron_counts returns the
    counted array that was saved first, with its metadata. *)
Theorem C77_counts cs sa m h w fh fw bits slicing full :
  first is_counts cs (SaveCounts sa m) ->
  wf sa -> sp_scan sa = [h; w] -> sp_frame sa = [fh; fw] -> 0 < h * w ->
  frame_size sa <= 2 ^ 32 -> meta_ok (MDict m) ->
  exists m', load_counts (fst (history cs empty_store)) true bits slicing full =
      Ok (mkSparse (sp_data sa) (sp_F sa) [h; w] [fh; fw] bits slicing full, m') /\
    forall path, look path (MDict m') = look path (MDict m).
Proof.
  intros F W Hs Hf HP HN Hm.
  destruct (counts_after cs sa m F) as (s0 & s1 & scan & f0 & f1 & frame & E1 & E2 & E).
  { cbn. rewrite Hs, Hf. cbn. lia. }
  rewrite Hs in E1. injection E1 as <- <- <-. rewrite Hf in E2. injection E2 as <- <- <-.
  destruct (C41_round_trip sa h w fh fw m bits slicing full W Hs Hf HP HN Hm) as (f & m' & Ew & Er & L).
  exists m'. split; [|exact L]. rewrite Hs, Hf in Er. rewrite <- Er.
  unfold write_to_hdf5 in Ew. rewrite Hs, Hf in Ew. injection Ew as <-.
  unfold counts_part in E. injection E as A1 A2 A3 A4 A5 A6 A7 A8.
  unfold load_counts. now rewrite A1, A2, A3, A4, A5, A6, A7, A8.
Qed.

(** Without one, it raises. *)
Theorem C77_no_counts cs keep bits slicing full : never is_counts cs ->
  load_counts (fst (history cs empty_store)) keep bits slicing full = Throw "KeyError".
Proof.
  intros N. pose proof (counts_never cs empty_store N) as E. unfold counts_part in E.
  injection E as A1 A2 A3 A4 A5 A6 A7 A8. unfold load_counts. now rewrite A5.
Qed.

(** The reader of the file gives the raw data saved first, at the positions saved
    with them or in order; the scan is the one saved with them, or else that of
    the STEM images saved first, or else there is an exception. *)
Theorem C77_raw cs a d p : first is_raw cs (SaveRaw a d p) ->
  let numbers := match p with Some l => l | None => zseq (nd_count a) end in
  let reader scan := new_pyreader (nd_copy a) numbers scan 32 (nd_count a) in
  match d with
  | Some scan => raw_reader (fst (history cs empty_store)) = reader scan
  | None =>
      (forall n hh ww v names, first is_named_stem cs (SaveStem (n, hh, ww) v names) ->
         raw_reader (fst (history cs empty_store)) = reader (ww, hh)) /\
      (never is_named_stem cs ->
         exists msg, raw_reader (fst (history cs empty_store)) = Throw msg)
  end.
Proof.
  intros F numbers reader. pose proof (raw_after cs a d p F) as R. unfold raw_part in R.
  injection R as R1 R2 R3.
  assert (C : nd_count (nd_copy a) = nd_count a).
  { unfold nd_copy. now destruct (nd_strides a) as [[x y] z]. }
  destruct d as [scan|].
  - unfold raw_reader, get_hdf5_reader, raw_file. cbn. rewrite R1, R2, R3. cbn. now rewrite C.
  - split.
    + intros n hh ww v names FS. pose proof (stem_after cs _ _ _ FS) as S. unfold stem_part in S.
      injection S as S1 S2. unfold raw_reader, get_hdf5_reader, raw_file. cbn.
      rewrite R1, R2, R3, S1. cbn. now rewrite C.
    + intros N. pose proof (stem_never cs empty_store N) as S. unfold stem_part in S. cbn in S.
      injection S as S1 S2. unfold raw_reader, get_hdf5_reader, raw_file. cbn.
      rewrite R1, R2, S1. cbn. eexists. reflexivity.
Qed.

(** The STEM images in the file and their names are those saved first. *)
Theorem C77_stem cs sh v names : first is_named_stem cs (SaveStem sh v names) ->
  s_stem (fst (history cs empty_store)) = Some (sh, v) /\
  s_names (fst (history cs empty_store)) = Some names.
Proof.
  intros F. pose proof (stem_after cs sh v names F) as S. unfold stem_part in S.
  injection S as S1 S2. auto.
Qed.

(** What can be loaded from a file of the present version stays what it is under
    any later saves, also those that raise. *)
Theorem C77_stays s cs keep bits slicing full : s_version s = Some 3 -> s_pos s <> None ->
  load_counts (fst (history cs s)) keep bits slicing full = load_counts s keep bits slicing full.
Proof.
  intros V P. pose proof (counts_keep cs s V P) as E. unfold counts_part in E.
  injection E as A1 A2 A3 A4 A5 A6 A7 A8. unfold load_counts.
  now rewrite A1, A2, A3, A4, A5, A6, A7, A8.
Qed.

(** ** Findings *)

(** Not so for a file of an older version: a save that raises has already set the
    version, and the old events are then read by the rules of the new one.  Here
    the frames of two positions change places. *)
Definition old_file : store :=
  mkStore (Some 2) (Some [1; 0]) (Some 2) (Some 1) (Some [[3]; [5]]) (Some 2) (Some 3) None
    None None None None None.

Theorem C77_old_file_refuted : exists sa before after,
  in_order (SaveCounts sa []) /\
  load_counts old_file true 32 true true = Ok (before, []) /\
  snd (save_counts sa [] old_file) = Throw "ValueError: name already exists" /\
  load_counts (fst (save_counts sa [] old_file)) true 32 true true = Ok (after, []) /\
  sp_data before = [[[5]]; [[3]]] /\ sp_data after = [[[3]]; [[5]]].
Proof.
  exists (mkSparse [[[0]]] 1 [1; 1] [1; 1] 32 true true). do 2 eexists.
  split; [cbn; lia|]. repeat split.
Qed.

(** A save of an array with a one-dimensional scan raises, but takes the place:
    afterwards the file can neither be loaded nor be given any counted array. *)
Theorem C77_flat_scan_refuted sa m n cs keep bits slicing full : sp_scan sa = [n] ->
  let s := fst (history (SaveCounts sa m :: cs) empty_store) in
  load_counts s keep bits slicing full = Throw "KeyError" /\
  forall sa' m', exists msg, snd (save_counts sa' m' s) = Throw msg.
Proof.
  intros Hs s. assert (E : counts_part (fst (save_counts sa m empty_store)) =
    (Some 3, Some (zseq (num_scans sa)), (None, None), None, (None, None), None)).
  { unfold save_counts, steps, andthen, attr, create, shape_attr. cbn. rewrite Hs. reflexivity. }
  assert (X : counts_part s = counts_part (fst (save_counts sa m empty_store))).
  { unfold s. rewrite history_cons. cbn [do_save]. apply counts_keep; unfold counts_part in E; congruence. }
  rewrite E in X. unfold counts_part in X. injection X as A1 A2 A3 A4 A5 A6 A7 A8.
  split; [unfold load_counts; now rewrite A5|].
  intros sa' m'. apply save_counts_fails. left. congruence.
Qed.

(** ** Example: everything in one file, some of it twice. *)
Definition ex_sa : sparse := mkSparse [[[1; 4]]; [[]]] 1 [1; 2] [2; 3] 32 true true.
Definition ex_raw : ndarray := mkNd [1; 2; 3; 4] 0 (2, 1, 2) (2, 2, 1).
Definition ex_history : list save :=
  [SaveStem (2, 1, 2) [7; 8; 9; 10] ["a"%string]; SaveRaw ex_raw None (Some [1; 0]);
   SaveCounts ex_sa [(5, MLeaf 6)]; SaveStem (2, 1, 2) [7; 8; 9; 10] ["a"; "b"]%string;
   SaveRaw ex_raw (Some (9, 9)) None; SaveCounts ex_sa []; SaveStem (0, 1, 1) [] []].

Example ex_first : first is_counts ex_history (SaveCounts ex_sa [(5, MLeaf 6)]) /\
  first is_raw ex_history (SaveRaw ex_raw None (Some [1; 0])) /\
  first is_named_stem ex_history (SaveStem (2, 1, 2) [7; 8; 9; 10] ["a"; "b"]%string).
Proof.
  split; [|split].
  - exists (firstn 2 ex_history), (skipn 3 ex_history). split; [reflexivity|].
    split; [now exists ex_sa, [(5, MLeaf 6)]|].
    intros x [<-|[<-|[]]] (? & ? & E); discriminate.
  - exists (firstn 1 ex_history), (skipn 2 ex_history). split; [reflexivity|].
    split; [now exists ex_raw, None, (Some [1; 0])|].
    intros x [<-|[]] (? & ? & ? & E); discriminate.
  - exists (firstn 3 ex_history), (skipn 4 ex_history). split; [reflexivity|].
    split; [now exists 2, 1, 2, [7; 8; 9; 10], ["a"; "b"]%string|].
    intros x [<-|[<-|[<-|[]]]] (? & ? & ? & ? & ? & E & Hn); [|discriminate..].
    injection E as <- <- <- <- <-. discriminate.
Qed.

Example ex_results :
  map (fun e => match e with Ok _ => true | _ => false end) (snd (history ex_history empty_store))
  = [false; true; true; true; false; false; false] /\
  (let* r := raw_reader (fst (history ex_history empty_store)) in Ok (py_scan r, py_numbers r))
  = Ok ((2, 1), [1; 0]) /\
  load_counts (fst (history ex_history empty_store)) true 32 true true = Ok (ex_sa, [(5, MLeaf 6)]).
Proof. split; [|split]; reflexivity. Qed.

Print Assumptions C77_results.
Print Assumptions C77_counts.
Print Assumptions C77_no_counts.
Print Assumptions C77_raw.
Print Assumptions C77_stem.
Print Assumptions C77_stays.
Print Assumptions C77_old_file_refuted.
Print Assumptions C77_flat_scan_refuted.
