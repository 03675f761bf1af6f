(** Facts about the NumPy primitives and the expansion of a sparse array. *)
From Coq Require Import String ZArith List Bool Lia Permutation Sorted.
From Verif Require Import Base BaseFacts StemProofs SparseModel SparseSpec.
Import ListNotations.
Open Scope Z_scope.

Lemma np_index_ok n i : 0 <= i < n -> np_index n i = Ok i.
Proof.
  intros H. unfold np_index. destruct (Z.ltb_spec i 0); [lia|].
  destruct (Z.leb_spec 0 i), (Z.ltb_spec i n); try lia. reflexivity.
Qed.

Lemma np_index_inv n i k : np_index n i = Ok k -> 0 <= k < n.
Proof.
  unfold np_index. set (i' := if i <? 0 then i + n else i).
  destruct (Z.leb_spec 0 i'), (Z.ltb_spec i' n); cbn [andb]; try discriminate.
  intros E. injection E as <-. lia.
Qed.

Lemma mapM_ok {A B} (f : A -> outcome B) g l :
  (forall x, In x l -> f x = Ok (g x)) -> mapM f l = Ok (map g l).
Proof.
  induction l as [|x t IH]; intros H; [reflexivity|].
  cbn [mapM map]. rewrite (H x) by now left. cbn [bind].
  rewrite IH by (intros; apply H; now right). reflexivity.
Qed.

Lemma mapM_inv {A B} (f : A -> outcome B) l l' :
  mapM f l = Ok l' -> Forall2 (fun x y => f x = Ok y) l l'.
Proof.
  revert l'. induction l as [|x t IH]; intros l'; cbn [mapM].
  - intros E. injection E as <-. constructor.
  - intros E. apply bind_ok in E as [y [Ey E]]. apply bind_ok in E as [t' [Et E]].
    injection E as <-. constructor; auto.
Qed.

Lemma np_take_ok {A} (a : list A) idx d :
  (forall i, In i idx -> 0 <= i < Zlen a) ->
  np_take a idx = Ok (map (fun i => nth (Z.to_nat i) a d) idx).
Proof.
  intros H. unfold np_take. apply mapM_ok. intros i Hi. apply H in Hi.
  rewrite np_index_ok by lia. cbn [bind]. apply rd_ok. exact Hi.
Qed.

Lemma np_take_zat a idx :
  (forall i, In i idx -> 0 <= i < Zlen a) -> np_take a idx = Ok (map (zat a) idx).
Proof.
  intros H. rewrite (np_take_ok a idx 0 H). f_equal. apply map_ext_in. intros i Hi.
  apply H in Hi. unfold zat. destruct (Z.ltb_spec i 0); [lia|reflexivity].
Qed.

Definition mem (j : Z) (l : list Z) : bool := existsb (Z.eqb j) l.

Lemma mem_in j l : mem j l = true <-> In j l.
Proof.
  unfold mem. rewrite existsb_exists. split.
  - intros [x [Hx E]]. apply Z.eqb_eq in E. now subst.
  - intros H. exists j. split; [exact H|apply Z.eqb_refl].
Qed.

Lemma mem_false j l : mem j l = false <-> ~ In j l.
Proof. rewrite <- mem_in. destruct (mem j l); split; congruence. Qed.

(** Scatter of a function of the index. *)
Lemma np_put_map g idx a :
  (forall i, In i idx -> 0 <= i < Zlen a) ->
  exists a', np_put a idx (map g idx) = Ok a' /\ Zlen a' = Zlen a /\
    forall j, zat a' j = if mem j idx then g j else zat a j.
Proof.
  revert a. induction idx as [|i t IH]; intros a H.
  - exists a. cbn. auto.
  - cbn [map np_put]. rewrite np_index_ok by (apply H; now left). cbn [bind].
    rewrite wr_ok by (apply H; now left). cbn [bind].
    destruct (IH (upd a (Z.to_nat i) (g i))) as [a' [E [L V]]].
    { intros k Hk. rewrite Zlen_upd. apply H. now right. }
    exists a'. rewrite Zlen_upd in L. repeat split; auto.
    intros j. rewrite V. unfold mem. cbn [existsb]. fold (mem j t).
    destruct (mem j t) eqn:M; [now rewrite orb_true_r|]. rewrite orb_false_r.
    specialize (H i (or_introl eq_refl)).
    rewrite zat_upd by lia.
    destruct (Z.eqb_spec j i), (Z.eqb_spec i j); subst; congruence.
Qed.

Lemma np_inc_ok bits a fr :
  (forall x, In x fr -> 0 <= x < Zlen a) ->
  exists a', np_inc bits a fr = Ok a' /\ Zlen a' = Zlen a /\
    forall j, zat a' j = if mem j fr then wrapu bits (zat a j + 1) else zat a j.
Proof.
  intros H. unfold np_inc. rewrite np_take_zat by exact H. cbn [bind].
  rewrite map_map. apply (np_put_map (fun i => wrapu bits (zat a i + 1)) fr a H).
Qed.

Lemma cnt_app l l' j : cnt (l ++ l') j = cnt l j + cnt l' j.
Proof. unfold cnt. rewrite filter_app. apply Zlen_app. Qed.

Lemma cnt_cons x l j : cnt (x :: l) j = (if j =? x then 1 else 0) + cnt l j.
Proof. unfold cnt. cbn [filter]. destruct (j =? x); rewrite ?Zlen_cons; lia. Qed.

Lemma cnt_nonneg l j : 0 <= cnt l j.
Proof. apply Zlen_nonneg. Qed.

Lemma cnt_concat frames j : cnt (concat frames) j = events frames j.
Proof.
  unfold events. induction frames as [|f t IH]; [reflexivity|].
  cbn [concat map zsum]. rewrite cnt_app. lia.
Qed.

Lemma cnt_notin l j : ~ In j l -> cnt l j = 0.
Proof.
  induction l as [|x t IH]; intros H; [reflexivity|]. rewrite cnt_cons.
  destruct (Z.eqb_spec j x); [subst; exfalso; apply H; now left|].
  rewrite IH; [lia|]. intros Hi. apply H. now right.
Qed.

Lemma cnt_pos l j : In j l -> 0 < cnt l j.
Proof.
  induction l as [|x t IH]; intros H; [destruct H|]. rewrite cnt_cons.
  pose proof (cnt_nonneg t j). destruct (Z.eqb_spec j x); [lia|].
  destruct H as [H|H]; [congruence|]. apply IH in H. lia.
Qed.

Lemma cnt_nodup l j : NoDup l -> cnt l j = if mem j l then 1 else 0.
Proof.
  induction 1 as [|x t Hx Hn IH]; [reflexivity|].
  rewrite cnt_cons, IH. unfold mem. cbn [existsb]. fold (mem j t).
  destruct (Z.eqb_spec j x); [subst|destruct (mem j t); reflexivity].
  cbn [orb]. apply mem_false in Hx. rewrite Hx. reflexivity.
Qed.

Lemma events_nonneg frames j : 0 <= events frames j.
Proof. rewrite <- cnt_concat. apply cnt_nonneg. Qed.

Lemma events_app a b j : events (a ++ b) j = events a j + events b j.
Proof. unfold events. now rewrite map_app, zsum_app. Qed.

Lemma events_le frames j :
  (forall fr, In fr frames -> NoDup fr) -> events frames j <= Zlen frames.
Proof.
  unfold events. induction frames as [|f t IH]; intros H; [cbn; lia|].
  cbn [map zsum]. rewrite Zlen_cons. rewrite (cnt_nodup f) by (apply H; now left).
  assert (IH' := IH (fun fr Hf => H fr (or_intror Hf))).
  destruct (mem j f); lia.
Qed.

Lemma wrapu_add bits a b : wrapu bits (wrapu bits a + b) = wrapu bits (a + b).
Proof.
  unfold wrapu. destruct (Z.eq_dec (2 ^ bits) 0) as [E|E].
  - rewrite E. rewrite !Zmod_0_r. reflexivity.
  - now rewrite Zplus_mod_idemp_l.
Qed.

Lemma wrapu_id bits a : 0 <= a < 2 ^ bits -> wrapu bits a = a.
Proof. intros H. unfold wrapu. now apply Z.mod_small. Qed.

(** Raising along a list of frames. *)
Lemma inc_all bits frames a (base : Z -> Z) :
  (forall fr, In fr frames -> frame_ok (Zlen a) fr) ->
  (forall j, zat a j = wrapu bits (base j)) ->
  exists a', for_each frames (fun fr dp => np_inc bits dp fr) a = Ok a' /\
    Zlen a' = Zlen a /\ forall j, zat a' j = wrapu bits (base j + events frames j).
Proof.
  revert a base. induction frames as [|f t IH]; intros a base H Hb.
  - exists a. repeat split; auto. intros j. rewrite Hb. unfold events. cbn. now rewrite Z.add_0_r.
  - cbn [for_each]. destruct (np_inc_ok bits a f) as [a1 [E [L V]]].
    { apply (H f). now left. }
    rewrite E. cbn [bind].
    destruct (IH a1 (fun j => base j + cnt f j)) as [a' [E' [L' V']]].
    { intros fr Hf. rewrite L. apply H. now right. }
    { intros j. rewrite V, Hb, (cnt_nodup f) by (apply (H f); now left).
      destruct (mem j f); [apply wrapu_add|now rewrite Z.add_0_r]. }
    exists a'. repeat split; [exact E'|lia|].
    intros j. rewrite V'. unfold events. cbn [map zsum]. f_equal. lia.
Qed.

Lemma zat_repeat (v : Z) (n : Z) (j : Z) : 0 <= j < n -> zat (repeat v (Z.to_nat n)) j = v.
Proof.
  intros H. unfold zat. destruct (Z.ltb_spec j 0); [lia|].
  apply (repeat_spec (Z.to_nat n) v). apply nth_In. rewrite repeat_length. lia.
Qed.

Lemma np_prod_nonneg s : shape_ok s -> 0 <= np_prod s.
Proof. intros [[n [-> H]]|[n [m [-> [H H']]]]]; cbn [np_prod fold_right]; nia. Qed.

Lemma wf_row sa p : wf sa -> 0 <= p < num_scans sa -> In (row_at sa p) (sp_data sa).
Proof.
  intros W H. unfold row_at. apply nth_In. unfold num_scans in H.
  rewrite <- (wf_len _ W) in H. unfold Zlen in H. lia.
Qed.

Lemma rd_row sa p : wf sa -> 0 <= p < num_scans sa -> rd (sp_data sa) p = Ok (row_at sa p).
Proof.
  intros W H. unfold row_at. apply rd_ok. rewrite (wf_len _ W). exact H.
Qed.

Lemma expand_ok sa p :
  wf sa -> 0 <= p < num_scans sa ->
  expand sa p = Ok (map (events (row_at sa p)) (zseq (frame_size sa))).
Proof.
  intros W H. unfold expand. rewrite rd_row by assumption. cbn [bind].
  assert (HN := np_prod_nonneg _ (wf_frame _ W)). fold (frame_size sa) in HN.
  pose proof (wf_row _ _ W H) as Hr.
  destruct (inc_all (sp_bits sa) (row_at sa p) (repeat 0 (Z.to_nat (frame_size sa))) (fun _ => 0))
    as [a [E [L V]]].
  { intros fr Hf. rewrite Zlen_repeat, Z2Nat.id by exact HN.
    apply (wf_frames _ W (row_at sa p)); assumption. }
  { intros j. rewrite zat_repeat0. unfold wrapu. now rewrite Zmod_0_l. }
  rewrite E. f_equal. rewrite Zlen_repeat, Z2Nat.id in L by exact HN.
  apply list_eq_zat.
  - rewrite L. unfold Zlen. rewrite map_length. symmetry. exact (Zlen_zseq _ HN).
  - intros j Hj. rewrite L in Hj. rewrite zat_map_zseq by lia. rewrite V. apply wrapu_id.
    pose proof (events_nonneg (row_at sa p) j).
    assert (events (row_at sa p) j <= Zlen (row_at sa p)).
    { apply events_le. intros fr Hf. apply (wf_frames _ W (row_at sa p)); assumption. }
    rewrite (wf_rows _ W _ Hr) in *. pose proof (wf_F _ W). lia.
Qed.

(** [np.unique] *)
Definition ukeys (l : list Z) : list Z := map fst (np_unique_counts l).

Fixpoint uget (m : list (Z * Z)) (k : Z) : Z :=
  match m with [] => 0 | (k', c) :: t => if k =? k' then c else uget t k end.

Lemma uc_add_keys k m x : In x (map fst (uc_add k m)) <-> x = k \/ In x (map fst m).
Proof.
  induction m as [|[k' c] t IH]; cbn [uc_add map fst In].
  - split; intros [H|H]; auto.
  - destruct (Z.ltb_spec k k'); [cbn [map fst In]; firstorder|].
    destruct (Z.eqb_spec k k'); [subst; cbn [map fst In]; firstorder|].
    cbn [map fst In]. rewrite IH. firstorder.
Qed.

Lemma uc_add_sorted k m :
  StronglySorted Z.lt (map fst m) -> StronglySorted Z.lt (map fst (uc_add k m)).
Proof.
  induction m as [|[k' c] t IH]; intros H; cbn [uc_add map fst].
  - repeat constructor.
  - cbn [map fst] in H. inversion H as [|? ? Hs Hf]; subst. rewrite Forall_forall in Hf.
    destruct (Z.ltb_spec k k').
    { cbn [map fst]. constructor; [exact H|]. apply Forall_forall. intros x [<-|Hx]; [lia|].
      apply Hf in Hx. lia. }
    destruct (Z.eqb_spec k k'); [exact H|].
    cbn [map fst]. constructor; [now apply IH|]. apply Forall_forall. intros x Hx.
    apply uc_add_keys in Hx as [->|Hx]; [lia|]. now apply Hf.
Qed.

Lemma uc_add_get k m x :
  StronglySorted Z.lt (map fst m) ->
  uget (uc_add k m) x = uget m x + (if x =? k then 1 else 0).
Proof.
  assert (Hout : forall m y, ~ In y (map fst m) -> uget m y = 0).
  { clear. induction m as [|[k' c] t IH]; intros y Hy; [reflexivity|]. cbn [uget].
    destruct (Z.eqb_spec y k'); [subst; exfalso; apply Hy; now left|].
    apply IH. intros Hi. apply Hy. now right. }
  induction m as [|[k' c] t IH]; intros H; cbn [uc_add uget].
  - destruct (x =? k); reflexivity.
  - cbn [map fst] in H. inversion H as [|? ? Hs Hf]; subst. rewrite Forall_forall in Hf.
    destruct (Z.ltb_spec k k').
    { cbn [uget]. destruct (Z.eqb_spec x k); [subst|now rewrite Z.add_0_r].
      destruct (Z.eqb_spec k k'); [lia|]. rewrite Hout; [lia|]. intros Hi. apply Hf in Hi. lia. }
    destruct (Z.eqb_spec k k').
    { subst. cbn [uget]. destruct (Z.eqb_spec x k'); lia. }
    cbn [uget]. destruct (Z.eqb_spec x k'); [destruct (Z.eqb_spec x k); lia|]. now apply IH.
Qed.

Lemma uc_sorted l : StronglySorted Z.lt (ukeys l).
Proof.
  unfold ukeys. induction l as [|x t IH]; cbn; [constructor|]. now apply uc_add_sorted.
Qed.

Lemma sorted_nodup l : StronglySorted Z.lt l -> NoDup l.
Proof.
  induction 1 as [|x t Hs IH Hf]; constructor; auto. intros Hi.
  rewrite Forall_forall in Hf. apply Hf in Hi. lia.
Qed.

Lemma ukeys_nodup l : NoDup (ukeys l).
Proof. apply sorted_nodup, uc_sorted. Qed.

Lemma in_ukeys l x : In x (ukeys l) <-> In x l.
Proof.
  unfold ukeys. induction l as [|y t IH]; [reflexivity|]. cbn [np_unique_counts fold_right].
  rewrite uc_add_keys. fold (np_unique_counts t). rewrite IH. cbn [In]. firstorder.
Qed.

Lemma uc_get l x : uget (np_unique_counts l) x = cnt l x.
Proof.
  induction l as [|y t IH]; [reflexivity|]. cbn [np_unique_counts fold_right].
  fold (np_unique_counts t).
  rewrite uc_add_get by apply (uc_sorted t). rewrite IH, cnt_cons. lia.
Qed.

Lemma uc_eq l : np_unique_counts l = map (fun k => (k, cnt l k)) (ukeys l).
Proof.
  assert (G : forall m, NoDup (map fst m) -> m = map (fun k => (k, uget m k)) (map fst m)).
  { induction m as [|[k c] t IH]; intros H; [reflexivity|].
    cbn [map fst] in *. inversion H as [|? ? Hk Hn]; subst. cbn [uget]. rewrite Z.eqb_refl.
    f_equal. rewrite (IH Hn) at 1. apply map_ext_in. intros x Hx. f_equal.
    destruct (Z.eqb_spec x k); [subst; contradiction|reflexivity]. }
  rewrite (G (np_unique_counts l)) at 1 by apply ukeys_nodup.
  fold (ukeys l). apply map_ext. intros k. now rewrite uc_get.
Qed.

Lemma uc_snd l : map snd (np_unique_counts l) = map (cnt l) (ukeys l).
Proof. rewrite uc_eq, map_map. reflexivity. Qed.
