(** Identifiers: a small program logic that counts the open ones. *)
From Coq Require Import String ZArith List Bool Lia Permutation.
From Verif Require Import Base H5LibModel H5WrapModel H5WrapSpec.
Import ListNotations.
Open Scope Z_scope.

Definition ids := list (Z * hkind).
Definition inv (I : ids) (s : world) : Prop :=
  Permutation (open_ids s) I /\ NoDup (map fst (open_ids s)) /\ 1 <= w_next s /\
  (forall e, In e (open_ids s) -> 1 <= fst e < w_next s) /\ m_off s = false.
Definition frame (s s' : world) : Prop :=
  m_file s' = m_file s /\ w_handler s' = w_handler s /\ w_fault s' = w_fault s.

Definition close_error (w : string) : bool :=
  String.eqb w "identifier closed that is not open" || String.eqb w "identifier of another kind closed".

Definition triple {A} (I : ids) (m : prog A) (Q : A -> ids -> Prop) : Prop :=
  forall s, inv I s ->
  match m s with
  | Ok (a, s') => (exists J, Q a J /\ inv J s') /\ frame s s'
  | UB w => close_error w = false
  | _ => False
  end.

Definition own (id : Z) (k : hkind) (I : ids) : ids := if 0 <=? id then (id, k) :: I else I.

Lemma frame_refl s : frame s s.
Proof. repeat split. Qed.

Lemma frame_trans s1 s2 s3 : frame s1 s2 -> frame s2 s3 -> frame s1 s3.
Proof. intros (A & B & C) (D & E & F). repeat split; congruence. Qed.

Lemma inv_perm I J s : Permutation I J -> inv I s -> inv J s.
Proof. intros P (H & R). split; [now rewrite H|exact R]. Qed.

Lemma t_ret {A} I (a : A) (Q : A -> ids -> Prop) : Q a I -> triple I (ret a) Q.
Proof. intros H s Hs. cbn. split; [exists I; auto|apply frame_refl]. Qed.

Lemma t_undefined {A} I w (Q : A -> ids -> Prop) : close_error w = false -> triple I (undefined w) Q.
Proof. intros H s Hs. exact H. Qed.

Lemma t_bind {A B} I (m : prog A) (k : A -> prog B) R Q :
  triple I m R -> (forall a J, R a J -> triple J (k a) Q) -> triple I (pbind m k) Q.
Proof.
  intros Hm Hk s Hs. specialize (Hm s Hs). unfold pbind. destruct (m s) as [[a s1]| | |]; cbn [bind]; try exact Hm.
  destruct Hm as ((J & HR & HJ) & F). specialize (Hk a J HR s1 HJ). destruct (k a s1) as [[b s2]| | |]; try exact Hk.
  destruct Hk as (E & F2). split; [exact E|]. eapply frame_trans; eassumption.
Qed.

Lemma t_conseq {A} I I' (m : prog A) (Q Q' : A -> ids -> Prop) :
  triple I m Q -> Permutation I I' -> (forall a J, Q a J -> exists J', Permutation J J' /\ Q' a J') -> triple I' m Q'.
Proof.
  intros H P HQ s Hs. specialize (H s (inv_perm _ _ _ (Permutation_sym P) Hs)).
  destruct (m s) as [[a s1]| | |]; try exact H. destruct H as ((J & HJ & HI) & F). split; [|exact F].
  destruct (HQ a J HJ) as (J' & PJ & HJ'). exists J'. split; [exact HJ'|]. eapply inv_perm; eassumption.
Qed.

Lemma inv_set_clock I c s : inv I s -> inv I (set_clock c s).
Proof. intros H. exact H. Qed.

(** Calls that leave the identifiers alone. *)
Lemma t_get I (Q : world -> ids -> Prop) : (forall s, Q s I) -> triple I get Q.
Proof. intros H s Hs. cbn. split; [exists I; auto|apply frame_refl]. Qed.

Lemma t_call {A} I (bad : A) f (Q : A -> ids -> Prop) : (forall a, Q a I) -> triple I (call bad f) Q.
Proof.
  intros H s Hs. unfold call. destruct (w_fault s (w_clock s)); (split; [exists I; split; [apply H|exact Hs]|repeat split]).
Qed.

Lemma t_change I f (Q : Z -> ids -> Prop) : (forall a, Q a I) ->
  (forall s s', f s = Some s' -> open_ids s' = open_ids s /\ w_next s' = w_next s /\ m_off s' = m_off s /\ frame s s') ->
  triple I (change f) Q.
Proof.
  intros H Hf s Hs. unfold change. destruct (w_fault s (w_clock s)); [split; [exists I; split; [apply H|exact Hs]|repeat split]|].
  destruct (f (set_clock (w_clock s + 1) s)) as [s2|] eqn:E; [|split; [exists I; split; [apply H|exact Hs]|repeat split]].
  destruct (Hf _ _ E) as (E1 & E2 & E3 & E4). split; [|exact E4]. exists I. split; [apply H|].
  unfold inv. rewrite E1, E2, E3. exact Hs.
Qed.

Lemma t_open I f k : (forall s o, f s = Some o -> hkind_of o = k) ->
  triple I (open_id f) (fun id J => J = own id k I /\ id <> 0).
Proof.
  intros Hk s Hs. unfold open_id. destruct (w_fault s (w_clock s)).
  { split; [|repeat split]. eexists. split; [split; [reflexivity|lia]|]. exact Hs. }
  destruct (f s) as [o|] eqn:E; [|split; [|repeat split]; eexists; split; [split; [reflexivity|lia]|exact Hs]].
  split; [|repeat split]. destruct Hs as (P & N & L & B & M). eexists. split; [split; [reflexivity|lia]|].
  unfold own. rewrite (proj2 (Z.leb_le 0 (w_next s))) by lia.
  unfold inv, open_ids, set_next, set_live. cbn [w_live w_next m_off map fst snd].
  fold (open_ids s). rewrite (Hk s o E). repeat split.
  - now apply Permutation_cons.
  - constructor; [|exact N]. intros C. apply in_map_iff in C as (e & E1 & E2). specialize (B e E2). lia.
  - lia.
  - destruct H as [<-|H]; cbn; [lia|]. specialize (B e H). lia.
  - destruct H as [<-|H]; cbn; [lia|]. specialize (B e H). lia.
  - exact M.
Qed.

Lemma find_live (l : list (Z * hobj)) id k :
  NoDup (map fst (map (fun e => (fst e, hkind_of (snd e))) l)) ->
  In (id, k) (map (fun e => (fst e, hkind_of (snd e))) l) ->
  exists o, find (fun e => fst e =? id) l = Some (id, o) /\ hkind_of o = k.
Proof.
  induction l as [|[i o] l IH]; cbn [map fst snd find]; intros N H; [destruct H|].
  inversion N as [|? ? N1 N2]; subst. destruct H as [E|H].
  - injection E as -> Ek. rewrite Z.eqb_refl. eauto.
  - destruct (i =? id) eqn:E; [|apply IH; assumption]. apply Z.eqb_eq in E. subst. exfalso. apply N1.
    apply in_map_iff. exists (id, k). auto.
Qed.

Lemma filter_perm (l : list (Z * hobj)) id k J :
  NoDup (map fst (map (fun e => (fst e, hkind_of (snd e))) l)) ->
  Permutation (map (fun e => (fst e, hkind_of (snd e))) l) ((id, k) :: J) ->
  Permutation (map (fun e => (fst e, hkind_of (snd e))) (filter (fun e => negb (fst e =? id)) l)) J.
Proof.
  intros N P.
  assert (G : forall l', ~ In id (map fst l') -> filter (fun e : Z * hobj => negb (fst e =? id)) l' = l').
  { induction l' as [|[i o] l' IH]; intros H; [reflexivity|]. cbn [filter fst]. destruct (i =? id) eqn:E.
    - apply Z.eqb_eq in E. subst. exfalso. apply H. now left.
    - cbn. f_equal. apply IH. intros C. apply H. now right. }
  revert J P. induction l as [|[i o] l IH]; intros J P.
  - apply Permutation_nil in P. discriminate.
  - cbn [map fst snd filter] in *. inversion N as [|? ? N1 N2]; subst. destruct (i =? id) eqn:E.
    + apply Z.eqb_eq in E. subst i. cbn [negb]. rewrite G.
      * assert (hkind_of o = k).
        { assert (In (id, k) ((id, hkind_of o) :: map (fun e => (fst e, hkind_of (snd e))) l)) by (rewrite P; now left).
          destruct H as [H|H]; [congruence|]. exfalso. apply N1. apply in_map_iff. exists (id, k). auto. }
        subst k. eapply Permutation_cons_inv. exact P.
      * intros C. apply N1. rewrite map_map. exact C.
    + cbn [negb map fst snd]. assert (H : In (i, hkind_of o) J).
      { assert (H : In (i, hkind_of o) ((id, k) :: J)) by (rewrite <- P; now left). destruct H as [H|H]; [|exact H].
        injection H as -> _. now rewrite Z.eqb_refl in E. }
      destruct (in_split _ _ H) as (J1 & J2 & ->). apply Permutation_cons_app. apply IH; [exact N2|].
      apply (Permutation_cons_inv (a := (i, hkind_of o))). rewrite P. rewrite perm_swap. apply perm_skip. symmetry. apply Permutation_middle.
Qed.

Lemma t_close I J k id (Q : unit -> ids -> Prop) : Permutation I ((id, k) :: J) -> Q tt J -> triple I (close_id k id) Q.
Proof.
  intros P H s (PI & N & L & B & M). unfold close_id, lookup.
  destruct (find_live (w_live s) id k N) as (o & -> & Ek).
  { change (In (id, k) (open_ids s)). rewrite PI, P. now left. }
  cbn [snd]. destruct (hkind_dec (hkind_of o) k) as [_|C]; [|contradiction].
  split; [|repeat split]. exists J. split; [exact H|].
  assert (Sub : forall e, In e (open_ids (set_live (filter (fun e => negb (fst e =? id)) (w_live s)) (set_clock (w_clock s + 1) s))) -> In e (open_ids s)).
  { intros e He. unfold open_ids in *. cbn [w_live set_live set_clock] in He. apply in_map_iff in He as (x & <- & Hx). apply filter_In in Hx as [Hx _].
    apply in_map_iff. eauto. }
  repeat split.
  - apply (filter_perm _ _ k); [exact N|]. change (Permutation (open_ids s) ((id, k) :: J)). now rewrite PI.
  - unfold open_ids. cbn [w_live set_live set_clock]. unfold open_ids in N. rewrite map_map in *. cbn [fst] in *.
    clear - N. induction (w_live s) as [|e l IH]; [constructor|]. cbn [map filter] in *. inversion N; subst.
    destruct (negb (fst e =? id)); [|auto]. cbn [map]. constructor; [|auto]. intros C. apply H1.
    apply in_map_iff in C as (x & <- & Hx). apply filter_In in Hx as [Hx _]. apply in_map_iff. eauto.
  - exact L.
  - apply B, Sub, H0.
  - apply B, Sub, H0.
  - exact M.
Qed.

(** The scope of a closer. *)
Lemma t_with {A} I k id (body : prog A) (Q : A -> ids -> Prop) :
  triple I body (fun r J => exists J', Permutation J (own id k J') /\ Q r J') ->
  triple I (with_id k id body) Q.
Proof.
  intros H. unfold with_id. eapply t_bind; [exact H|]. cbn beta. intros r J (J' & P & HQ). unfold own in P.
  destruct (0 <=? id).
  - eapply t_bind; [eapply (t_close J J' k id (fun _ X => X = J')); [exact P|reflexivity]|]. intros _ ? ->. now apply t_ret.
  - eapply t_conseq; [|symmetry; exact P|intros a X HX; exists X; split; [reflexivity|exact HX]].
    eapply t_bind; [apply (t_ret J' tt (fun _ X => X = J')); reflexivity|]. intros _ ? ->. now apply t_ret.
Qed.

(** ** The calls of the library *)
Lemma t_open_tree I f k g : (forall s o, f s = Some o -> hkind_of o = k) ->
  (forall id s, open_ids (g id s) = open_ids s /\ w_next (g id s) = w_next s /\ m_off (g id s) = m_off s /\ frame s (g id s)) ->
  triple I (fun s => let* (id, s1) := open_id f s in Ok (id, g id s1)) (fun id J => J = own id k I /\ id <> 0).
Proof.
  intros Hk Hg s Hs. pose proof (t_open I f k Hk s Hs) as H. destruct (open_id f s) as [[id s1]| | |]; cbn [bind]; try exact H.
  destruct H as ((J & HJ & HI) & F). destruct (Hg id s1) as (E1 & E2 & E3 & E4). split; [|eapply frame_trans; eassumption].
  exists J. split; [exact HJ|]. unfold inv. rewrite E1, E2, E3. exact HI.
Qed.

Lemma t_open' I f k : (forall s o, f s = Some o -> hkind_of o = k) ->
  triple I (open_id f) (fun id J => J = own id k I /\ id <> 0).
Proof. exact (t_open I f k). Qed.

Ltac kind := intros; repeat match goal with
  | H : context [guard ?b _] |- _ => unfold guard in H
  | H : context [match ?x with _ => _ end] |- _ => destruct x eqn:?; try discriminate
  end; try match goal with H : Some _ = Some _ |- _ => injection H as <- end; reflexivity.

Lemma t_Gopen I f p : triple I (H5Gopen f p) (fun id J => J = own id CGroup I /\ id <> 0).
Proof. apply t_open. kind. Qed.
Lemma t_Dopen I f p : triple I (H5Dopen f p) (fun id J => J = own id CData I /\ id <> 0).
Proof. apply t_open. kind. Qed.
Lemma t_Aopen I f p n : triple I (H5Aopen_by_name f p n) (fun id J => J = own id CAttr I /\ id <> 0).
Proof. apply t_open. kind. Qed.
Lemma t_Aget_type I a : triple I (H5Aget_type a) (fun id J => J = own id CType I /\ id <> 0).
Proof. apply t_open. kind. Qed.
Lemma t_Dget_type I a : triple I (H5Dget_type a) (fun id J => J = own id CType I /\ id <> 0).
Proof. apply t_open. kind. Qed.
Lemma t_Dget_space I a : triple I (H5Dget_space a) (fun id J => J = own id CSpace I /\ id <> 0).
Proof. apply t_open. kind. Qed.
Lemma t_Screate I d : triple I (H5Screate_simple d) (fun id J => J = own id CSpace I /\ id <> 0).
Proof. apply t_open. kind. Qed.
Lemma t_Pcreate I : triple I H5Pcreate (fun id J => J = own id CPlist I /\ id <> 0).
Proof. apply t_open. kind. Qed.
Lemma t_Tcopy I t : triple I (H5Tcopy t) (fun id J => J = own id CType I /\ id <> 0).
Proof. apply t_open. kind. Qed.

Ltac tree := intros; repeat match goal with |- context [if ?b then _ else _] => destruct b | |- context [match ?b with _ => _ end] => destruct b end; repeat split.
Lemma t_Gcreate I f p : triple I (H5Gcreate f p) (fun id J => J = own id CGroup I /\ id <> 0).
Proof. unfold H5Gcreate. refine (t_open_tree I _ CGroup (fun id s1 => if 0 <=? id then set_tree (w_tree s1 ++ [mkObj p KGroup []]) s1 else s1) _ _); [kind|tree]. Qed.
Lemma t_Dcreate I g n t sp pl : triple I (H5Dcreate g n t sp pl) (fun id J => J = own id CData I /\ id <> 0).
Proof.
  intros s Hs. refine (t_open_tree I _ CData (fun id s1 => if 0 <=? id then dcreate_tree t (dcreate_ok g n sp pl s) s1 else s1) _ _ s Hs).
  - intros s0 o H. destruct (dcreate_ok g n sp pl s0) as [[? ?]|]; [|discriminate]. injection H as <-. reflexivity.
  - unfold dcreate_tree. tree.
Qed.
Lemma t_Acreate I g n t sp : triple I (H5Acreate2 g n t sp) (fun id J => J = own id CAttr I /\ id <> 0).
Proof.
  intros s Hs. refine (t_open_tree I _ CAttr (fun id s1 => if 0 <=? id then acreate_tree n t (acreate_ok g n sp s) s1 else s1) _ _ s Hs).
  - intros s0 o H. destruct (acreate_ok g n sp s0) as [[? ?]|]; [|discriminate]. injection H as <-. reflexivity.
  - unfold acreate_tree. tree.
Qed.

(** Changes of what an identifier stands for. *)
Lemma live_map_ids (l : list (Z * hobj)) id o :
  (forall x, In x l -> fst x = id -> hkind_of (snd x) = hkind_of o) ->
  map (fun e => (fst e, hkind_of (snd e))) (map (fun e => if fst e =? id then (id, o) else e) l) =
  map (fun e => (fst e, hkind_of (snd e))) l.
Proof.
  induction l as [|[i x] l IH]; intros H; [reflexivity|]. cbn [map fst snd]. rewrite IH by (intros; apply H; [now right|assumption]).
  f_equal. destruct (i =? id) eqn:E; cbn [fst snd]; [|reflexivity]. apply Z.eqb_eq in E. subst. f_equal. symmetry. apply (H (id, x)); [now left|reflexivity].
Qed.

Lemma live_change I s id o o' : inv I s -> lookup s id = Some o -> hkind_of o' = hkind_of o ->
  open_ids (set_live (map (fun e => if fst e =? id then (id, o') else e) (w_live s)) s) = open_ids s.
Proof.
  intros (P & N & _) L K. unfold open_ids. cbn [w_live set_live]. apply live_map_ids. intros x Hx E.
  unfold lookup in L. rewrite K. assert (In (fst x, hkind_of (snd x)) (open_ids s)) by (unfold open_ids; apply in_map_iff; eauto).
  destruct (find_live (w_live s) (fst x) (hkind_of (snd x)) N H) as (o2 & F & <-). rewrite E in F. rewrite F in L. now injection L as ->.
Qed.

Lemma t_change_inv I f (Q : Z -> ids -> Prop) : (forall a, Q a I) ->
  (forall s s', inv I s -> f s = Some s' -> open_ids s' = open_ids s /\ w_next s' = w_next s /\ m_off s' = m_off s /\ frame s s') ->
  triple I (change f) Q.
Proof.
  intros H Hf s Hs. unfold change. destruct (w_fault s (w_clock s)); [split; [exists I; split; [apply H|exact Hs]|repeat split]|].
  destruct (f (set_clock (w_clock s + 1) s)) as [s2|] eqn:E; [|split; [exists I; split; [apply H|exact Hs]|repeat split]].
  destruct (Hf _ _ (inv_set_clock _ _ _ Hs) E) as (E1 & E2 & E3 & E4). split; [|exact E4]. exists I. split; [apply H|].
  unfold inv. rewrite E1, E2, E3. exact Hs.
Qed.

Lemma t_fail I (Q : Z -> ids -> Prop) : (forall a, Q a I) -> triple I (change (fun _ => None)) Q.
Proof. intros H. apply t_change; [exact H|discriminate]. Qed.

Lemma t_Tset I id (Q : Z -> ids -> Prop) : (forall a, Q a I) -> triple I (H5Tset_variable id) Q.
Proof.
  intros H. apply t_change_inv; [exact H|]. intros s s' Hs E. unfold type_of in E. destruct (lookup s id) as [[]|] eqn:L; try discriminate.
  destruct t; try discriminate. injection E as <-. split; [eapply live_change; [exact Hs|exact L|reflexivity]|repeat split].
Qed.

Lemma t_Pset I id c (Q : Z -> ids -> Prop) : (forall a, Q a I) -> triple I (H5Pset_chunk id c) Q.
Proof.
  intros H. apply t_change_inv; [exact H|]. intros s s' Hs E. destruct (lookup s id) as [[]|] eqn:L; try discriminate.
  unfold guard in E. destruct (forallb _ _); [|discriminate]. injection E as <-. split; [eapply live_change; [exact Hs|exact L|reflexivity]|repeat split].
Qed.

Lemma t_select I id a b c (Q : Z -> ids -> Prop) : (forall x, Q x I) -> triple I (H5Sselect_hyperslab id a b c) Q.
Proof.
  intros H s Hs. unfold H5Sselect_hyperslab. destruct (space_of s id) as [[d sel]|] eqn:L; [|exact (t_fail I Q H s Hs)].
  destruct a as [|a0 a]; [exact (t_fail I Q H s Hs)|]. destruct (_ || _ || _)%bool; [reflexivity|].
  unfold change. destruct (w_fault s (w_clock s)); [split; [exists I; split; [apply H|exact Hs]|repeat split]|].
  unfold guard. destruct (forallb _ _); [|split; [exists I; split; [apply H|exact Hs]|repeat split]].
  split; [|repeat split]. exists I. split; [apply H|].
  unfold space_of in L. destruct (lookup s id) as [[]|] eqn:E; try discriminate.
  set (s1 := set_clock (w_clock s + 1) s). unfold inv. rewrite (live_change I s1 id (HSpace dims sel0)); [exact Hs|exact Hs|exact E|reflexivity].
Qed.

Lemma t_Awrite I a buf (Q : Z -> ids -> Prop) : (forall x, Q x I) -> triple I (H5Awrite a buf) Q.
Proof.
  intros H s Hs. unfold H5Awrite. destruct (lookup s a) as [[]|]; try exact (t_fail I Q H s Hs). destruct buf as [l|]; [|exact (t_fail I Q H s Hs)].
  destruct (attr_at s p n) as [x|]; [|exact (t_fail I Q H s Hs)]. destruct (_ <? _); [reflexivity|].
  refine (t_change I _ Q H _ s Hs). intros s1 s2 E. unfold guard in E. destruct (negb _); [|discriminate]. injection E as <-. repeat split.
Qed.

Lemma t_Dwrite I a m f buf (Q : Z -> ids -> Prop) : (forall x, Q x I) -> triple I (H5Dwrite a m f buf) Q.
Proof.
  intros H s Hs. unfold H5Dwrite. destruct (transfer s a m f) as [[p idx]|]; [|exact (t_fail I Q H s Hs)]. destruct (_ <? _); [reflexivity|].
  refine (t_change I _ Q H _ s Hs). intros s1 s2 E. unfold guard in E. destruct (negb _); [|discriminate]. injection E as <-. repeat split.
Qed.

(** ** The functions of the wrapper *)
Definition keeps {A} (m : prog A) : Prop := forall I, triple I m (fun _ J => J = I).

Lemma k_valid : keeps file_is_valid.
Proof. intros I. unfold file_is_valid. eapply t_bind; [apply (t_get I (fun _ J => J = I)); reflexivity|]. intros s ? ->. now apply t_ret. Qed.

Lemma perm_here id k J : Permutation (own id k J) (own id k J).
Proof. reflexivity. Qed.
Lemma perm_next id k J a l X : Permutation X (own id k J) -> Permutation (own a l X) (own id k (own a l J)).
Proof.
  intros P. unfold own in *. destruct (0 <=? a), (0 <=? id); try exact P.
  - rewrite P. apply perm_swap.
  - now apply perm_skip.
Qed.
Lemma own_neg id k I : (id <? 0) = true -> own id k I = I.
Proof. intros H. apply Z.ltb_lt in H. unfold own. destruct (0 <=? id) eqn:E; [apply Z.leb_le in E; lia|reflexivity]. Qed.
Lemma own_neg' id k I : (id <? 0) = true -> Permutation I (own id k I).
Proof. intros H. now rewrite own_neg. Qed.

(** The end of nested scopes: give the identifiers back in any order. *)
Ltac give := first
  [ reflexivity
  | solve [rewrite !own_neg by assumption; reflexivity]
  | eexists; split; [solve [repeat first [apply perm_here | apply perm_next] | apply own_neg'; assumption]|give] ].

Ltac t1 := match goal with
  | |- triple _ (ret _) _ => apply t_ret; give
  | |- triple _ (undefined _) _ => apply t_undefined; reflexivity
  | |- triple _ (with_id _ _ _) _ => apply t_with
  | |- triple ?I get _ => apply (t_get I (fun _ J => J = I)); reflexivity
  | |- triple ?I (call _ _) _ => apply (t_call I _ _ (fun _ J => J = I)); reflexivity
  | |- triple ?I (H5Oget_info_by_name _ _) _ => apply (t_call I _ _ (fun _ J => J = I)); reflexivity
  | |- triple ?I (H5Gget_num_objs _) _ => apply (t_call I _ _ (fun _ J => J = I)); reflexivity
  | |- triple ?I (H5Gget_objname_by_idx _ _) _ => apply (t_call I _ _ (fun _ J => J = I)); reflexivity
  | |- triple ?I (H5Ovisit _) _ => apply (t_call I _ _ (fun _ J => J = I)); reflexivity
  | |- triple ?I (H5Aexists_by_name _ _ _) _ => apply (t_call I _ _ (fun _ J => J = I)); reflexivity
  | |- triple ?I (H5Aread _) _ => apply (t_call I _ _ (fun _ J => J = I)); reflexivity
  | |- triple ?I (H5Tequal _ _) _ => apply (t_call I _ _ (fun _ J => J = I)); reflexivity
  | |- triple ?I (H5Tget _) _ => apply (t_call I _ _ (fun _ J => J = I)); reflexivity
  | |- triple ?I (H5Sget_simple_extent_ndims _) _ => apply (t_call I _ _ (fun _ J => J = I)); reflexivity
  | |- triple ?I (H5Sget_simple_extent_dims _) _ => apply (t_call I _ _ (fun _ J => J = I)); reflexivity
  | |- triple ?I (H5Dread _ _ _) _ => apply (t_call I _ _ (fun _ J => J = I)); reflexivity
  | |- triple ?I (H5Tset_variable _) _ => apply (t_Tset I _ (fun _ J => J = I)); reflexivity
  | |- triple ?I (H5Pset_chunk _ _) _ => apply (t_Pset I _ _ (fun _ J => J = I)); reflexivity
  | |- triple ?I (H5Sselect_hyperslab _ _ _ _) _ => apply (t_select I _ _ _ _ (fun _ J => J = I)); reflexivity
  | |- triple ?I (H5Awrite _ _) _ => apply (t_Awrite I _ _ (fun _ J => J = I)); reflexivity
  | |- triple ?I (H5Dwrite _ _ _ _) _ => apply (t_Dwrite I _ _ _ _ (fun _ J => J = I)); reflexivity
  | |- triple _ (H5Gopen _ _) _ => apply t_Gopen
  | |- triple _ (H5Dopen _ _) _ => apply t_Dopen
  | |- triple _ (H5Aopen_by_name _ _ _) _ => apply t_Aopen
  | |- triple _ (H5Aget_type _) _ => apply t_Aget_type
  | |- triple _ (H5Dget_type _) _ => apply t_Dget_type
  | |- triple _ (H5Dget_space _) _ => apply t_Dget_space
  | |- triple _ (H5Screate_simple _) _ => apply t_Screate
  | |- triple _ H5Pcreate _ => apply t_Pcreate
  | |- triple _ (H5Tcopy _) _ => apply t_Tcopy
  | |- triple _ (H5Gcreate _ _) _ => apply t_Gcreate
  | |- triple _ (H5Dcreate _ _ _ _ _) _ => apply t_Dcreate
  | |- triple _ (H5Acreate2 _ _ _ _) _ => apply t_Acreate
  | |- triple _ file_is_valid _ => apply k_valid
  | H : keeps ?m |- triple _ ?m _ => apply H
  | |- triple _ (pbind _ _) _ => eapply t_bind; [t1|cbn beta; intros ? ? ?; repeat match goal with H : _ /\ _ |- _ => destruct H end; subst]
  | |- triple _ (let _ := _ in _) _ => cbv zeta
  | |- triple _ (match ?x with _ => _ end) _ => destruct x eqn:?
  end.
Ltac trip := repeat t1.

Lemma k_exists p n : keeps (attribute_exists p n).
Proof. intros I. unfold attribute_exists. trip. Qed.
Lemma k_info p : keeps (get_info p).
Proof. intros I. unfold get_info. trip. Qed.

Lemma k_has p : keeps (has_attribute p).
Proof. pose proof (k_info p). intros I. unfold has_attribute. trip. Qed.

Lemma inv_eq I s s' : inv I s -> open_ids s' = open_ids s -> w_next s' = w_next s -> m_off s' = false -> inv I s'.
Proof. intros (A & B & C & D & E) E1 E2 E3. unfold inv. rewrite E1, E2. auto. Qed.

Lemma k_object d p : keeps (is_object d p).
Proof.
  intros I s Hs. unfold is_object. pose proof Hs as (_ & _ & _ & _ & Off).
  unfold turn_off_errors, turn_on_errors, pbind, get, modify, ret, H5Eget_auto, H5Eset_auto, modify. cbn [bind]. rewrite Off. cbn [bind].
  unfold get_info, file_is_valid, pbind, get, ret. cbn [bind m_file set_off set_handler set_saved].
  destruct (0 <=? m_file s); cbn [bind].
  - unfold H5Oget_info_by_name, call. cbn [w_fault w_clock set_off set_handler set_saved].
    destruct (w_fault s (w_clock s)); cbn [bind m_off set_clock set_off].
    + split; [|repeat split]. exists I. split; [reflexivity|apply (inv_eq I s); [exact Hs|reflexivity..]].
    + match goal with |- context [guard ?a ?b] => destruct (guard a b) as [[x y]|] end; cbn [bind m_off set_clock set_off];
        (split; [|repeat split]; exists I; split; [reflexivity|apply (inv_eq I s); [exact Hs|reflexivity..]]).
  - split; [|repeat split]. exists I. split; [reflexivity|apply (inv_eq I s); [exact Hs|reflexivity..]].
Qed.

Lemma k_same ty t : keeps (same_type ty t).
Proof. intros I. unfold same_type. trip. Qed.

Lemma k_attribute t p n : keeps (attribute t p n).
Proof.
  pose proof (k_exists p n). intros I. unfold attribute.
  eapply t_bind; [t1|]. intros e ? ->. destruct e; [|trip].
  eapply t_bind; [t1|]. intros s ? ->. eapply t_bind; [t1|]. intros a ? (-> & _). eapply t_bind; [t1|]. intros ty ? (-> & _).
  pose proof (k_same ty t). trip.
Qed.

Lemma k_attribute_string p n : keeps (attribute_string p n).
Proof. pose proof (k_exists p n). intros I. unfold attribute_string. trip. Qed.

Lemma k_find ty l : keeps (find_dtype ty l).
Proof. induction l as [|[t d] l IH]; intros I; cbn [find_dtype]; [trip|]. trip. Qed.

(** A balanced part inside of scopes. *)
Lemma t_keeps {A} I (m : prog A) (Q : A -> ids -> Prop) : keeps m -> (forall a, Q a I) -> triple I m Q.
Proof.
  intros K H. eapply t_conseq; [apply K|reflexivity|]. intros a J ->. exists I. split; [reflexivity|apply H].
Qed.

Lemma k_attribute_type p n : keeps (attribute_type p n).
Proof.
  pose proof (k_exists p n). intros I. unfold attribute_type. trip; apply t_keeps; try apply k_find; intros; give.
Qed.

Lemma t_parent I p : triple I (open_parent p) (fun r J => J = own (fst r) (snd r) I).
Proof. pose proof (k_object true p). intros. unfold open_parent, is_data_set. trip. Qed.

Lemma k_set_attribute t p n vals : keeps (set_attribute t p n vals).
Proof.
  intros I. unfold set_attribute. t1. destruct a; [|trip]. eapply t_bind; [apply t_parent|]. intros [parent k] ? ->. cbn [fst snd]. trip.
Qed.

(** The copied type stays open. *)
Lemma t_set_attribute_string I p n x :
  triple I (set_attribute_string p n x) (fun _ J => exists id, J = own id CType I).
Proof.
  intros. unfold set_attribute_string. t1. destruct a; [|apply t_ret; exists (-1); reflexivity].
  eapply t_bind; [apply t_parent|]. intros [parent k] ? ->. cbn [fst snd].
  apply t_with. eapply t_bind; [t1|]. intros space ? (-> & _). apply t_with. eapply t_bind; [t1|]. intros ty ? (-> & _).
  assert (G : forall A (a : A), exists J', Permutation (own ty CType (own space CSpace (own parent k I))) (own space CSpace J') /\
     (exists J'', Permutation J' (own parent k J'') /\ exists id, J'' = own id CType I)).
  { intros. eexists. split; [apply perm_next, perm_here|]. eexists. split; [apply perm_next, perm_here|]. eauto. }
  eapply t_bind; [t1|]. cbn beta. intros st ? ->. destruct (st <? 0); [apply t_ret, (G bool false)|].
  eapply t_bind; [t1|]. intros a ? (-> & _). destruct (a <? 0) eqn:E; [rewrite own_neg by exact E; apply t_ret, (G bool false)|].
  apply t_with. eapply t_bind; [t1|]. cbn beta. intros r ? ->. apply t_ret. eexists. split; [apply perm_here|]. apply (G bool true).
Qed.

Lemma k_write t p n dims buf : keeps (write_data t p n dims buf).
Proof. intros I. unfold write_data. trip. Qed.

Lemma k_create t p n dims chunk : keeps (create_data_set t p n dims chunk).
Proof.
  intros I. unfold create_data_set. t1. destruct a; [|trip]. t1. t1.
  eapply (t_bind _ _ _ (fun dcpl J => J = own (if dcpl =? 0 then -1 else dcpl) CPlist (own a0 CGroup I))).
  { destruct chunk; [apply t_ret; reflexivity|]. eapply t_bind; [t1|]. intros id ? (-> & N). eapply t_bind; [t1|]. cbn beta. intros _ ? ->.
    apply t_ret. apply Z.eqb_neq in N. now rewrite N. }
  cbn beta. intros dcpl ? ->. set (pl := if dcpl =? 0 then -1 else dcpl). trip.
Qed.

Lemma k_arg nd a d : keeps (take_arg nd a d).
Proof. intros I. unfold take_arg. trip. Qed.

Lemma k_update p dims buf start counts : keeps (update_data p dims buf start counts).
Proof.
  pose proof (k_arg (List.length dims)). intros I. unfold update_data. cbv zeta.
  repeat first [t1|eapply t_bind; [apply k_arg|cbn beta; intros ? ? ->]].
Qed.

Lemma k_dimensions p : keeps (get_dimensions p).
Proof. pose proof (k_object true p). intros I. unfold get_dimensions, is_data_set. trip. Qed.

Lemma k_zip_div a : forall b, keeps (zip_div a b).
Proof.
  induction a as [|x a IH]; intros b I; destruct b; cbn [zip_div]; trip. eapply t_bind; [apply IH|]. cbn beta. intros ? ? ->. trip.
Qed.

Lemma k_finish t ds space room mem : keeps (finish_read t ds space room mem).
Proof.
  intros I. unfold finish_read. t1. t1. eapply t_bind; [apply k_same|]. cbn beta. intros same ? ->. trip.
Qed.

Lemma k_select t p ds space room strides start counts : keeps (select_and_read t p ds space room strides start counts).
Proof.
  intros I. unfold select_and_read. eapply t_bind; [apply k_dimensions|]. cbn beta zeta. intros dims ? ->.
  eapply t_bind; [apply k_arg|]. cbn beta. intros sd ? ->. eapply t_bind; [apply k_arg|]. cbn beta. intros st ? ->.
  eapply t_bind; [instantiate (1 := fun _ J => J = I); destruct counts; [apply k_arg|apply k_zip_div]|].
  cbn beta. intros cn ? ->. t1. t1. apply t_with. apply t_keeps; [apply k_finish|]. intros; give.
Qed.

Lemma k_read t p room strides start counts : keeps (read_data t p room strides start counts).
Proof.
  pose proof (k_finish t). pose proof (k_select t p).
  intros I. unfold read_data. trip; (apply t_keeps; [apply k_finish || apply k_select|]); intros; give.
Qed.

Lemma k_int_prod l : forall a, keeps (int_prod a l).
Proof. induction l as [|d l IH]; intros a I; cbn [int_prod]; [trip|]. destruct (_ <? _); [apply IH|trip]. Qed.

Lemma k_vector t p : keeps (read_vector t p).
Proof.
  intros I. unfold read_vector. eapply t_bind; [apply k_dimensions|]. cbn beta. intros dims ? ->. destruct dims; [trip|].
  eapply t_bind; [apply k_int_prod|]. cbn beta. intros size ? ->. eapply t_bind; [apply k_read|]. cbn beta. intros r ? ->. trip.
Qed.

Lemma k_flat t p : keeps (read_flat t p).
Proof. intros I. unfold read_flat. eapply t_bind; [apply k_vector|]. cbn beta. intros [dims l] ? ->. trip. Qed.

Lemma k_data_type p : keeps (data_type p).
Proof.
  pose proof (k_object true p). intros I. unfold data_type, is_data_set. trip. apply t_keeps; [apply k_find|]. intros; give.
Qed.

Lemma k_count p : keeps (dimension_count p).
Proof. pose proof (k_dimensions p). intros I. unfold dimension_count. trip. Qed.

Lemma k_child_loop g n : forall i last, keeps (child_loop g i n last).
Proof.
  induction n as [|n IH]; intros i last I; cbn [child_loop]; [trip|]. eapply t_bind; [t1|]. cbn beta zeta. intros r ? ->.
  destruct (match r with Some x => Some x | None => last end); [|trip]. eapply t_bind; [apply IH|]. cbn beta. intros l ? ->. trip.
Qed.

Lemma k_children p : keeps (children p).
Proof.
  intros I. unfold children. t1. destruct a; [|trip]. t1. t1. destruct (a0 <? 0) eqn:E; [rewrite own_neg by exact E; trip|]. t1. t1.
  eapply t_bind; [apply k_child_loop|]. cbn beta. intros l ? ->. trip.
Qed.

Lemma k_all p : keeps (all_data_sets p).
Proof.
  intros I. unfold all_data_sets. t1. destruct a; [|trip]. t1.
  eapply (t_bind _ _ _ (fun r J => J = own (snd r) CGroup I)).
  { destruct p; [apply t_ret; reflexivity|]. t1. now apply t_ret. }
  cbn beta. intros [obj c] ? ->. cbn [snd]. trip.
Qed.

Lemma k_group p : keeps (create_group p).
Proof.
  intros I. unfold create_group. t1. destruct a; [|trip]. t1. t1. destruct (a0 <? 0) eqn:E; [rewrite own_neg by exact E; trip|].
  eapply t_bind.
  - apply (t_close _ I CGroup a0 (fun _ J => J = I)); [|reflexivity]. unfold own. apply Z.ltb_ge in E. now rewrite (proj2 (Z.leb_le 0 a0) E).
  - cbn beta. intros _ ? ->. trip.
Qed.

Lemma k_drop {A} (m : prog A) : keeps m -> keeps (drop m).
Proof. intros H I. unfold drop. eapply t_bind; [apply H|]. cbn beta. intros ? ? ->. now apply t_ret. Qed.

Lemma k_api c : is_string_set c = false -> keeps (run_api c).
Proof.
  intros H. destruct c; try discriminate; cbn [run_api]; apply k_drop;
    first [apply k_attribute|apply k_attribute_string|apply k_attribute_type|apply k_has|apply k_exists|apply k_set_attribute|apply k_write
      |apply k_create|apply k_update|apply k_read|apply k_vector|apply k_flat|apply k_dimensions|apply k_count|apply k_data_type|apply k_children
      |apply k_all|apply k_group|apply k_object].
Qed.
