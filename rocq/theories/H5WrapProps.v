(** C71: the HDF5 wrapper closes what it opens, whatever fails in the library. *)
From Coq Require Import String ZArith List Bool Lia Permutation.
From Verif Require Import Base H5LibModel H5WrapModel H5WrapSpec H5WrapProofs.
Import ListNotations.
Open Scope Z_scope.

Lemma between_inv s : between_calls s -> inv (open_ids s) s.
Proof. intros (A & B & C & D & _). repeat split; auto; apply C; assumption. Qed.

Lemma inv_between I s s' : between_calls s -> Permutation I (open_ids s) \/ (exists id k, Permutation I ((id, k) :: open_ids s)) ->
  inv I s' -> m_file s' = m_file s -> between_calls s'.
Proof.
  intros (_ & _ & _ & _ & F) P (A & B & C & D & E) M. unfold between_calls. split; [exact B|]. split; [exact C|]. split; [exact D|].
  split; [exact E|]. intros H. rewrite M in *. specialize (F H).
  assert (In (m_file s, CFile) (open_ids s)).
  { unfold lookup in F. destruct (find _ _) as [e|] eqn:Fe; [|discriminate]. apply find_some in Fe as [H1 H2]. apply Z.eqb_eq in H2.
    injection F as F. unfold open_ids. apply in_map_iff. exists e. rewrite F, H2. auto. }
  assert (In (m_file s, CFile) (open_ids s')).
  { rewrite A. destruct P as [P|(id & k & P)]; rewrite P; [|right]; assumption. }
  destruct (find_live (w_live s') (m_file s) CFile B H1) as (o & Fo & K). unfold lookup. rewrite Fo. cbn. destruct o; try discriminate. reflexivity.
Qed.

Lemma close_error_wrong {A} w : close_error w = false -> ~ closes_wrongly (UB w : outcome A).
Proof. intros H [E|E]; injection E as ->; discriminate. Qed.

(** Every call, except the one that sets a text, leaves exactly the identifiers
    open that were open before, and the error handler of the library as it was;
    it closes nothing that is not open. *)
Theorem C71_closes c s : between_calls s -> is_string_set c = false ->
  ~ closes_wrongly (run_api c s) /\
  forall s', run_api c s = Ok (tt, s') ->
    Permutation (open_ids s') (open_ids s) /\ w_handler s' = w_handler s /\ m_file s' = m_file s /\ between_calls s'.
Proof.
  intros B H. pose proof (k_api c H (open_ids s) s (between_inv s B)) as T. split.
  - destruct (run_api c s) as [[[] s']| | |]; try (intros [E|E]; discriminate). now apply close_error_wrong.
  - intros s' E. rewrite E in T. destruct T as ((J & -> & HI) & (F1 & F2 & F3)). split; [apply HI|]. split; [exact F2|]. split; [exact F1|].
    eapply inv_between; [exact B|left; reflexivity|exact HI|exact F1].
Qed.

(** Setting a text can leave a type open, and nothing else. *)
Theorem C71_text p n x s : between_calls s ->
  ~ closes_wrongly (run_api (SetAttributeString p n x) s) /\
  forall s', run_api (SetAttributeString p n x) s = Ok (tt, s') ->
    (Permutation (open_ids s') (open_ids s) \/ exists id, Permutation (open_ids s') ((id, CType) :: open_ids s)) /\
    w_handler s' = w_handler s /\ m_file s' = m_file s /\ between_calls s'.
Proof.
  intros B.
  assert (T : triple (open_ids s) (run_api (SetAttributeString p n x)) (fun _ J => exists id, J = own id CType (open_ids s))).
  { cbn [run_api]. unfold drop. eapply t_bind; [apply t_set_attribute_string|]. cbn beta. intros _ J H. now apply t_ret. }
  specialize (T s (between_inv s B)). split.
  - destruct (run_api _ s) as [[[] s']| | |]; try (intros [E|E]; discriminate). now apply close_error_wrong.
  - intros s' E. rewrite E in T. destruct T as ((J & (id & ->) & HI) & (F1 & F2 & F3)).
    assert (P : Permutation (own id CType (open_ids s)) (open_ids s) \/ Permutation (own id CType (open_ids s)) ((id, CType) :: open_ids s)).
    { unfold own. destruct (0 <=? id); auto. }
    split; [|split; [exact F2|split; [exact F1|]]].
    + destruct HI as (HP & _). destruct P as [P|P]; [left|right; exists id]; (etransitivity; [exact HP|exact P]).
    + eapply inv_between; [exact B| |exact HI|exact F1]. destruct P as [P|P]; [left; exact P|right; eauto].
Qed.

Lemma run_all_ids l : forall s, between_calls s ->
  ~ closes_wrongly (run_all l s) /\
  forall s', run_all l s = Ok (tt, s') -> exists T, Permutation (open_ids s') (T ++ open_ids s) /\
    Forall (fun e => snd e = CType) T /\ (List.length T <= List.length (filter is_string_set l))%nat /\
    w_handler s' = w_handler s /\ m_file s' = m_file s /\ between_calls s'.
Proof.
  induction l as [|c l IH]; intros s B.
  - split; [intros [E|E]; discriminate|]. intros s' E. injection E as <-. exists []. cbn [app filter List.length]. auto 10.
  - cbn [run_all]. unfold pbind.
    assert (C : ~ closes_wrongly (run_api c s) /\ forall s', run_api c s = Ok (tt, s') -> exists T, Permutation (open_ids s') (T ++ open_ids s) /\
       Forall (fun e => snd e = CType) T /\ (List.length T <= if is_string_set c then 1 else 0)%nat /\
       w_handler s' = w_handler s /\ m_file s' = m_file s /\ between_calls s').
    { destruct (is_string_set c) eqn:Ec.
      - destruct c; try discriminate. destruct (C71_text p n x s B) as (H1 & H2). split; [exact H1|]. intros s' E.
        destruct (H2 s' E) as ([P|(id & P)] & H3 & H4 & H5); [exists []|exists [(id, CType)]]; cbn [app List.length]; auto 10.
      - destruct (C71_closes c s B Ec) as (H1 & H2). split; [exact H1|]. intros s' E. destruct (H2 s' E) as (P & H3 & H4 & H5).
        exists []. cbn [app List.length]. auto 10. }
    destruct C as (C1 & C2). destruct (run_api c s) as [[[] s1]| | |] eqn:E; cbn [bind].
    + destruct (C2 s1 eq_refl) as (T1 & P1 & T2 & T3 & T4 & T5 & B1). destruct (IH s1 B1) as (W & R). split; [exact W|]. intros s' E'.
      destruct (R s' E') as (T' & P' & T2' & T3' & T4' & T5' & B'). exists (T' ++ T1). split; [rewrite P', P1, app_assoc; reflexivity|].
      split; [apply Forall_app; auto|]. split; [rewrite app_length; cbn [filter]; destruct (is_string_set c); cbn [List.length]; lia|].
      split; [congruence|]. split; [congruence|exact B'].
    + split; [intros [X|X]; discriminate|discriminate].
    + split; [intros [X|X]; injection X as ->; apply C1; [now left|now right]|discriminate].
    + split; [intros [X|X]; discriminate|discriminate].
Qed.

Lemma opened ro can t fault : exists b s, open_file ro can (nothing_open t fault) = Ok (b, s) /\ between_calls s /\ w_handler s = 1 /\
  open_ids s = own (m_file s) CFile [] /\ b = (0 <=? m_file s).
Proof.
  destruct ro, can; cbv - [Z.add Z.leb between_calls]; destruct (fault 0); (eexists; eexists; split; [reflexivity|]);
    unfold between_calls; cbn; repeat split; try constructor; try lia; try tauto; try (intros e [<-|[]]; cbn; lia);
    try (repeat constructor; cbn; tauto); try (destruct H as [<-|[]]; cbn; lia); reflexivity.
Qed.

(** A whole session: a file is opened or created, the interface is called in any
    way, the object is destroyed.  Nothing stays open but, for each text set, at
    most one type; nothing is closed twice; the error handler is the one that was
    installed. *)
Theorem C71_session ro can l t fault :
  ~ closes_wrongly (session ro can l (nothing_open t fault)) /\
  forall s', session ro can l (nothing_open t fault) = Ok (tt, s') ->
    Forall (fun e => snd e = CType) (open_ids s') /\
    (List.length (open_ids s') <= List.length (filter is_string_set l))%nat /\ w_handler s' = 1 /\ m_file s' < 0.
Proof.
  destruct (opened ro can t fault) as (b & s & E & B & Hh & Ho & Hb). unfold session, pbind. rewrite E. cbn [bind].
  destruct (run_all_ids l s B) as (W & R). destruct (run_all l s) as [[[] s1]| | |] eqn:E1; cbn [bind].
  2-4: split; [|discriminate]; first [intros [X|X]; discriminate|intros [X|X]; injection X as ->; apply W; [now left|now right]].
  destruct (R s1 eq_refl) as (T & P & T2 & T3 & T4 & T5 & B1).
  unfold clear, pbind, file_is_valid, pbind, get, ret. cbn [bind]. rewrite T5. destruct (0 <=? m_file s) eqn:Ef; cbn [bind].
  - assert (Pm : Permutation (open_ids s1) ((m_file s, CFile) :: T)).
    { rewrite P, Ho. unfold own. rewrite Ef. symmetry. apply Permutation_cons_append. }
    pose proof (t_close (open_ids s1) T CFile (m_file s) (fun _ J => J = T) Pm eq_refl s1 (between_inv s1 B1)) as C. rewrite T5.
    destruct (close_id CFile (m_file s) s1) as [[[] s2]| | |]; cbn [bind].
    + destruct C as ((J & -> & HI) & F1 & F2 & F3). split; [intros [X|X]; discriminate|]. intros s' X. injection X as <-.
      destruct HI as (HP & _). change (open_ids (set_file (-1) s2)) with (open_ids s2). cbn [w_handler m_file set_file].
      split; [rewrite Forall_forall in *; intros e He; apply T2; rewrite <- HP; exact He|]. split; [rewrite (Permutation_length HP); exact T3|].
      split; [congruence|lia].
    + contradiction.
    + split; [now apply close_error_wrong|discriminate].
    + contradiction.
  - split; [intros [X|X]; discriminate|]. intros s' X. injection X as <-. rewrite Ho in P. unfold own in P. rewrite Ef, app_nil_r in P.
    split; [rewrite Forall_forall in *; intros e He; apply T2; rewrite <- P; exact He|]. split; [rewrite (Permutation_length P); exact T3|].
    apply Z.leb_gt in Ef. split; [congruence|lia].
Qed.

(** In particular, without texts nothing at all stays open. *)
Theorem C71_nothing_left ro can l t fault s' : forallb (fun c => negb (is_string_set c)) l = true ->
  session ro can l (nothing_open t fault) = Ok (tt, s') -> w_live s' = [].
Proof.
  intros H E. destruct (C71_session ro can l t fault) as (_ & R). destruct (R s' E) as (_ & L & _).
  assert (F : filter is_string_set l = []).
  { clear - H. induction l as [|c l IH]; [reflexivity|]. cbn [forallb filter] in *. apply andb_true_iff in H as [H1 H2].
    destruct (is_string_set c); [discriminate|auto]. }
  rewrite F in L. unfold open_ids in L. rewrite map_length in L. destruct (w_live s'); [reflexivity|cbn in L; lia].
Qed.

(** A session that sets [n] texts ends with [n] types open, although nothing fails. *)
Definition leak (n : nat) : list api :=
  map (fun k => SetAttributeString [] (String.string_of_list_ascii (repeat Ascii.zero k)) "x") (seq 0 n).
Theorem C71_text_leak_refuted : exists l s',
  session false true l (nothing_open [] (fun _ => false)) = Ok (tt, s') /\ List.length (w_live s') = 3%nat.
Proof. eexists (leak 3), _. split; vm_compute; reflexivity. Qed.

(** A type that cannot be looked up is reported as the first one of the map and
    not as "None": the failure of H5Tequal counts as equality.  (Which one is
    first depends on the library's identifiers; in the model it is Int8.) *)
Theorem C71_type_failure_refuted : exists fault s p t,
  s = nothing_open [] fault /\
  (exists s', (do _ <- open_file false true; do _ <- write_data TF64 [] "d" [1] [ENum 7]; do d <- data_type p; ret d) s = Ok (t, s')) /\
  t = Int8 /\ p = ["d"%string].
Proof.
  exists (fun k => k =? 10), (nothing_open [] (fun k => k =? 10)), ["d"%string], Int8. split; [reflexivity|]. split; [|auto].
  eexists. vm_compute. reflexivity.
Qed.

(** Reading one value of an attribute that has several overruns the variable. *)
Theorem C71_attribute_overrun_refuted : exists s l,
  s = nothing_open [] (fun _ => false) /\ l = [SetAttribute TI32 [] "a" [ENum 4; ENum 5]; Attribute TI32 [] "a"] /\
  exists w, session false true l s = UB w.
Proof. eexists _, _. split; [reflexivity|]. split; [reflexivity|]. eexists. vm_compute. reflexivity. Qed.

(** A session with all kinds of calls, in which the 20th call of the library fails. *)
Example ex_session : exists s', session false true
  [CreateGroup ["g"%string]; WriteData TU16 ["g"%string] "d" [2; 3] (map ENum [1; 2; 3; 4; 5; 6]); SetAttribute TI32 ["g"; "d"]%string "a" [ENum 9];
   Attribute TI32 ["g"; "d"]%string "a"; ReadVector TU16 ["g"; "d"]%string; ReadData TU16 ["g"; "d"]%string 6 (Some [1; 2]) None None;
   CreateDataSet TF64 [] "e" [4] [2]; UpdateData ["e"%string] [4] [ENum 8; ENum 9] (Some [1]) (Some [2]); Children []; AllDataSets []; DataTypeOf ["e"%string];
   AttributeType ["g"; "d"]%string "a"] (nothing_open [] (fun k => k =? 20)) = Ok (tt, s') /\ w_live s' = [] /\ 40 < w_clock s'.
Proof. eexists. split; [vm_compute; reflexivity|]. vm_compute. auto. Qed.

Print Assumptions C71_closes.
Print Assumptions C71_text.
Print Assumptions C71_session.
Print Assumptions C71_nothing_left.
Print Assumptions C71_text_leak_refuted.
Print Assumptions C71_type_failure_refuted.
Print Assumptions C71_attribute_overrun_refuted.
