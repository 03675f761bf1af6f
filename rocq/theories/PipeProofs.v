(** Proofs about the pipeline decorators. *)
From Coq Require Import String ZArith List Bool Lia Arith.
From Verif Require Import Base PipeModel PipeSpec.
Import ListNotations.
Open Scope list_scope.
Open Scope nat_scope.

(** ** Lists and dictionaries *)

Lemma lset_length {A} (l : list A) n a : List.length (lset l n a) = List.length l.
Proof. revert n. induction l as [|x l IH]; intros [|n]; cbn; auto. Qed.

Lemma lset_same {A} (l : list A) n a : n < List.length l -> nth_error (lset l n a) n = Some a.
Proof. revert n. induction l as [|x l IH]; intros [|n] H; cbn in *; try lia; auto. apply IH. lia. Qed.

Lemma lset_other {A} (l : list A) n m a : n <> m -> nth_error (lset l n a) m = nth_error l m.
Proof.
  revert n m. induction l as [|x l IH]; intros [|n] [|m] H; cbn; auto; try congruence.
Qed.

Lemma nth_app_old {A} (l m : list A) n : n < List.length l -> nth_error (l ++ m) n = nth_error l n.
Proof. intros H. now apply nth_error_app1. Qed.

Lemma nth_app_new {A} (l : list A) a : nth_error (l ++ [a]) (List.length l) = Some a.
Proof. rewrite nth_error_app2 by lia. now rewrite Nat.sub_diag. Qed.

Lemma dget_in {A} (d : dict A) k a : dget d k = Some a -> In (k, a) d.
Proof.
  induction d as [|[k' a'] d IH]; cbn; [discriminate|].
  destruct (String.eqb_spec k' k) as [->|N]; [intros [= ->]; now left|intros H; right; auto].
Qed.

Lemma dget_none {A} (d : dict A) k : dget d k = None <-> ~ In k (keys d).
Proof.
  induction d as [|[k' a'] d IH]; cbn; [tauto|].
  destruct (String.eqb_spec k' k) as [->|N]; [split; [discriminate|tauto]|].
  rewrite IH. tauto.
Qed.

Lemma in_dget {A} (d : dict A) k a : NoDup (keys d) -> In (k, a) d -> dget d k = Some a.
Proof.
  induction d as [|[k' a'] d IH]; cbn; [tauto|]. intros ND [E|H].
  - injection E as -> ->. now rewrite String.eqb_refl.
  - inversion ND as [|? ? Nk ND']; subst.
    destruct (String.eqb_spec k' k) as [->|N]; [|auto].
    exfalso. apply Nk. change k with (fst (k, a)). now apply in_map.
Qed.

Lemma dget_dset_same {A} (d : dict A) k a : dget (dset d k a) k = Some a.
Proof.
  induction d as [|[k' a'] d IH]; cbn; [now rewrite String.eqb_refl|].
  destruct (String.eqb_spec k' k) as [->|N]; cbn; [now rewrite String.eqb_refl|].
  destruct (String.eqb_spec k' k); [congruence|exact IH].
Qed.

Lemma dget_dset_other {A} (d : dict A) k k2 a : k <> k2 -> dget (dset d k a) k2 = dget d k2.
Proof.
  intros Nk. induction d as [|[k' a'] d IH]; cbn.
  - destruct (String.eqb_spec k k2); congruence.
  - destruct (String.eqb_spec k' k) as [->|N]; cbn.
    + destruct (String.eqb_spec k k2); congruence.
    + destruct (String.eqb_spec k' k2); auto.
Qed.

Lemma keys_dset {A} (d : dict A) k a :
  keys (dset d k a) = if dmem d k then keys d else keys d ++ [k].
Proof.
  unfold dmem, keys. induction d as [|[k' a'] d IH]; cbn; [reflexivity|].
  destruct (String.eqb_spec k' k) as [->|N]; cbn; [reflexivity|].
  rewrite IH. destruct (dget d k); reflexivity.
Qed.

Lemma dmem_in {A} (d : dict A) k : dmem d k = true <-> In k (keys d).
Proof.
  unfold dmem. destruct (dget d k) eqn:E.
  - split; [|reflexivity]. intros _. apply dget_in in E.
    change k with (fst (k, a)). now apply in_map.
  - apply dget_none in E. split; [discriminate|contradiction].
Qed.

Lemma NoDup_dset {A} (d : dict A) k a : NoDup (keys d) -> NoDup (keys (dset d k a)).
Proof.
  intros ND. rewrite keys_dset. destruct (dmem d k) eqn:E; [exact ND|].
  assert (N : ~ In k (keys d)) by (intros H; apply dmem_in in H; congruence).
  clear E. induction (keys d) as [|x l IH]; cbn; [repeat constructor; auto|].
  inversion ND; subst. constructor.
  - rewrite in_app_iff. cbn in *. intuition.
  - apply IH; [assumption|]. cbn in N. tauto.
Qed.

(** ** What a stack declares *)

(** The dictionary after a stack has been applied to one with content [d]. *)
Fixpoint listing (ds : list decorator) (d : dict info) : dict info :=
  match ds with
  | [] => d
  | APipeline _ :: below => listing below d
  | AParameter n i :: below => dset (listing below d) n i
  end.

Lemma listing_app a b d : listing (a ++ b) d = listing a (listing b d).
Proof. induction a as [|[m|n i] a IH]; cbn; congruence. Qed.

Fixpoint top_lookup (ds : list decorator) (n : string) : option info :=
  match ds with
  | [] => None
  | APipeline _ :: below => top_lookup below n
  | AParameter k i :: below => if String.eqb k n then Some i else top_lookup below n
  end.

Lemma top_lookup_none ds n : top_lookup ds n = None <-> ~ declares ds n.
Proof.
  unfold declares. induction ds as [|[m|k i] ds IH]; cbn.
  - split; [intros _ [i []]|reflexivity].
  - rewrite IH. split; intros H [i Hi]; apply H; exists i; [destruct Hi as [E|Hi]; [discriminate|exact Hi]|now right].
  - destruct (String.eqb_spec k n) as [->|N].
    + split; [discriminate|]. intros H. exfalso. apply H. exists i. now left.
    + rewrite IH. split; intros H [j Hj]; apply H; exists j; [destruct Hj as [E|Hj]; [congruence|exact Hj]|now right].
Qed.

Lemma top_lookup_some ds n i : top_lookup ds n = Some i <-> topmost ds n i.
Proof.
  unfold topmost. induction ds as [|d ds IH].
  - cbn. split; [discriminate|]. intros (up & down & E & _). destruct up; discriminate.
  - destruct d as [m|k j]; cbn [top_lookup].
    + rewrite IH. split; intros (up & down & E & N).
      * exists (APipeline m :: up), down. split; [now rewrite E|].
        intros [x [Hx|Hx]]; [discriminate|]. apply N. now exists x.
      * destruct up as [|u up]; [discriminate|]. injection E as <- E.
        exists up, down. split; [exact E|]. intros [x Hx]. apply N. exists x. now right.
    + destruct (String.eqb_spec k n) as [->|Nk].
      * split.
        -- intros [= ->]. exists [], ds. split; [reflexivity|]. intros [x []].
        -- intros (up & down & E & N). destruct up as [|u up].
           ++ now injection E as -> _.
           ++ injection E as <- _. exfalso. apply N. exists j. now left.
      * rewrite IH. split; intros (up & down & E & N).
        -- exists (AParameter k j :: up), down. split; [now rewrite E|].
           intros [x [Hx|Hx]]; [congruence|]. apply N. now exists x.
        -- destruct up as [|u up]; [cbn in E; congruence|]. injection E as <- E.
           exists up, down. split; [exact E|]. intros [x Hx]. apply N. exists x. now right.
Qed.

Lemma dget_listing ds n : dget (listing ds []) n = top_lookup ds n.
Proof.
  induction ds as [|[m|k i] ds IH]; cbn; auto.
  destruct (String.eqb_spec k n) as [->|N]; [apply dget_dset_same|].
  now rewrite dget_dset_other.
Qed.

Lemma NoDup_listing ds : NoDup (keys (listing ds [])).
Proof. induction ds as [|[m|k i] ds IH]; cbn; [constructor|exact IH|now apply NoDup_dset]. Qed.

Lemma in_keys_listing ds n : In n (keys (listing ds [])) <-> declares ds n.
Proof.
  rewrite <- dmem_in. unfold dmem. rewrite dget_listing.
  pose proof (top_lookup_none ds n) as T. destruct (top_lookup ds n) eqn:E.
  - split; [intros _|reflexivity]. apply top_lookup_some in E as (up & down & -> & _).
    exists i. apply in_app_iff. right. now left.
  - split; [discriminate|]. tauto.
Qed.

Lemma declares_cons d ds n : declares (d :: ds) n <->
  (match d with AParameter k _ => k = n | APipeline _ => False end) \/ declares ds n.
Proof.
  unfold declares. split.
  - intros [i [->|H]]; [now left|right; now exists i].
  - intros [H|[i H]]; [destruct d as [m|k j]; [contradiction|subst k; exists j; now left]|exists i; now right].
Qed.

Lemma declares_app a b n : declares (a ++ b) n <-> declares a n \/ declares b n.
Proof.
  unfold declares. split.
  - intros [i H]. apply in_app_iff in H as [H|H]; [left|right]; now exists i.
  - intros [[i H]|[i H]]; exists i; apply in_app_iff; tauto.
Qed.

Lemma declares_dec ds n : {declares ds n} + {~ declares ds n}.
Proof.
  destruct (top_lookup ds n) eqn:E.
  - left. apply in_keys_listing. apply dmem_in. unfold dmem. now rewrite dget_listing, E.
  - right. now apply top_lookup_none.
Qed.

Lemma stands_app l x n m : ~ In x l -> NoDup l ->
  (stands_before (l ++ [x]) n m <-> stands_before l n m \/ (In n l /\ m = x)).
Proof.
  intros Nx ND. unfold stands_before. split.
  - intros (a & b & c & E). destruct (rev c) as [|y c'] eqn:Ec.
    + apply (f_equal (@rev string)) in Ec. rewrite rev_involutive in Ec. cbn in Ec. subst c.
      replace (a ++ n :: b ++ [m]) with ((a ++ n :: b) ++ [m]) in E by (rewrite <- app_assoc; reflexivity).
      apply app_inj_tail in E as [E ->]. right. split; [|reflexivity].
      rewrite E. apply in_app_iff. right. now left.
    + apply (f_equal (@rev string)) in Ec. rewrite rev_involutive in Ec. cbn in Ec. subst c.
      replace (a ++ n :: b ++ m :: rev c' ++ [y]) with ((a ++ n :: b ++ m :: rev c') ++ [y]) in E
        by (rewrite <- app_assoc; cbn; rewrite <- app_assoc; reflexivity).
      apply app_inj_tail in E as [E _]. left. now exists a, b, (rev c').
  - intros [(a & b & c & E)|[H ->]].
    + exists a, b, (c ++ [x]). rewrite E, <- app_assoc. cbn. rewrite <- app_assoc. reflexivity.
    + apply in_split in H as (a & b & ->). exists a, b, []. rewrite <- app_assoc. reflexivity.
Qed.

Lemma lists_listing ds : lists ds (listing ds []).
Proof.
  split; [apply NoDup_listing|]. split.
  - intros n i. rewrite <- top_lookup_some, <- dget_listing. split.
    + apply in_dget, NoDup_listing.
    + apply dget_in.
  - induction ds as [|[mm|k i] ds IH]; intros n m.
    + cbn. split.
      * intros (a & b & c & E). destruct a; discriminate.
      * intros (up & down & E & [i H] & _). symmetry in E. apply app_eq_nil in E as [-> ->]. destruct H.
    + cbn [listing]. rewrite IH. split; intros (up & down & E & Dn & Dm & Nm).
      * exists (APipeline mm :: up), down. split; [now rewrite E|]. split; [exact Dn|].
        split; [|exact Nm]. apply declares_cons. now right.
      * destruct up as [|u up].
        -- destruct Dm as [x []].
        -- injection E as <- E. exists up, down. split; [exact E|]. split; [exact Dn|].
           split; [|exact Nm]. apply declares_cons in Dm as [[]|Dm]. exact Dm.
    + cbn [listing]. rewrite keys_dset. destruct (dmem (listing ds []) k) eqn:Ek.
      * apply dmem_in, in_keys_listing in Ek. rewrite IH.
        split; intros (up & down & E & Dn & Dm & Nm).
        -- exists (AParameter k i :: up), down. split; [now rewrite E|]. split; [exact Dn|].
           split; [|exact Nm]. apply declares_cons. now right.
        -- destruct up as [|u up]; [destruct Dm as [x []]|].
           injection E as <- E. exists up, down. split; [exact E|]. split; [exact Dn|].
           split; [|exact Nm]. apply declares_cons in Dm as [->|Dm]; [|exact Dm].
           rewrite E in Ek. apply declares_app in Ek as [Ek|Ek]; [exact Ek|contradiction].
      * assert (Nk : ~ In k (keys (listing ds []))) by (intros H; apply dmem_in in H; congruence).
        rewrite stands_app; [|exact Nk|apply NoDup_listing].
        rewrite IH. rewrite in_keys_listing in *. split.
        -- intros [(up & down & E & Dn & Dm & Nm)|[Dn ->]].
           ++ exists (AParameter k i :: up), down. split; [now rewrite E|]. split; [exact Dn|].
              split; [|exact Nm]. apply declares_cons. now right.
           ++ exists [AParameter k i], ds. split; [reflexivity|]. split; [exact Dn|].
              split; [exists i; now left|exact Nk].
        -- intros (up & down & E & Dn & Dm & Nm).
           destruct up as [|u up]; [destruct Dm as [x []]|].
           injection E as <- E. destruct (declares_dec up m) as [D|D].
           ++ left. now exists up, down.
           ++ right. apply declares_cons in Dm as [Em|Dm]; [|contradiction]. split; [|now symmetry].
              rewrite E. apply declares_app. now right.
Qed.

(** The keywords after the wrappers of a stack, from the top. *)
Fixpoint fills (ds : list decorator) (kw : dict val) : dict val :=
  match ds with
  | [] => kw
  | APipeline _ :: below => fills below kw
  | AParameter n i :: below =>
      fills below (if dmem kw n then kw else dset kw n (i_default i))
  end.

Lemma NoDup_fills ds kw : NoDup (keys kw) -> NoDup (keys (fills ds kw)).
Proof.
  revert kw. induction ds as [|[m|n i] ds IH]; intros kw H; cbn [fills]; [exact H|now apply IH|].
  apply IH. destruct (dmem kw n); [exact H|now apply NoDup_dset].
Qed.

Lemma dget_fills ds kw n :
  dget (fills ds kw) n = match dget kw n with
                         | Some v => Some v
                         | None => option_map i_default (top_lookup ds n)
                         end.
Proof.
  revert kw. induction ds as [|[m|k i] ds IH]; intros kw; cbn [fills top_lookup].
  - now destruct (dget kw n).
  - apply IH.
  - rewrite IH. unfold dmem. destruct (String.eqb_spec k n) as [->|N].
    + destruct (dget kw n) eqn:E; [now rewrite E|]. now rewrite dget_dset_same.
    + destruct (dget kw k); [reflexivity|]. now rewrite dget_dset_other.
Qed.

Lemma given_fills ds kw n v : NoDup (keys kw) ->
  (dget (fills ds kw) n = Some v <-> given ds kw n v).
Proof.
  intros ND. rewrite dget_fills. unfold given. destruct (dget kw n) eqn:E.
  - split.
    + intros [= ->]. left. now apply dget_in.
    + intros [H|[H _]].
      * now rewrite (in_dget kw n v ND H) in E.
      * exfalso. apply H. apply dmem_in. unfold dmem. now rewrite E.
  - pose proof (proj1 (dget_none kw n) E) as N. split.
    + intros H. right. split; [exact N|]. destruct (top_lookup ds n) eqn:T; [|discriminate].
      exists i. split; [now apply top_lookup_some|]. cbn in H. congruence.
    + intros [H|[_ (i & T & ->)]].
      * exfalso. apply N. change n with (fst (n, v)). now apply in_map.
      * apply top_lookup_some in T. now rewrite T.
Qed.

(** ** Binding arguments *)

Lemma bind_params_spec kw ps : forall args vs, bind_params ps args kw = Some vs <->
  List.length vs = List.length ps /\ List.length args <= List.length ps /\
  forall k n d v, nth_error ps k = Some (n, d) -> nth_error vs k = Some v ->
    (k < List.length args /\ nth_error args k = Some v /\ forall w, ~ dget kw n = Some w) \/
    (List.length args <= k /\ (dget kw n = Some v \/ ((forall w, ~ dget kw n = Some w) /\ d = Some v))).
Proof.
  induction ps as [|[n d] ps IH]; intros args vs.
  - cbn. destruct args as [|a args].
    + split.
      * intros [= <-]. split; [reflexivity|]. split; [cbn; lia|]. intros [|k]; discriminate.
      * intros (L & _). destruct vs; [reflexivity|discriminate].
    + split; [discriminate|]. cbn. lia.
  - assert (step : forall a args' , (args = a :: args' /\ dget kw n = None) \/
        (args = [] /\ args' = [] /\ (dget kw n = Some a \/ (dget kw n = None /\ d = Some a))) ->
        (option_map (cons a) (bind_params ps args' kw) = Some vs <->
         List.length vs = Datatypes.S (List.length ps) /\ List.length args <= Datatypes.S (List.length ps) /\
         forall k n0 d0 v, nth_error ((n, d) :: ps) k = Some (n0, d0) -> nth_error vs k = Some v ->
          (k < List.length args /\ nth_error args k = Some v /\ forall w, ~ dget kw n0 = Some w) \/
          (List.length args <= k /\ (dget kw n0 = Some v \/ ((forall w, ~ dget kw n0 = Some w) /\ d0 = Some v))))).
    { intros a args' C. split.
      - intros E. destruct (bind_params ps args' kw) as [vs'|] eqn:B; [|discriminate].
        injection E as <-. apply IH in B as (L & La & B).
        split; [cbn; now rewrite L|]. split.
        { destruct C as [[-> _]|[-> _]]; cbn; lia. }
        intros [|k] n0 d0 v Hn Hv; cbn in Hn, Hv.
        + injection Hn as <- <-. injection Hv as <-.
          destruct C as [[-> C]|(-> & -> & C)].
          * left. split; [cbn; lia|]. split; [reflexivity|]. rewrite C. discriminate.
          * right. split; [cbn; lia|]. destruct C as [C|[C Cd]]; [now left|].
            right. rewrite C. split; [discriminate|exact Cd].
        + specialize (B k n0 d0 v Hn Hv). destruct C as [[-> C]|(-> & -> & C)]; cbn in *.
          * destruct B as [(B1 & B2 & B3)|[B1 B2]]; [left|right]; (split; [lia|auto]).
          * destruct B as [(B1 & B2 & B3)|[B1 B2]]; [lia|right]; (split; [lia|auto]).
      - intros (L & La & B). destruct vs as [|v vs]; [discriminate|].
        assert (Ev : v = a).
        { specialize (B O n d v eq_refl eq_refl). destruct C as [[-> C]|(-> & -> & C)]; cbn in B.
          - destruct B as [(_ & B & _)|[B _]]; [congruence|lia].
          - destruct B as [(B & _)|[_ B]]; [lia|].
            destruct C as [C|[C Cd]]; destruct B as [B|[B Bd]]; try congruence;
            exfalso; now apply (B a). }
        subst v. assert (B' : bind_params ps args' kw = Some vs).
        { apply IH. split; [cbn in L; lia|]. split.
          { destruct C as [[-> _]|(-> & -> & _)]; cbn in *; lia. }
          intros k n0 d0 v Hn Hv. specialize (B (Datatypes.S k) n0 d0 v Hn Hv).
          destruct C as [[-> C]|(-> & -> & C)]; cbn in *.
          - destruct B as [(B1 & B2 & B3)|[B1 B2]]; [left|right]; (split; [lia|auto]).
          - destruct B as [(B1 & B2 & B3)|[B1 B2]]; [lia|right]; (split; [lia|auto]). }
        now rewrite B'. }
    cbn [bind_params List.length]. destruct args as [|a args].
    + destruct (dget kw n) as [v|] eqn:En.
      * apply step. right. auto.
      * destruct d as [v|].
        -- apply step. right. auto.
        -- split; [discriminate|]. intros (L & _ & B). destruct vs as [|v vs]; [discriminate|].
           specialize (B O n None v eq_refl eq_refl). cbn in B.
           destruct B as [(B & _)|[_ [B|[_ B]]]]; [lia|congruence|discriminate].
    + unfold dmem. destruct (dget kw n) as [w|] eqn:En.
      * split; [discriminate|]. intros (L & _ & B). destruct vs as [|v vs]; [discriminate|].
        specialize (B O n d v eq_refl eq_refl). cbn in B.
        destruct B as [(_ & _ & B)|[B _]]; [|lia]. exfalso. now apply (B w).
      * apply step. left. auto.
Qed.

Lemma in_params_spec ps k : in_params ps k = true <-> In k (map fst ps).
Proof.
  unfold in_params. rewrite existsb_exists, in_map_iff. split.
  - intros (p & H & E). apply String.eqb_eq in E. now exists p.
  - intros (p & E & H). exists p. split; [exact H|]. now apply String.eqb_eq.
Qed.

Lemma NoDup_filter_keys {A} (p : string * A -> bool) (d : dict A) :
  NoDup (keys d) -> NoDup (keys (filter p d)).
Proof.
  induction d as [|[k a] d IH]; cbn; [auto|]. intros ND. inversion ND as [|? ? Nk ND']; subst.
  destruct (p (k, a)); [|auto]. cbn. constructor; [|auto].
  intros H. apply Nk. unfold keys in *. apply in_map_iff in H as (x & E & H).
  apply filter_In in H as [H _]. rewrite <- E. now apply in_map.
Qed.

Lemma bind_spec s args kw : NoDup (keys kw) ->
  (exists vs extra, bind_args s args kw = Ok (vs, extra) /\
     receives s args (fun n v => dget kw n = Some v) vs extra) \/
  (bind_args s args kw = Throw "TypeError" /\
     forall vs extra, ~ receives s args (fun n v => dget kw n = Some v) vs extra).
Proof.
  intros ND. unfold bind_args.
  set (rest := filter (fun p => negb (in_params (sig_params s) (fst p))) kw).
  assert (HR : forall n v, In (n, v) rest <-> dget kw n = Some v /\ ~ In n (map fst (sig_params s))).
  { intros n v. unfold rest. rewrite filter_In. cbn [fst].
    pose proof (in_params_spec (sig_params s) n) as P.
    destruct (in_params (sig_params s) n); cbn; split.
    - intros [_ H]; discriminate.
    - intros [_ H]. exfalso. apply H. now apply P.
    - intros [H _]. split; [now apply in_dget|]. intros K. apply P in K. discriminate.
    - intros [H _]. split; [now apply dget_in|reflexivity]. }
  destruct (bind_params (sig_params s) args kw) as [vs|] eqn:B.
  - apply bind_params_spec in B as (L & La & B).
    assert (Good : forall extra, NoDup (keys extra) ->
              (forall n v, In (n, v) extra <-> dget kw n = Some v /\ ~ In n (map fst (sig_params s))) ->
              (sig_kwargs s = false -> extra = []) ->
              receives s args (fun n v => dget kw n = Some v) vs extra)
      by (intros extra A1 A2 A3; exact (conj L (conj La (conj B (conj A1 (conj A2 A3)))))).
    destruct (sig_kwargs s) eqn:K.
    + left. exists vs, rest. split; [reflexivity|]. apply Good; [now apply NoDup_filter_keys|exact HR|discriminate].
    + destruct rest as [|[n v] rest'].
      * left. exists vs, []. split; [reflexivity|]. apply Good; [constructor|exact HR|reflexivity].
      * right. split; [reflexivity|]. intros vs' extra (_ & _ & _ & _ & He & Hk).
        specialize (Hk K). subst extra.
        assert (X : In (n, v) []) by (apply He, HR; now left). destruct X.
  - right. split; [reflexivity|]. intros vs extra (L & La & H & _).
    assert (X : bind_params (sig_params s) args kw = Some vs).
    { apply bind_params_spec. split; [exact L|]. split; [exact La|exact H]. }
    congruence.
Qed.

Lemma receives_ext s args P Q vs extra : (forall n v, P n v <-> Q n v) ->
  receives s args P vs extra -> receives s args Q vs extra.
Proof.
  intros E (L & La & H & ND & He & Hk). split; [exact L|]. split; [exact La|]. split; [|split; [exact ND|split; [|exact Hk]]].
  - intros k n d v Hn Hv. destruct (H k n d v Hn Hv) as [(A & B & C)|(A & [B|[B C]])].
    + left. split; [exact A|]. split; [exact B|]. intros w Hw. apply (C w). now apply E.
    + right. split; [exact A|]. left. now apply E.
    + right. split; [exact A|]. right. split; [|exact C]. intros w Hw. apply (B w). now apply E.
  - intros n v. rewrite <- E. apply He.
Qed.

(** ** The heap *)

Definition wf (h : heap) : Prop := forall f o, nth_error (h_funs h) f = Some o ->
  (forall d, f_params o = Some d -> d < List.length (h_dicts h)) /\
  (match f_code o with Wrapper _ _ g => g < f | Def _ _ => True end).

Lemma wf_lt h f o : nth_error (h_funs h) f = Some o -> f < List.length (h_funs h).
Proof. intros H. apply nth_error_Some. congruence. Qed.

(** What one decorator does. *)
Lemma apply_step d h f o : wf h -> nth_error (h_funs h) f = Some o ->
  exists h' r loc,
    apply d h f = Ok (h', r) /\ wf h' /\
    (* the functions that were there *)
    (forall g og, nth_error (h_funs h) g = Some og -> g <> f -> nth_error (h_funs h') g = Some og) /\
    (exists o', nth_error (h_funs h') f = Some o' /\ f_code o' = f_code o /\ f_params o' = Some loc /\
       (r = f \/ f_meta o' = f_meta o)) /\
    (* the dictionaries *)
    (match f_params o with Some l => loc = l | None => loc = List.length (h_dicts h) end) /\
    (forall l c, nth_error (h_dicts h) l = Some c -> l <> loc -> nth_error (h_dicts h') l = Some c) /\
    nth_error (h_dicts h') loc =
      Some (listing [d] (match f_params o with
                         | Some l => match nth_error (h_dicts h) l with Some c => c | None => [] end
                         | None => [] end)) /\
    (* the result *)
    (exists or, nth_error (h_funs h') r = Some or /\ f_params or = Some loc /\
       match d with
       | APipeline m => r = f /\ f_meta or = Some m
       | AParameter n i => r = List.length (h_funs h) /\ f_meta or = f_meta o /\
                           f_code or = Wrapper n (i_default i) f
       end).
Proof.
  intros W Ho. pose proof (wf_lt h f o Ho) as Lf. pose proof (W f o Ho) as (Wd & Wc).
  destruct d as [m|n i]; cbn [apply].
  - unfold pipeline. rewrite Ho. unfold ensure_parameters. cbn [h_funs h_dicts].
    rewrite lset_same by exact Lf. cbn [f_params]. destruct (f_params o) as [l|] eqn:Ep.
    + cbn [bind]. eexists _, _, l. split; [reflexivity|]. cbn [fst].
      assert (Ll : l < List.length (h_dicts h)) by auto.
      split; [|split; [|split; [|split; [|split; [|split]]]]]; cbn [h_funs h_dicts].
      * intros g og Hg. cbn [h_funs h_dicts] in *. destruct (Nat.eq_dec f g) as [<-|N].
        -- rewrite lset_same in Hg by exact Lf. injection Hg as <-. cbn. auto.
        -- rewrite lset_other in Hg by exact N. now apply W.
      * intros g og Hg N. rewrite lset_other by auto. exact Hg.
      * eexists. split; [now apply lset_same|]. cbn. auto.
      * reflexivity.
      * intros l' c Hc _. exact Hc.
      * cbn [listing]. destruct (nth_error (h_dicts h) l) eqn:E; [reflexivity|].
        apply nth_error_None in E. lia.
      * eexists. split; [now apply lset_same|]. cbn. auto.
    + cbn [bind]. eexists _, _, (List.length (h_dicts h)). split; [reflexivity|]. cbn [fst].
      split; [|split; [|split; [|split; [|split; [|split]]]]]; cbn [h_funs h_dicts f_code f_meta].
      * intros g og Hg. cbn [h_funs h_dicts] in *. rewrite app_length. cbn [List.length].
        destruct (Nat.eq_dec f g) as [<-|N].
        -- rewrite lset_same in Hg by (rewrite lset_length; exact Lf). injection Hg as <-. cbn.
           split; [intros d [= <-]; lia|exact Wc].
        -- rewrite !lset_other in Hg by exact N. destruct (W g og Hg) as [A B]. split; [|exact B].
           intros d Hd. specialize (A d Hd). lia.
      * intros g og Hg N. rewrite !lset_other by auto. exact Hg.
      * eexists. split; [apply lset_same; rewrite lset_length; exact Lf|]. cbn. auto.
      * reflexivity.
      * intros l' c Hc N. rewrite nth_app_old; [exact Hc|]. apply nth_error_Some. congruence.
      * cbn [listing]. apply nth_app_new.
      * eexists. split; [apply lset_same; rewrite lset_length; exact Lf|]. cbn. auto.
  - unfold parameter, ensure_parameters. rewrite Ho. destruct (f_params o) as [l|] eqn:Ep.
    + cbn [bind]. assert (Ll : l < List.length (h_dicts h)) by auto.
      destruct (nth_error (h_dicts h) l) as [c|] eqn:Ec; [|apply nth_error_None in Ec; lia].
      rewrite Ho. cbn [h_funs h_dicts]. eexists _, _, l. split; [reflexivity|].
      split; [|split; [|split; [|split; [|split; [|split]]]]]; cbn [h_funs h_dicts].
      * intros g og Hg. cbn [h_funs h_dicts] in *. rewrite lset_length.
        destruct (Nat.lt_ge_cases g (List.length (h_funs h))) as [Lg|Lg].
        -- rewrite nth_app_old in Hg by exact Lg. now apply W.
        -- rewrite nth_error_app2 in Hg by exact Lg.
           destruct (g - List.length (h_funs h)) as [|k] eqn:Ek; [|destruct k; discriminate].
           cbn in Hg. injection Hg as <-. cbn. split; [intros d Hd; rewrite Ep in Hd; auto|lia].
      * intros g og Hg _. rewrite nth_app_old; [exact Hg|]. now apply (wf_lt h g og).
      * exists o. rewrite nth_app_old by exact Lf. auto.
      * reflexivity.
      * intros l' c' Hc' N. rewrite lset_other by auto. exact Hc'.
      * cbn [listing]. apply lset_same. exact Ll.
      * eexists. split; [apply nth_app_new|]. cbn. auto.
    + cbn [bind]. cbn [h_funs h_dicts]. rewrite nth_app_new. rewrite lset_same by exact Lf.
      eexists _, _, (List.length (h_dicts h)). split; [reflexivity|]. cbn [f_code f_meta f_params].
      split; [|split; [|split; [|split; [|split; [|split]]]]]; cbn [h_funs h_dicts].
      * intros g og Hg. cbn [h_funs h_dicts] in *. rewrite lset_length, app_length. cbn [List.length].
        destruct (Nat.lt_ge_cases g (List.length (h_funs h))) as [Lg|Lg].
        -- rewrite nth_app_old in Hg by (rewrite lset_length; exact Lg).
           destruct (Nat.eq_dec f g) as [<-|N].
           ++ rewrite lset_same in Hg by exact Lf. injection Hg as <-. cbn.
              split; [intros d [= <-]; lia|exact Wc].
           ++ rewrite lset_other in Hg by exact N. destruct (W g og Hg) as [A B]. split; [|exact B].
              intros d Hd. specialize (A d Hd). lia.
        -- rewrite nth_error_app2 in Hg by (rewrite lset_length; exact Lg). rewrite lset_length in Hg.
           destruct (g - List.length (h_funs h)) as [|k] eqn:Ek; [|destruct k; discriminate].
           cbn in Hg. injection Hg as <-. cbn. split; [intros d [= <-]; lia|lia].
      * intros g og Hg N. rewrite nth_app_old by (rewrite lset_length; now apply (wf_lt h g og)).
        now rewrite lset_other by auto.
      * eexists. split; [rewrite nth_app_old by (rewrite lset_length; exact Lf); now apply lset_same|].
        cbn. auto.
      * reflexivity.
      * intros l' c' Hc' N. rewrite lset_other by auto. rewrite nth_app_old; [exact Hc'|].
        apply nth_error_Some. congruence.
      * cbn [listing]. apply lset_same. rewrite app_length. cbn. lia.
      * eexists. rewrite <- (lset_length (h_funs h) f (mkF (f_code o) (f_meta o) (Some (List.length (h_dicts h))))).
        split; [apply nth_app_new|]. cbn. rewrite lset_length. auto.
Qed.

(** The functions of [h] are still there and have their code. *)
Definition codes (h h' : heap) : Prop := forall g o, nth_error (h_funs h) g = Some o ->
  exists o', nth_error (h_funs h') g = Some o' /\ f_code o' = f_code o.

Lemma codes_trans h1 h2 h3 : codes h1 h2 -> codes h2 h3 -> codes h1 h3.
Proof.
  intros A B g o H. destruct (A g o H) as (o1 & H1 & E1). destruct (B g o1 H1) as (o2 & H2 & E2).
  exists o2. split; [exact H2|congruence].
Qed.

Lemma call_codes h h' : wf h -> codes h h' -> forall fuel f args kw,
  f < List.length (h_funs h) -> call fuel h' f args kw = call fuel h f args kw.
Proof.
  intros W C. induction fuel as [|fuel IH]; intros f args kw L; [reflexivity|].
  destruct (nth_error (h_funs h) f) as [o|] eqn:E; [|apply nth_error_None in E; lia].
  destruct (C f o E) as (o' & E' & Ec). cbn [call]. rewrite E, E', Ec.
  pose proof (proj2 (W f o E)) as Wc. destruct (f_code o) as [b s|n d g]; [reflexivity|].
  apply IH. lia.
Qed.

Lemma call_fuel h : wf h -> forall fuel fuel' f args kw, f < fuel -> f < fuel' ->
  call fuel h f args kw = call fuel' h f args kw.
Proof.
  intros W. induction fuel as [|fuel IH]; intros fuel' f args kw L L'; [lia|].
  destruct fuel' as [|fuel']; [lia|]. cbn [call].
  destruct (nth_error (h_funs h) f) as [o|] eqn:E; [|reflexivity].
  pose proof (proj2 (W f o E)) as Wc. destruct (f_code o) as [b s|n d g]; [reflexivity|].
  apply IH; lia.
Qed.

Lemma py_call_codes h h' f args kw : wf h -> codes h h' -> f < List.length (h_funs h) ->
  py_call h' f args kw = py_call h f args kw.
Proof. intros W C L. unfold py_call. now apply call_codes. Qed.

Definition content (h : heap) (o : fobj) : dict info :=
  match f_params o with
  | Some l => match nth_error (h_dicts h) l with Some c => c | None => [] end
  | None => []
  end.

Fixpoint top_meta (ds : list decorator) (m : option meta) : option meta :=
  match ds with
  | [] => m
  | APipeline x :: _ => Some x
  | AParameter _ _ :: below => top_meta below m
  end.

Lemma top_meta_spec ds : top_pipeline ds (top_meta ds None).
Proof.
  induction ds as [|[m|n i] ds IH]; cbn [top_meta].
  - intros y [].
  - exists [], ds. split; [reflexivity|]. intros y [].
  - destruct (top_meta ds None) as [x|]; cbn in *.
    + destruct IH as (up & down & E & N). exists (AParameter n i :: up), down.
      split; [now rewrite E|]. intros y [H|H]; [discriminate|now apply (N y)].
    + intros y [H|H]; [discriminate|now apply (IH y)].
Qed.

Lemma decorate_core ds : forall h f o, wf h -> nth_error (h_funs h) f = Some o ->
  exists h' r or o' loc, decorate ds h f = Ok (h', r) /\ wf h' /\ codes h h' /\
    (r = f \/ List.length (h_funs h) <= r) /\
    (forall args kw, py_call h' r args kw = py_call h' f args (fills ds kw)) /\
    nth_error (h_funs h') r = Some or /\ f_meta or = top_meta ds (f_meta o) /\
    nth_error (h_funs h') f = Some o' /\
    (forall g og, nth_error (h_funs h) g = Some og -> g <> f -> nth_error (h_funs h') g = Some og) /\
    (match f_params o with Some l => loc = l | None => loc = List.length (h_dicts h) end) /\
    (forall l c, nth_error (h_dicts h) l = Some c -> l <> loc -> nth_error (h_dicts h') l = Some c) /\
    (match ds with
     | [] => h' = h /\ r = f
     | _ => f_params or = Some loc /\ f_params o' = Some loc /\
            nth_error (h_dicts h') loc = Some (listing ds (content h o))
     end).
Proof.
  induction ds as [|d ds IH]; intros h f o W Ho.
  - exists h, f, o, o, (match f_params o with Some l => l | None => List.length (h_dicts h) end).
    cbn. split; [reflexivity|]. split; [exact W|].
    split; [intros g og Hg; now exists og|]. do 4 (split; [auto|]). split; [exact Ho|].
    split; [auto|]. split; [now destruct (f_params o)|]. auto.
  - destruct (IH h f o W Ho) as (h1 & r1 & or1 & o1 & loc1 & E1 & W1 & C1 & R1 & K1 & Hr1 & M1 & Hf1 & G1 & L1 & D1 & X1).
    destruct (apply_step d h1 r1 or1 W1 Hr1) as (h2 & r2 & loc2 & E2 & W2 & G2 & (o2 & Ho2 & Co2 & Po2 & Mo2) & L2 & D2 & N2 & (or2 & Hr2 & Pr2 & Q2)).
    assert (C2 : codes h1 h2).
    { intros g og Hg. destruct (Nat.eq_dec g r1) as [->|N].
      - exists o2. split; [exact Ho2|]. congruence.
      - exists og. split; [now apply G2|reflexivity]. }
    pose proof (wf_lt _ _ _ Ho) as Lf. pose proof (wf_lt _ _ _ Hr1) as Lr1. pose proof (wf_lt _ _ _ Hf1) as Lf1.
    assert (HL : List.length (h_funs h) <= List.length (h_funs h1)).
    { destruct (Nat.le_gt_cases (List.length (h_funs h)) (List.length (h_funs h1))) as [A|A]; [exact A|].
      destruct (nth_error (h_funs h) (List.length (h_funs h1))) as [x|] eqn:E; [|apply nth_error_None in E; lia].
      destruct (C1 _ _ E) as (x' & Hx & _). apply wf_lt in Hx. lia. }
    assert (Sloc : loc2 = loc1 /\ (ds <> [] \/ content h1 or1 = content h o) /\
                   (ds <> [] -> content h1 or1 = listing ds (content h o)) /\
                   exists of2, nth_error (h_funs h2) f = Some of2 /\ f_params of2 = Some loc1).
    { destruct ds as [|d' ds'].
      - destruct X1 as [-> ->]. assert (or1 = o) by congruence. subst or1.
        assert (loc2 = loc1) by (destruct (f_params o); congruence). subst loc2.
        split; [reflexivity|]. split; [now right|]. split; [congruence|]. now exists o2.
      - destruct X1 as (P1 & Pf1 & N1). rewrite P1 in L2. subst loc2.
        split; [reflexivity|]. split; [left; discriminate|]. split.
        + intros _. unfold content at 1. now rewrite P1, N1.
        + destruct (Nat.eq_dec f r1) as [->|N]; [now exists o2|].
          exists o1. split; [apply G2; auto|exact Pf1]. }
    destruct Sloc as (-> & S1 & S2 & of2 & Hof2 & Pof2).
    exists h2, r2, or2, of2, loc1.
    split; [cbn [decorate]; rewrite E1; cbn [bind fst snd]; exact E2|]. split; [exact W2|].
    split; [exact (codes_trans _ _ _ C1 C2)|]. split.
    { destruct d as [m|n i]; destruct Q2 as [-> _]; [exact R1|right; exact HL]. }
    split.
    { intros args kw. destruct d as [m|n i]; cbn [fills].
      - destruct Q2 as [-> _]. rewrite (py_call_codes h1 h2 r1), (py_call_codes h1 h2 f) by auto.
        apply K1.
      - destruct Q2 as (-> & _ & Cr2).
        transitivity (py_call h2 r1 args (if dmem kw n then kw else dset kw n (i_default i))).
        + unfold py_call at 1. cbn [call]. rewrite Hr2, Cr2. unfold py_call. apply call_fuel; [exact W2|lia|lia].
        + rewrite (py_call_codes h1 h2 r1), (py_call_codes h1 h2 f) by auto. apply K1. }
    split; [exact Hr2|]. split.
    { destruct d as [m|n i]; cbn [top_meta].
      - now destruct Q2 as [_ ->].
      - destruct Q2 as (_ & -> & _). exact M1. }
    split; [exact Hof2|]. split.
    { intros g og Hg N. apply G2; [now apply G1|]. intros ->.
      destruct R1 as [->|R1]; [congruence|]. apply wf_lt in Hg. lia. }
    split; [exact L1|]. split.
    { intros l c Hl N. apply D2; [now apply D1|exact N]. }
    split; [exact Pr2|]. split; [exact Pof2|]. rewrite N2.
    change (match f_params or1 with
            | Some l => match nth_error (h_dicts h1) l with Some c => c | None => [] end
            | None => [] end) with (content h1 or1).
    assert (CC : content h1 or1 = listing ds (content h o)).
    { destruct ds as [|d' ds']; [destruct S1 as [S1|S1]; [congruence|exact S1]|apply S2; discriminate]. }
    rewrite CC. destruct d; reflexivity.
Qed.

(** ** Programs *)

Lemma wf_def h b s : wf h -> wf (fst (py_def h b s)).
Proof.
  intros W f o H. cbn [py_def fst h_funs h_dicts] in *.
  destruct (Nat.lt_ge_cases f (List.length (h_funs h))) as [L|L].
  - rewrite nth_app_old in H by exact L. now apply W.
  - rewrite nth_error_app2 in H by exact L.
    destruct (f - List.length (h_funs h)) as [|k]; [|destruct k; discriminate].
    cbn in H. injection H as <-. cbn. split; [discriminate|exact I].
Qed.

Lemma made_wf h : made h -> wf h.
Proof.
  induction 1 as [|h b s _ IH|h d f h' r _ IH E].
  - intros [|f] o H; discriminate.
  - now apply wf_def.
  - destruct (nth_error (h_funs h) f) as [o|] eqn:Ho.
    + destruct (apply_step d h f o IH Ho) as (h2 & r2 & loc & E2 & W2 & _). rewrite E in E2. injection E2 as <- <-. exact W2.
    + exfalso. destruct d; cbn [apply] in E; unfold pipeline, parameter, ensure_parameters in E;
        rewrite Ho in E; discriminate.
Qed.

Lemma def_new h b s : let '(h1, f) := py_def h b s in
  nth_error (h_funs h1) f = Some (mkF (Def b s) None None) /\ codes h h1 /\
  (forall g, g < List.length (h_funs h) -> nth_error (h_funs h1) g = nth_error (h_funs h) g).
Proof.
  cbn. split; [apply nth_app_new|]. split.
  - intros g o H. exists o. split; [|reflexivity]. cbn. rewrite nth_app_old; [exact H|].
    exact (wf_lt _ _ _ H).
  - intros g L. now apply nth_app_old.
Qed.

(** A call of a function that is a def. *)
Lemma call_def h f o b s args kw : nth_error (h_funs h) f = Some o -> f_code o = Def b s ->
  py_call h f args kw = let* e := bind_args s args kw in Ok (b, e).
Proof. intros H E. unfold py_call. cbn [call]. now rewrite H, E. Qed.

Lemma calls_body_fills h r f o b s ds args kw :
  (forall args kw, py_call h r args kw = py_call h f args (fills ds kw)) ->
  nth_error (h_funs h) f = Some o -> f_code o = Def b s -> NoDup (keys kw) ->
  calls_body h r b s args kw (given ds kw).
Proof.
  intros K Ho Hc ND. unfold calls_body. rewrite K, (call_def h f o b s _ _ Ho Hc).
  assert (X : forall n v, dget (fills ds kw) n = Some v <-> given ds kw n v)
    by (intros; now apply given_fills).
  destruct (bind_spec s args (fills ds kw) (NoDup_fills ds kw ND)) as [(vs & ex & E & R)|[E R]]; rewrite E; cbn.
  - left. exists vs, ex. split; [reflexivity|]. exact (receives_ext _ _ _ _ _ _ X R).
  - right. split; [reflexivity|]. intros vs ex H. apply (R vs ex).
    refine (receives_ext _ _ _ _ _ _ _ H). intros n v. symmetry. apply X.
Qed.
