(** C76: the pipeline decorators list and fill in the declared parameters. *)
From Coq Require Import String ZArith List Bool Lia Arith.
From Verif Require Import Base PipeModel PipeSpec PipeProofs.
Import ListNotations.
Open Scope list_scope.
Open Scope nat_scope.

(** In any program, a function written under a stack of decorators lists in
    PARAMETERS every declared parameter once, as its topmost declaration describes
    it, in order from the bottom, and has the attributes of the topmost
    pipeline(). *)
Theorem C76_listed h body sig ds : made h -> ds <> [] ->
  exists h' r l m, (let '(h1, f) := py_def h body sig in decorate ds h1 f) = Ok (h', r) /\
    made h' /\
    parameters_of h' r = Some l /\ lists ds l /\ meta_of h' r = m /\ top_pipeline ds m.
Proof.
  intros M Ne. pose proof (def_new h body sig) as D.
  pose proof (made_def h body sig M) as M1.
  destruct (py_def h body sig) as [h1 f] eqn:Ed. cbn [fst] in M1.
  destruct D as (Hf & _ & _).
  destruct (decorate_core ds h1 f _ (made_wf _ M1) Hf)
    as (h2 & r & or & o' & loc & E & W & C & R & K & Hr & Me & Ho' & G & L & Dd & X).
  exists h2, r, (listing ds []), (top_meta ds None). split; [exact E|].
  split.
  { clear -E M1. revert h2 r E. induction ds as [|d ds IH]; intros h2 r E; cbn in E.
    - injection E as <- _. exact M1.
    - destruct (decorate ds h1 f) as [[h3 r3]| | |]; try discriminate. cbn in E.
      exact (made_decorated h3 d r3 h2 r (IH h3 r3 eq_refl) E). }
  destruct ds as [|d ds]; [congruence|]. destruct X as (X1 & X2 & X3). split; [|split; [|split]].
  - unfold parameters_of. rewrite Hr, X1. exact X3.
  - apply lists_listing.
  - unfold meta_of. now rewrite Hr, Me.
  - apply top_meta_spec.
Qed.

(** A call of it runs the function with the arguments of the call, and for every
    declared parameter that the call does not name by keyword with the topmost
    default; it raises TypeError exactly if Python's rules have no reading of
    these. *)
Theorem C76_call h body sig ds args kw : made h -> NoDup (keys kw) ->
  exists h' r, (let '(h1, f) := py_def h body sig in decorate ds h1 f) = Ok (h', r) /\
    calls_body h' r body sig args kw (given ds kw).
Proof.
  intros M ND. pose proof (def_new h body sig) as D.
  pose proof (made_def h body sig M) as M1.
  destruct (py_def h body sig) as [h1 f] eqn:Ed. cbn [fst] in M1.
  destruct D as (Hf & _ & _).
  destruct (decorate_core ds h1 f _ (made_wf _ M1) Hf)
    as (h2 & r & or & o' & loc & E & W & C & R & K & Hr & Me & Ho' & G & L & Dd & X).
  exists h2, r. split; [exact E|].
  destruct (C f _ Hf) as (o2 & Ho2 & Co2). cbn in Co2.
  exact (calls_body_fills h2 r f o2 body sig ds args kw K Ho2 Co2 ND).
Qed.

(** Functions of their own do not disturb each other: a new decorated function
    leaves the parameters, the attributes and the calls of all others as they
    were. *)
Theorem C76_separate h body sig ds h' r g : made h ->
  (let '(h1, f) := py_def h body sig in decorate ds h1 f) = Ok (h', r) ->
  g < List.length (h_funs h) ->
  parameters_of h' g = parameters_of h g /\ meta_of h' g = meta_of h g /\
  forall args kw, py_call h' g args kw = py_call h g args kw.
Proof.
  intros M Ed Lg. pose proof (def_new h body sig) as D.
  pose proof (made_def h body sig M) as M1. pose proof (made_wf _ M) as Wh.
  assert (Ef : snd (py_def h body sig) = List.length (h_funs h)) by reflexivity.
  assert (Edic : h_dicts (fst (py_def h body sig)) = h_dicts h) by reflexivity.
  destruct (py_def h body sig) as [h1 f] eqn:Edd. cbn [fst snd] in *.
  destruct D as (Hf & C0 & Old).
  destruct (decorate_core ds h1 f _ (made_wf _ M1) Hf)
    as (h2 & r2 & or & o' & loc & E & W & C & R & K & Hr & Me & Ho' & G & L & Dd & X).
  rewrite Ed in E. injection E as <- <-. cbn [f_params] in L.
  destruct (nth_error (h_funs h) g) as [og|] eqn:Eg; [|apply nth_error_None in Eg; lia].
  assert (Eg' : nth_error (h_funs h') g = Some og).
  { apply G; [rewrite Old; auto|lia]. }
  split; [|split].
  - unfold parameters_of. rewrite Eg, Eg'. destruct (f_params og) as [l|] eqn:Ep; [|reflexivity].
    pose proof (proj1 (Wh g og Eg) l Ep) as Ll.
    destruct (nth_error (h_dicts h) l) as [c|] eqn:Ec; [|apply nth_error_None in Ec; lia].
    apply Dd; [now rewrite Edic|]. rewrite Edic in L. lia.
  - unfold meta_of. now rewrite Eg, Eg'.
  - intros args kw. apply py_call_codes; [exact Wh| |exact Lg].
    exact (codes_trans _ _ _ C0 C).
Qed.

(** Whatever is decorated later, even the same function, the calls of a function
    stay what they were. *)
Theorem C76_calls_stay h d f h' r g args kw : made h -> apply d h f = Ok (h', r) ->
  g < List.length (h_funs h) -> py_call h' g args kw = py_call h g args kw.
Proof.
  intros M E L. pose proof (made_wf _ M) as W.
  destruct (nth_error (h_funs h) f) as [o|] eqn:Ho.
  - destruct (apply_step d h f o W Ho) as (h2 & r2 & loc & E2 & W2 & G2 & (o2 & Ho2 & Co2 & _) & _).
    rewrite E in E2. injection E2 as <- <-. apply py_call_codes; [exact W| |exact L].
    intros x ox Hx. destruct (Nat.eq_dec x f) as [->|N].
    + exists o2. split; [exact Ho2|congruence].
    + exists ox. split; [now apply G2|reflexivity].
  - exfalso. destruct d; cbn [apply] in E; unfold pipeline, parameter, ensure_parameters in E;
      rewrite Ho in E; discriminate.
Qed.

(** ** Findings *)

(** A parameter cannot be given by place: whenever the arguments of a call reach a
    declared parameter, the call raises TypeError, whatever the stack. *)
Theorem C76_by_place_refuted h body sig ds args kw k n d : made h -> NoDup (keys kw) ->
  declares ds n -> nth_error (sig_params sig) k = Some (n, d) -> k < List.length args ->
  exists h' r, (let '(h1, f) := py_def h body sig in decorate ds h1 f) = Ok (h', r) /\
    py_call h' r args kw = Throw "TypeError".
Proof.
  intros M ND Dn Hk La. destruct (C76_call h body sig ds args kw M ND) as (h' & r & E & [(vs & ex & Ec & R)|[Ec _]]).
  - exfalso. destruct R as (L & _ & R & _).
    destruct (nth_error vs k) as [v|] eqn:Ev.
    + destruct (R k n d v Hk Ev) as [(_ & _ & N)|[A _]]; [|lia].
      destruct (dget (fills ds kw) n) as [w|] eqn:Ew.
      * apply (N w). now apply given_fills.
      * rewrite dget_fills in Ew. destruct (dget kw n); [discriminate|].
        destruct (top_lookup ds n) eqn:T; [discriminate|]. now apply top_lookup_none in T.
    + apply nth_error_None in Ev. assert (k < List.length (sig_params sig)) by (apply nth_error_Some; congruence). lia.
  - now exists h', r.
Qed.

(** A declared parameter that the function does not take makes every call fail. *)
Theorem C76_not_taken_refuted h body sig ds args kw n : made h -> NoDup (keys kw) ->
  declares ds n -> ~ In n (map fst (sig_params sig)) -> sig_kwargs sig = false ->
  exists h' r, (let '(h1, f) := py_def h body sig in decorate ds h1 f) = Ok (h', r) /\
    py_call h' r args kw = Throw "TypeError".
Proof.
  intros M ND Dn Hn Hk. destruct (C76_call h body sig ds args kw M ND) as (h' & r & E & [(vs & ex & Ec & R)|[Ec _]]).
  - exfalso. destruct R as (_ & _ & _ & _ & He & Hx). specialize (Hx Hk). subst ex.
    assert (X : exists w, given ds kw n w).
    { destruct (dget (fills ds kw) n) as [w|] eqn:Ew.
      - exists w. now apply given_fills.
      - exfalso. rewrite dget_fills in Ew. destruct (dget kw n); [discriminate|].
        destruct (top_lookup ds n) eqn:T; [discriminate|]. now apply top_lookup_none in T. }
    destruct X as (w & Hw). assert (Y : In (n, w) []) by (apply He; auto). destruct Y.
  - now exists h', r.
Qed.

(** Two stacks over one function share their parameters: afterwards both results
    list the declarations of both, though each still fills in only its own. *)
Theorem C76_shared_refuted h body sig ds1 ds2 : made h -> ds1 <> [] -> ds2 <> [] ->
  exists h1 h2 r1 r2 l, let f := snd (py_def h body sig) in
    decorate ds1 (fst (py_def h body sig)) f = Ok (h1, r1) /\
    decorate ds2 h1 f = Ok (h2, r2) /\
    parameters_of h2 r1 = Some l /\ parameters_of h2 r2 = Some l /\ lists (ds2 ++ ds1) l /\
    forall args kw, NoDup (keys kw) ->
      calls_body h2 r1 body sig args kw (given ds1 kw) /\
      calls_body h2 r2 body sig args kw (given ds2 kw).
Proof.
  intros M N1 N2. pose proof (def_new h body sig) as D.
  pose proof (made_def h body sig M) as M0.
  destruct (py_def h body sig) as [h0 f] eqn:Ed. cbn [fst snd] in *.
  destruct D as (Hf & _ & _).
  destruct (decorate_core ds1 h0 f _ (made_wf _ M0) Hf)
    as (h1 & r1 & or1 & o1 & loc1 & E1 & W1 & C1 & R1 & K1 & Hr1 & Me1 & Ho1 & G1 & L1 & D1 & X1).
  destruct (decorate_core ds2 h1 f o1 W1 Ho1)
    as (h2 & r2 & or2 & o2 & loc2 & E2 & W2 & C2 & R2 & K2 & Hr2 & Me2 & Ho2 & G2 & L2 & D2 & X2).
  destruct ds1 as [|d1 ds1]; [congruence|]. destruct ds2 as [|d2 ds2]; [congruence|].
  destruct X1 as (A1 & A2 & A3). destruct X2 as (B1 & B2 & B3).
  rewrite A2 in L2. subst loc2.
  assert (CC : content h1 o1 = listing (d1 :: ds1) []).
  { unfold content at 1. rewrite A2, A3. reflexivity. }
  rewrite CC, <- listing_app in B3.
  exists h1, h2, r1, r2, (listing ((d2 :: ds2) ++ d1 :: ds1) []).
  split; [exact E1|]. split; [exact E2|]. split; [|split; [|split]].
  - unfold parameters_of. destruct (Nat.eq_dec r1 f) as [->|N].
    + rewrite Ho2, B2. exact B3.
    + rewrite (G2 r1 or1 Hr1 N), A1. exact B3.
  - unfold parameters_of. rewrite Hr2, B1. exact B3.
  - apply lists_listing.
  - intros args kw ND. destruct (C1 f _ Hf) as (x1 & Hx1 & Cx1).
    destruct (C2 f _ Hx1) as (x2 & Hx2 & Cx2). rewrite Cx1 in Cx2. cbn in Cx2.
    split; [|exact (calls_body_fills h2 r2 f x2 body sig _ args kw K2 Hx2 Cx2 ND)].
    refine (calls_body_fills h2 r1 f x2 body sig _ args kw _ Hx2 Cx2 ND).
    intros a k. rewrite (py_call_codes h1 h2 r1), (py_call_codes h1 h2 f); auto.
    + exact (wf_lt _ _ _ Ho1).
    + exact (wf_lt _ _ _ Hr1).
Qed.

(** ** Examples *)

Open Scope Z_scope.
Open Scope string_scope.

(** A pipeline over [reader, width, radius=9, **kwargs]; width is declared twice. *)
Definition ex_sig := mkSig [("reader", None); ("width", None); ("radius", Some 9)] true.
Definition ex_i (n : Z) := mkInfo 0 0 0 n.
Definition ex_m (n : Z) := mkMeta n 0 0 0 0.
Definition ex_stack := [AParameter "width" (ex_i 40); APipeline (ex_m 1); AParameter "mask" (ex_i 5);
                        AParameter "width" (ex_i 7); APipeline (ex_m 2)].

Definition ex_run (args : list val) (kw : dict val) :=
  let* r := (let '(h1, f) := py_def (mkHeap [] []) 77 ex_sig in decorate ex_stack h1 f) in
  let* c := py_call (fst r) (snd r) args kw in
  Ok (option_map (map (fun p => (fst p, i_default (snd p)))) (parameters_of (fst r) (snd r)),
      meta_of (fst r) (snd r), c).

Example ex_decorated :
  ex_run [3] [] = Ok (Some [("width", 40); ("mask", 5)], Some (ex_m 1),
                        (77, ([3; 40; 9], [("mask", 5)]))) /\
  ex_run [3] [("mask", 6); ("radius", 1)] =
    Ok (Some [("width", 40); ("mask", 5)], Some (ex_m 1),
        (77, ([3; 40; 1], [("mask", 6)]))).
Proof. split; reflexivity. Qed.

(** The topmost of two declarations wins, and width stands first. *)
Example ex_topmost : topmost ex_stack "width" (ex_i 40) /\ declares ex_stack "mask" /\
  top_pipeline ex_stack (Some (ex_m 1)).
Proof.
  split; [|split].
  - exists [], (tl ex_stack). split; [reflexivity|]. intros [i []].
  - exists (ex_i 5). cbn. auto.
  - exists [AParameter "width" (ex_i 40)], (skipn 2 ex_stack). split; [reflexivity|].
    intros y [H|[]]. discriminate.
Qed.

(** By place, a call of the example fails; without the decorators it would not. *)
Example ex_by_place : ex_run [3; 40] [] = Throw "TypeError" /\
  bind_args ex_sig [3; 40] [] = Ok ([3; 40; 9], []).
Proof. split; reflexivity. Qed.

(** One function made into two pipelines: the first lists the parameter of the
    second. *)
Example ex_shared :
  let '(h0, f) := py_def (mkHeap [] []) 77 ex_sig in
  (let* r1 := decorate [AParameter "width" (ex_i 1)] h0 f in
   let* r2 := decorate [AParameter "mask" (ex_i 2)] (fst r1) f in
   let* c := py_call (fst r2) (snd r1) [3] [] in
   Ok (option_map (@keys info) (parameters_of (fst r2) (snd r1)), c))
  = Ok (Some ["width"; "mask"], (77, ([3; 1; 9], []))).
Proof. reflexivity. Qed.

Print Assumptions C76_listed.
Print Assumptions C76_call.
Print Assumptions C76_separate.
Print Assumptions C76_calls_stay.
Print Assumptions C76_by_place_refuted.
Print Assumptions C76_not_taken_refuted.
Print Assumptions C76_shared_refuted.
