(** What a stack of decorators should mean. *)
From Coq Require Import String ZArith List.
From Verif Require Import Base PipeModel.
Import ListNotations.
Open Scope Z_scope.

Definition declares (ds : list decorator) (n : string) : Prop :=
  exists i, In (AParameter n i) ds.

(** The declaration of [n] nearest to the top. *)
Definition topmost (ds : list decorator) (n : string) (i : info) : Prop :=
  exists up down, ds = up ++ AParameter n i :: down /\ ~ declares up n.

(** The pipeline decorator nearest to the top. *)
Definition top_pipeline (ds : list decorator) (m : option meta) : Prop :=
  match m with
  | Some x => exists up down, ds = up ++ APipeline x :: down /\ forall y, ~ In (APipeline y) up
  | None => forall y, ~ In (APipeline y) ds
  end.

Definition keys {A} (d : dict A) : list string := map fst d.

Definition stands_before (l : list string) (n m : string) : Prop :=
  exists a b c, l = a ++ n :: b ++ m :: c.

(** A list of parameters for a stack: every declared name once, described as in its
    topmost declaration, in the order of the lowest declarations from the bottom. *)
Definition lists (ds : list decorator) (l : dict info) : Prop :=
  NoDup (keys l) /\
  (forall n i, In (n, i) l <-> topmost ds n i) /\
  (forall n m, stands_before (keys l) n m <->
     exists up down, ds = up ++ down /\ declares down n /\ declares up m /\ ~ declares down m).

(** The keywords a body should get: those of the call, and the topmost default of
    every declared parameter the call does not name. *)
Definition given (ds : list decorator) (kw : dict val) (n : string) (v : val) : Prop :=
  In (n, v) kw \/ (~ In n (keys kw) /\ exists i, topmost ds n i /\ v = i_default i).

(** Python's rules for a call with these keywords: [vs] are the values of the
    parameters, [extra] is what **kwargs gets. *)
Definition receives (s : signature) (args : list val) (kws : string -> val -> Prop)
    (vs : list val) (extra : dict val) : Prop :=
  List.length vs = List.length (sig_params s) /\
  (List.length args <= List.length (sig_params s))%nat /\
  (forall k n d v, nth_error (sig_params s) k = Some (n, d) -> nth_error vs k = Some v ->
     ((k < List.length args)%nat /\ nth_error args k = Some v /\ forall w, ~ kws n w) \/
     ((List.length args <= k)%nat /\ (kws n v \/ ((forall w, ~ kws n w) /\ d = Some v)))) /\
  NoDup (keys extra) /\
  (forall n v, In (n, v) extra <-> kws n v /\ ~ In n (map fst (sig_params s))) /\
  (sig_kwargs s = false -> extra = []).

(** A call of function [f] runs the body [b] with what Python's rules say for the
    keywords [kws], or raises TypeError if they say nothing. *)
Definition calls_body (h : heap) (f : nat) (b : Z) (s : signature)
    (args : list val) (kw : dict val) (kws : string -> val -> Prop) : Prop :=
  (exists vs extra, py_call h f args kw = Ok (b, (vs, extra)) /\ receives s args kws vs extra) \/
  (py_call h f args kw = Throw "TypeError" /\ forall vs extra, ~ receives s args kws vs extra).

(** The heaps a program can make with def and the decorators, in any order. *)
Inductive made : heap -> Prop :=
| made_nothing : made (mkHeap [] [])
| made_def h b s : made h -> made (fst (py_def h b s))
| made_decorated h d f h' r : made h -> apply d h f = Ok (h', r) -> made h'.
