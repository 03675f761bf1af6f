(** Counting the electrons of a dense array. *)
From Coq Require Import ZArith List Bool.
From Verif Require Import Base SparseModel SparseSpec CallsModel CallsSpec.
Import ListNotations.
Open Scope Z_scope.

(** The sum of all values of the dense array: the number of electrons in it. *)
Definition electrons (D : list Z) : Z := zsum D.

(** A call that keeps all of the array. *)
Definition keeps_all (o : op) : bool := match o with OSelect _ => false | _ => true end.
(** A selection takes no scan position twice. *)
Definition no_position_twice (d : dense) (o : op) : Prop :=
  match o with
  | OSelect ks => forall sk fk ss sl, split_keys (d_scan d) (d_frame d) ks = Ok (sk, fk) ->
      np_select (d_scan d) sk = Ok (ss, sl) -> NoDup sl
  | _ => True
  end.
Fixpoint no_positions_twice (d : dense) (ops : list op) : Prop :=
  match ops with [] => True | o :: t => no_position_twice d o /\ no_positions_twice (dense_op d o) t end.
