(** Adding up float32 numbers in any order and grouping. *)
From Coq Require Import ZArith List Permutation.
From Verif Require Import Float32 SparseMeanModel.
Import ListNotations.

Inductive added : list float32 -> float32 -> Prop :=
| added_none : added [] (f_of_Z 0%Z)
| added_one x : added [x] x
| added_two l1 l2 x y : added l1 x -> added l2 y -> added (l1 ++ l2) (f_add x y)
| added_order l l' x : added l x -> Permutation l l' -> added l' x.

(** A way of adding up any list. *)
Definition summation (order : list float32 -> float32) : Prop := forall l, added l (order l).
