(** Common vocabulary of the model: outcomes with explicit undefined behaviour,
    fixed-width integer wraps, bounds-checked arrays, counted loops.  This file
    models no particular stempy function; it gives the C++ semantics used by
    the *Model.v files. *)
From Coq Require Import ZArith List Lia String Bool.
Import ListNotations.
Open Scope Z_scope.

(** Result of running a piece of modelled code.
    [Throw]: the code raises an exception the caller sees.
    [UB]: the C++ behaviour is undefined (out of bounds, null dereference,
    division by zero, signed overflow, ...).
    [OutOfFuel]: a loop without syntactic bound did not finish in the fuel. *)
Inductive outcome (A : Type) : Type :=
| Ok (a : A)
| Throw (msg : string)
| UB (why : string)
| OutOfFuel.
Arguments Ok {A} a.
Arguments Throw {A} msg.
Arguments UB {A} why.
Arguments OutOfFuel {A}.

Definition bind {A B} (m : outcome A) (k : A -> outcome B) : outcome B :=
  match m with
  | Ok a => k a
  | Throw s => Throw s
  | UB s => UB s
  | OutOfFuel => OutOfFuel
  end.

Notation "'let*' x ':=' m 'in' k" := (bind m (fun x => k))
  (at level 200, x pattern, m at level 100, k at level 200, right associativity).

Definition is_ok {A} (m : outcome A) : Prop := exists a, m = Ok a.

(** Fixed-width wraps. *)
Definition u16 (z : Z) : Z := z mod 2 ^ 16.
Definition u32 (z : Z) : Z := z mod 2 ^ 32.
Definition u64 (z : Z) : Z := z mod 2 ^ 64.
Definition is_u16 (z : Z) : Prop := 0 <= z < 2 ^ 16.
Definition is_u32 (z : Z) : Prop := 0 <= z < 2 ^ 32.
Definition is_u64 (z : Z) : Prop := 0 <= z < 2 ^ 64.
Definition is_i32 (z : Z) : Prop := - 2 ^ 31 <= z < 2 ^ 31.
(** Conversion of an unsigned 32-bit value to [int] (two's complement). *)
Definition i32_of_u32 (z : Z) : Z := if z <? 2 ^ 31 then z else z - 2 ^ 32.

(** Arrays. *)
Fixpoint upd {A} (l : list A) (n : nat) (v : A) : list A :=
  match l, n with
  | [], _ => []
  | _ :: t, O => v :: t
  | x :: t, S m => x :: upd t m v
  end.

Definition rd {A} (l : list A) (i : Z) : outcome A :=
  if i <? 0 then UB "negative index"
  else match nth_error l (Z.to_nat i) with
       | Some v => Ok v
       | None => UB "index past the end"
       end.

Definition wr {A} (l : list A) (i : Z) (v : A) : outcome (list A) :=
  if (i <? 0) || (Z.of_nat (List.length l) <=? i) then UB "write out of bounds"
  else Ok (upd l (Z.to_nat i) v).

(** [for (i = i0; i < i0 + n; ++i) s = body i s] *)
Fixpoint for_from {S} (n : nat) (i : Z) (body : Z -> S -> outcome S) (s : S)
  : outcome S :=
  match n with
  | O => Ok s
  | S m => bind (body i s) (for_from m (i + 1) body)
  end.

Definition for_loop {S} (n : Z) (body : Z -> S -> outcome S) (s : S)
  : outcome S := for_from (Z.to_nat n) 0 body s.

(** [for (x : l) s = body x s] *)
Fixpoint for_each {A S} (l : list A) (body : A -> S -> outcome S) (s : S)
  : outcome S :=
  match l with
  | [] => Ok s
  | x :: t => bind (body x s) (for_each t body)
  end.

Definition Zlen {A} (l : list A) : Z := Z.of_nat (List.length l).

Fixpoint zsum (l : list Z) : Z :=
  match l with [] => 0 | x :: t => x + zsum t end.

(** Integers 0 .. n-1. *)
Definition zseq (n : Z) : list Z := map Z.of_nat (seq 0 (Z.to_nat n)).

(** Value at index [i], 0 outside (used in specifications only). *)
Definition zat (l : list Z) (i : Z) : Z :=
  if i <? 0 then 0 else nth (Z.to_nat i) l 0.
