(** What C72 says about data: arrays in row-major order, their multi-indices and
    regions of them. *)
From Coq Require Import String ZArith List.
From Verif Require Import Base H5LibModel.
Import ListNotations.
Open Scope Z_scope.

(** A multi-index of an array with given dimensions, and its place in the list of
    the elements: the last index runs fastest. *)
Definition within (i dims : list Z) : Prop := Forall2 (fun x d => 0 <= x < d) i dims.
Fixpoint ravel (dims i : list Z) : Z :=
  match dims, i with
  | _ :: ds, x :: i' => x * prodZ ds + ravel ds i'
  | _, _ => 0
  end.

(** The element number [k] of a region is at [start + k * stride], per dimension. *)
Fixpoint place (start stride k : list Z) : list Z :=
  match start, stride, k with
  | b :: start', t :: stride', x :: k' => b + x * t :: place start' stride' k'
  | _, _, _ => []
  end.

(** The region with these starts, strides and counts lies in an array with these
    dimensions (and is not empty). *)
Inductive fits : list Z -> list Z -> list Z -> list Z -> Prop :=
| fits_nil : fits [] [] [] []
| fits_cons d b t c ds bs ts cs : 0 <= b -> 1 <= t -> 1 <= c -> b + (c - 1) * t < d -> fits ds bs ts cs ->
    fits (d :: ds) (b :: bs) (t :: ts) (c :: cs).

(** The element of an array at a multi-index. *)
Definition at_index (dims : list Z) (v : list elem) (i : list Z) : elem := nth (Z.to_nat (ravel dims i)) v (ENum 0).

(** An argument that may be left out. *)
Definition given (arg : option (list Z)) (default l : list Z) : Prop := arg = Some l \/ arg = None /\ l = default.
(** The counts of readData if none are given. *)
Fixpoint default_counts (dims start stride : list Z) : list Z :=
  match dims, start, stride with
  | d :: dims', b :: start', t :: stride' => (d - b) / t :: default_counts dims' start' stride'
  | _, _, _ => []
  end.

(** No call of the library fails for reasons of its own. *)
Definition no_faults (s : world) : Prop := forall k, w_fault s k = false.

(** A data set (an attribute) of this name can be made: the file is open for
    writing, the group (the object) is there and the name is free. *)
Definition creatable (s : world) (p : path) (n : string) (dims : list Z) : Prop :=
  0 <= m_file s /\ w_ro s = false /\ is_group (w_tree s) p = true /\ find_obj (w_tree s) (p ++ [n]) = None /\ Forall (fun d => 0 <= d) dims.
Definition settable (s : world) (p : path) (n : string) : Prop :=
  0 <= m_file s /\ w_ro s = false /\ find_obj (w_tree s) p <> None /\ attr_at s p n = None.

(** The chunks of a data set are not larger than it. *)
Definition chunk_fits (chunk dims : list Z) : Prop := chunk = [] \/ Forall2 (fun c d => 1 <= c <= d) chunk dims.
(** A group of this name can be made. *)
Definition group_creatable (s : world) (p : path) : Prop :=
  0 <= m_file s /\ w_ro s = false /\ p <> [] /\ is_group (w_tree s) (removelast p) = true /\ find_obj (w_tree s) p = None.

(** A data set holds as many values as its dimensions say. *)
Definition whole (s : world) (p : path) : Prop :=
  forall t d v, data_at s p = Some (t, d, v) -> Zlen v = prodZ d /\ Forall (fun x => 0 <= x) d.

(** Nothing but the object at [p] (nothing but its attribute [n]) is changed. *)
Definition only_at (p : path) (s s' : world) : Prop := forall q, q <> p -> find_obj (w_tree s') q = find_obj (w_tree s) q.
Definition only_attr (p : path) (n : string) (s s' : world) : Prop :=
  (forall q m, (q, m) <> (p, n) -> attr_at s' q m = attr_at s q m) /\
  (forall q, data_at s' q = data_at s q) /\ (forall q, is_group (w_tree s') q = is_group (w_tree s) q).
