(** The methods max, min and sum of SparseArray with any axis argument: the three
    decorators of python/stempy/io/sparse_array.py:12-73 around the bodies
    :385-517.  The specialised loops are those of SparseModel.v. *)
From Coq Require Import String ZArith List Bool.
From Verif Require Import Base SparseModel.
Import ListNotations.
Open Scope Z_scope.

(** * NumPy's reduction of an array over some of its axes (trusted library) *)

(** All indices of an array, in C order, and the place of one in the flat list. *)
Fixpoint indices (shape : list Z) : list (list Z) :=
  match shape with
  | [] => [[]]
  | n :: s => flat_map (fun i => map (cons i) (indices s)) (zseq n)
  end.

Fixpoint flat (shape idx : list Z) : Z :=
  match shape, idx with
  | _ :: s, i :: t => i * np_prod s + flat s t
  | _, _ => 0
  end.

(** A tuple without its entries at the places [axes]. *)
Fixpoint drop_from (start : Z) (axes l : list Z) : list Z :=
  match l with
  | [] => []
  | x :: t => if existsb (Z.eqb start) axes then drop_from (start + 1) axes t
              else x :: drop_from (start + 1) axes t
  end.
Definition drop_axes : list Z -> list Z -> list Z := drop_from 0.

Definition tuple_eqb (a b : list Z) : bool := if list_eq_dec Z.eq_dec a b then true else false.

(** For each index of the result the entries reduced to it: those whose index
    agrees with it on the other axes. *)
Definition np_fibers (shape axes D : list Z) : list (list Z) :=
  map (fun o => map (fun i => zat D (flat shape i))
                  (filter (fun i => tuple_eqb (drop_axes axes i) o) (indices shape)))
      (indices (drop_axes axes shape)).

Fixpoint distinct (l : list Z) : bool :=
  match l with [] => true | x :: t => negb (existsb (Z.eqb x) t) && distinct t end.

(** Axes may be negative; AxisError (out of range) and ValueError (repeated) are both
    ValueErrors. *)
Definition np_axes (n : Z) (axis : list Z) : outcome (list Z) :=
  if forallb (fun a => (- n <=? a) && (a <? n)) axis && distinct (map (fun a => a mod n) axis)
  then Ok (map (fun a => a mod n) axis)
  else value_error.

Inductive reduction := RMax | RMin | RSum.

(** ndarray.max, min and sum with a tuple of axes: max and min take no dtype; sum
    adds up in the given type, or else in one of at least 64 bits. *)
Definition np_reduce (kind : reduction) (bits : Z) (shape D axis : list Z) (dtype : option Z)
  : outcome (list Z * list Z) :=
  match kind, dtype with
  | RSum, _ =>
      let* ax := np_axes (Zlen shape) axis in
      let b := match dtype with Some b => b | None => Z.max bits 64 end in
      Ok (drop_axes ax shape, map (fun l => wrapu b (zsum l)) (np_fibers shape ax D))
  | _, Some _ => Throw "TypeError"
  | RMax, None =>
      let* ax := np_axes (Zlen shape) axis in
      let* vs := mapM np_max (np_fibers shape ax D) in Ok (drop_axes ax shape, vs)
  | RMin, None =>
      let* ax := np_axes (Zlen shape) axis in
      let* vs := mapM np_min (np_fibers shape ax D) in Ok (drop_axes ax shape, vs)
  end.

(** * The decorators *)

(** The argument axis: nothing, the words 'scan' and 'frame', a number, a list or
    tuple of numbers. *)
Inductive axis_arg := AxNone | AxScan | AxFrame | AxInt (i : Z) | AxSeq (l : list Z).

(** sorted(). *)
Fixpoint ins (x : Z) (l : list Z) : list Z :=
  match l with [] => [x] | y :: t => if x <=? y then x :: y :: t else y :: ins x t end.
Definition isort (l : list Z) : list Z := fold_right ins [] l.

(** scan_axes, frame_axes, _default_axis, :744-773. *)
Definition scan_axes (sa : sparse) : list Z := zseq (Zlen (sp_scan sa)).
Definition frame_axes (sa : sparse) : list Z :=
  map (fun k => Zlen (sp_scan sa) + k) (zseq (Zlen (sp_shape sa) - Zlen (sp_scan sa))).
Definition default_axis (sa : sparse) : list Z := zseq (Zlen (sp_shape sa)).

(** _format_axis, :12-26. *)
Definition format_axis (sa : sparse) (a : axis_arg) : list Z :=
  isort (match a with
         | AxNone => default_axis sa
         | AxScan => scan_axes sa
         | AxFrame => frame_axes sa
         | AxInt i => [i]
         | AxSeq l => l
         end).

(** _is_scan_axes and _is_frame_axes, :775-779. *)
Definition is_scan_axes (sa : sparse) (axis : list Z) : bool := tuple_eqb (isort axis) (scan_axes sa).
Definition is_frame_axes (sa : sparse) (axis : list Z) : bool := tuple_eqb (isort axis) (frame_axes sa).

(** The bodies of max, min and sum, :385-517; [None]: the body returns nothing. *)
Definition body (kind : reduction) (sa : sparse) (axis : list Z) (dtype : option Z)
  : outcome (option (list Z * list Z)) :=
  let bits := match dtype with Some b => b | None => sp_bits sa end in
  if is_scan_axes sa axis then
    let* r := match kind with
              | RMax => max_scan sa bits | RMin => min_scan sa bits | RSum => sum_scan sa bits
              end in
    Ok (Some (sp_frame sa, r))
  else if is_frame_axes sa axis then
    let* r := match kind with
              | RMax => max_frame sa bits | RMin => min_frame sa bits | RSum => sum_frame sa bits
              end in
    Ok (Some (sp_scan sa, r))
  else Ok None.

Definition with_slicing (sa : sparse) (b : bool) : sparse :=
  mkSparse (sp_data sa) (sp_F sa) (sp_scan sa) (sp_frame sa) (sp_bits sa) b (sp_full sa).

(** _default_full_expansion, :29-46: the result and the object afterwards (the
    attribute sparse_slicing is changed and set back).  The arguments axis and dtype
    are passed on to the method of the dense array. *)
Definition full_expansion (kind : reduction) (sa : sparse) (axis : list Z) (dtype : option Z)
  : outcome (list Z * list Z) * sparse :=
  match body kind sa axis dtype with
  | Ok (Some r) => (Ok r, sa)
  | Ok None =>
      let previous := sp_slicing sa in                     (* :39 *)
      let sa1 := with_slicing sa false in                  (* :40 *)
      let expanded := getitem sa1 [KSlice None None None] in   (* :42 *)
      let sa2 := with_slicing sa1 previous in              (* :44 *)
      (let* e := expanded in
       match e with
       | Dense shape D => np_reduce kind (sp_bits sa) shape D axis dtype   (* :45 *)
       | Sparse _ => Throw "not a dense array"
       end, sa2)
  | Throw m => (Throw m, sa)
  | UB m => (UB m, sa)
  | OutOfFuel => (OutOfFuel, sa)
  end.

(** a.max(axis, dtype=...), a.min(...), a.sum(...).  (_warn_unimplemented_kwargs,
    :49-60, only prints.) *)
Definition py_reduce (kind : reduction) (sa : sparse) (axis : axis_arg) (dtype : option Z)
  : outcome (list Z * list Z) * sparse :=
  full_expansion kind sa (format_axis sa axis) dtype.
