(** The method mean of SparseArray with any axis argument and result type,
    python/stempy/io/sparse_array.py:519-558, inside the decorators :12-73. *)
From Coq Require Import String ZArith List Bool Permutation.
From Verif Require Import Base Double Float32 FloatConv SparseModel SparseMeanModel AxisModel.
Import ListNotations.
Open Scope string_scope.
Open Scope Z_scope.

(** ndarray.sum with a tuple of axes and dtype float32 (trusted library): NumPy adds
    the entries of a fibre in an order of its own, [order]. *)
Definition np_float_sum (order : list float32 -> float32) (shape D axis : list Z) : outcome (list Z * list float32) :=
  let* ax := np_axes (Zlen shape) axis in
  Ok (drop_axes ax shape, map (fun l => order (map f_of_Z l)) (np_fibers shape ax D)).

(** sum(axis, dtype=np.float32): the body :502-517 ... *)
Definition float_body (sa : sparse) (axis : list Z) : outcome (option (list Z * list float32)) :=
  if is_scan_axes sa axis then
    let* r := fsum_scan sa in Ok (Some (sp_frame sa, r))
  else if is_frame_axes sa axis then
    let* r := fsum_frame sa in Ok (Some (sp_scan sa, r))
  else Ok None.

(** ... in its decorators, :12-46 (compare AxisModel.full_expansion). *)
Definition float_sum (order : list float32 -> float32) (sa : sparse) (a : axis_arg)
  : outcome (list Z * list float32) * sparse :=
  let axis := format_axis sa a in
  match float_body sa axis with
  | Ok (Some r) => (Ok r, sa)
  | Ok None =>
      let previous := sp_slicing sa in
      let sa1 := with_slicing sa false in
      let expanded := getitem sa1 [KSlice None None None] in
      let sa2 := with_slicing sa1 previous in
      (let* e := expanded in
       match e with
       | Dense shape D => np_float_sum order shape D axis
       | Sparse _ => Throw "not a dense array"
       end, sa2)
  | Throw m => (Throw m, sa)
  | UB m => (UB m, sa)
  | OutOfFuel => (OutOfFuel, sa)
  end.

(** self.shape[x] of a tuple, for a negative x from its end. *)
Definition tuple_at (t : list Z) (x : Z) : outcome Z :=
  let n := Zlen t in
  if (- n <=? x) && (x <? n) then Ok (zat t (if x <? 0 then x + n else x)) else Throw "IndexError".

(** mean_length, :549 (numbers below 2 ^ 63). *)
Definition mean_length (sa : sparse) (axis : list Z) : outcome Z :=
  let* l := mapM (tuple_at (sp_shape sa)) axis in Ok (np_prod l).

(** The argument dtype: float32, which is also the default (:543-544), or an unsigned
    type of some width. *)
Inductive mean_type := MFloat32 | MInt (bits : Z).

(** The result: an array of float32, or, when all axes are reduced, a NumPy scalar
    of type float64: a float32 or integer scalar divided by an int64. *)
Inductive mean_value := MArray (shape : list Z) (values : list float32) | MScalar (v : double).

(** The body, :543-558, which always returns something; [axis] is the tuple that
    _format_axis made.  An integer array cannot be divided in place. *)
Definition mean_body (order : list float32 -> float32) (sa : sparse) (axis : list Z) (dtype : mean_type)
  : outcome mean_value * sparse :=
  match dtype with
  | MFloat32 =>
      let '(summed, sa') := float_sum order sa (AxSeq axis) in      (* :548 *)
      (let* (shape, s) := summed in
       let* n := mean_length sa' axis in                            (* :549 *)
       match shape, s with
       | [], [v] => Ok (MScalar (d_div (d_of_f v) (d_of_Z n)))      (* :556 *)
       | _, _ => Ok (MArray shape (map (fun v => f_div v (f_of_Z n)) s))  (* :553 *)
       end, sa')
  | MInt bits =>
      let '(summed, sa') := py_reduce RSum sa (AxSeq axis) (Some bits) in
      (let* (shape, s) := summed in
       let* n := mean_length sa' axis in
       match shape, s with
       | [], [v] => Ok (MScalar (d_div (d_of_Z v) (d_of_Z n)))
       | _, _ => Throw "UFuncTypeError"
       end, sa')
  end.

(** a.mean(axis, dtype=...). *)
Definition py_mean (order : list float32 -> float32) (sa : sparse) (a : axis_arg) (dtype : mean_type)
  : outcome mean_value * sparse :=
  mean_body order sa (format_axis sa a) dtype.
