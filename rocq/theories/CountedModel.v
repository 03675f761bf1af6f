(** Model of the end of the Python [electron_count]: the C++ result becomes a
    SparseArray.  python/stempy/image/__init__.py 329-347. *)
From Coq Require Import String ZArith List Bool.
From Verif Require Import Base SparseModel.
Import ListNotations.
Open Scope Z_scope.

(** 329-347.  [data]: event lists per position and frame, as returned by the C++
    code; [scan_dims], [frame_dims] are its (width, height) pairs.  The object
    array has the length of the first row as second dimension: a longer row
    raises IndexError, a shorter one leaves [None] entries (not modelled
    further, [UB]).  scan_shape is reversed, frame_shape is not; dtype uint32,
    sparse_slicing, no full expansion (SparseArray defaults, 90-92). *)
Definition wrap_counted (data : list (list (list Z))) (scan_dims frame_dims : Z * Z) : outcome sparse :=
  let F := match data with [] => 0 | row :: _ => Zlen row end in
  if existsb (fun row => F <? Zlen row) data then index_error
  else if existsb (fun row => Zlen row <? F) data then UB "None entry in the object array"
  else sparse_init data F [snd scan_dims; fst scan_dims] [fst frame_dims; snd frame_dims] 32 true false.
