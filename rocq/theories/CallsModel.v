(** A SparseArray in use: a program holds one array, calls its methods one after the
    other and goes on after an exception.  python/stempy/io/sparse_array.py:308-327,
    339-383, 560-715, with the methods of SparseModel.v, AxisModel.v and MeanModel.v. *)
From Coq Require Import String ZArith List Bool.
From Verif Require Import Base Float32 SparseModel AxisModel MeanModel.
Import ListNotations.
Open Scope Z_scope.

(** Calls that return a value. *)
Inductive reading :=
| RdDense                                                   (* a.to_dense(), :284-305 *)
| RdItem (ks : list key)                                    (* v = a[ks], :708-714 *)
| RdReduce (kind : reduction) (axis : axis_arg) (dtype : option Z)   (* a.max, a.min, a.sum *)
| RdMean (axis : axis_arg) (dtype : mean_type).             (* a.mean *)

Inductive op :=
| OReshape (shape : list Z)       (* a.reshape(...) or a.shape = ..., :316-327, 339-370 *)
| ORavel                          (* a.ravel_scans(), :372-382 *)
| OBinScans (f : Z)               (* a = a.bin_scans(f), or a.bin_scans(f, in_place=True), :560-609 *)
| OBinFrames (f : Z)              (* a = a.bin_frames(f), or in place, :611-706 *)
| OSelect (ks : list key)         (* b = a[ks]; a = b if b is a SparseArray, :708-714 *)
| OSlicing (b : bool)             (* a.sparse_slicing = b *)
| OFull (b : bool)                (* a.allow_full_expand = b *)
| ORead (r : reading).

Definition with_full (sa : sparse) (b : bool) : sparse :=
  mkSparse (sp_data sa) (sp_F sa) (sp_scan sa) (sp_frame sa) (sp_bits sa) (sp_slicing sa) b.

(** A call that raises has not changed the array: all the checks come before the first
    assignment (:352-366, 574-576, 625-627). *)
Definition or_same (sa : sparse) (o : outcome sparse) : sparse :=
  match o with Ok sa' => sa' | _ => sa end.

(** to_dense and the reductions change the settings and set them back, :284-305 and
    :29-46; a[ks] changes nothing. *)
Definition read (order : list float32 -> float32) (sa : sparse) (r : reading) : sparse :=
  match r with
  | RdDense => with_full (with_slicing (with_slicing (with_full sa true) false) (sp_slicing sa)) (sp_full sa)
  | RdItem _ => sa
  | RdReduce kind axis dtype => snd (py_reduce kind sa axis dtype)
  | RdMean axis dtype => snd (py_mean order sa axis dtype)
  end.

Definition do_op (order : list float32 -> float32) (sa : sparse) (o : op) : sparse :=
  match o with
  | OReshape shape => or_same sa (reshape sa shape)
  | ORavel => or_same sa (ravel_scans sa)
  | OBinScans f => or_same sa (bin_scans sa f)
  | OBinFrames f => or_same sa (bin_frames sa f)
  | OSelect ks => match getitem sa ks with Ok (Sparse sa') => sa' | _ => sa end
  | OSlicing b => with_slicing sa b
  | OFull b => with_full sa b
  | ORead r => read order sa r
  end.

Definition run_ops (order : list float32 -> float32) (sa : sparse) (ops : list op) : sparse :=
  fold_left (do_op order) ops sa.
