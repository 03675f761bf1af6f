(** Work on a sparse array in several sessions: it is saved with write_to_hdf5, opened
    again with SparseArray.from_hdf5, used, saved to another file, and so on.
    python/stempy/io/sparse_array.py:174-282, over SparseFileModel.v and CallsModel.v. *)
From Coq Require Import String ZArith List Bool.
From Verif Require Import Base Float32 SparseModel SparseFileModel CallsModel.
Import ListNotations.
Open Scope Z_scope.

(** One session: the metadata the array has when it is saved, the arguments of from_hdf5
    (keep_flyback; dtype, sparse_slicing and allow_full_expand go to __init__), and the
    calls made after it has been opened. *)
Record session := mkSession {
  se_meta : list (Z * meta); se_keep : bool; se_bits : Z; se_slicing : bool; se_full : bool; se_ops : list op }.

(** a.write_to_hdf5(path), :251-282, to a path that does not exist yet, then
    a = SparseArray.from_hdf5(path, ...), :174-249. *)
Definition reopen (sa : sparse) (se : session) : outcome sparse :=
  let* f := write_to_hdf5 None sa (se_meta se) in
  let* (sa', _) := from_hdf5 f (se_keep se) (se_bits se) (se_slicing se) (se_full se) in
  Ok sa'.

Fixpoint run_sessions (order : list float32 -> float32) (sa : sparse) (l : list session) : outcome sparse :=
  match l with
  | [] => Ok sa
  | se :: t => let* sa' := reopen sa se in run_sessions order (run_ops order sa' (se_ops se)) t
  end.
