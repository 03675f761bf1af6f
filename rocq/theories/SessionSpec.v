(** What saving and opening does to the dense array: nothing, or the last column of the
    scan is left out. *)
From Coq Require Import ZArith List Bool.
From Verif Require Float32.
From Verif Require Import Base SparseModel SparseSpec SparseFileModel SparseFileSpec CallsModel CallsSpec SessionModel.
Import ListNotations.
Open Scope Z_scope.

(** The values at the scan positions (r, c), c < w - 1, in C order. *)
Definition without_last_column (h w N : Z) (D : list Z) : list Z :=
  flat_map (fun r => flat_map (fun c => map (fun j => zat D ((r * w + c) * N + j)) (zseq N)) (zseq (w - 1))) (zseq h).

Definition dense_reopen (d : dense) (se : session) : dense :=
  match d_scan d with
  | [h; w] =>
      if se_keep se then mkDense [h; w] (d_frame d) (d_vals d) (se_slicing se) (se_full se)
      else mkDense [h; w - 1] (d_frame d) (without_last_column h w (np_prod (d_frame d)) (d_vals d)) (se_slicing se) (se_full se)
  | _ => d
  end.
Fixpoint dense_sessions (d : dense) (l : list session) : dense :=
  match l with
  | [] => d
  | se :: t => dense_sessions (run_dense (dense_reopen d se) (se_ops se)) t
  end.

(** The array can be saved: scan and frames have two dimensions, the scan is not empty
    (and has a second column if the last one is left out), the pixels are numbered in
    32 bits, and the type given when opening can count the frames. *)
Definition savable (sa : sparse) (se : session) : Prop :=
  (exists h w, sp_scan sa = [h; w] /\ 1 <= h /\ (if se_keep se then 1 else 2) <= w) /\
  (exists a b, sp_frame sa = [a; b]) /\ frame_size sa <= 2 ^ 32 /\ meta_ok (MDict (se_meta se)) /\
  0 <= se_bits se /\ sp_F sa < 2 ^ se_bits se.
Fixpoint sound_sessions (order : list Float32.float32 -> Float32.float32) (sa : sparse) (l : list session) : Prop :=
  match l with
  | [] => True
  | se :: t => savable sa se /\ forall sa', reopen sa se = Ok sa' ->
      sound_history order sa' (se_ops se) /\ sound_sessions order (run_ops order sa' (se_ops se)) t
  end.
