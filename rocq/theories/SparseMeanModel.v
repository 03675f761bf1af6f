(** Model of [SparseArray.mean] over the scan or the frame axes
    (python/stempy/io/sparse_array.py 520-558) with its default type float32:
    the sum is accumulated in a float32 array and divided in place by the
    number of summed elements. *)
From Coq Require Import String ZArith List Bool.
From Flocq Require Import IEEE754.BinarySingleNaN IEEE754.Bits.
From Verif Require Import Base Float32 SparseModel.
Import ListNotations.
Open Scope Z_scope.

Definition f_add : float32 -> float32 -> float32 := b32_plus mode_NE.

(** [ret[sparse_frame] += 1] on a float32 array, 508-510. *)
Definition f_inc (a : list float32) (idx : list Z) : outcome (list float32) :=
  let* g := np_take a idx in
  np_put a idx (map (fun v => f_add v (f_of_Z 1)) g).

(** [sum(axis, dtype=np.float32)] over the scan axes, 505-511. *)
Definition fsum_scan (sa : sparse) : outcome (list float32) :=
  for_each (sp_data sa)
    (fun scan_frames ret => for_each scan_frames (fun fr ret => f_inc ret fr) ret)
    (repeat (f_of_Z 0) (Z.to_nat (frame_size sa))).

(** [sum(axis, dtype=np.float32)] over the frame axes, 513-518. *)
Definition fsum_frame (sa : sparse) : outcome (list float32) :=
  for_each (enumerate (sp_data sa))
    (fun '(i, scan_frames) ret =>
       for_each scan_frames
         (fun fr ret => let* v := rd ret i in wr ret i (f_add v (f_of_Z (Zlen fr)))) ret)
    (repeat (f_of_Z 0) (Z.to_nat (num_scans sa))).

(** [mean], 543-556: [mean_length] is the product of the summed dimensions.
    (Where NumPy divides a float32 array by an int64 scalar in double precision
    and stores the result as float32, the result is the same: the operands are
    integers up to 2 ^ 24 wherever the theorems speak about the result.) *)
Definition mean_scan (sa : sparse) : outcome (list float32) :=
  let* s := fsum_scan sa in Ok (map (fun x => f_div x (f_of_Z (num_scans sa))) s).
Definition mean_frame (sa : sparse) : outcome (list float32) :=
  let* s := fsum_frame sa in Ok (map (fun x => f_div x (f_of_Z (frame_size sa))) s).
