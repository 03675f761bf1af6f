(** Model of [SectorThreadedMultiPassReader.read_frames] and its properties
    [num_frames_per_scan] and [scan_shape], python/stempy/io/__init__.py:67-149,
    on top of the C++ reader of MultipassModel.v (bound in python/io.cpp:115-134). *)
From Coq Require Import String ZArith List Bool.
From Verif Require Import Base BlockModel SectorModel MultipassModel SparseModel.
Import ListNotations.
Local Open Scope string_scope.
Open Scope Z_scope.

(** A scan position: an integer, or a list or tuple of integers. *)
Inductive position := PFlat (n : Z) | PSeq (l : list Z).

(** What the call returns: a list of blocks, or one block for a single index.
    The Python object of a block wraps the C++ one (its [data] is a view of the
    only frame of the block), io/__init__.py:141-147. *)
Inductive frames_result := RMany (bs : list block) | ROne (b : block).

(** pybind11's conversion of an [int] to [uint32_t], python/io.cpp:129-130: a
    [TypeError] unless the value fits. *)
Definition as_u32 (i : Z) : outcome Z :=
  if (0 <=? i) && (i <? 2 ^ 32) then Ok i else Throw "TypeError".

(** [any(not 0 <= scan_position[i] < scan_shape[i] for i in
    range(len(scan_position)))], io/__init__.py:106-107; [scan_shape[i]] raises
    when the position has more entries than the shape. *)
Fixpoint any_outside (l shape : list Z) : outcome bool :=
  match l, shape with
  | [], _ => Ok false
  | _ :: _, [] => index_error
  | x :: l', n :: shape' =>
      if negb ((0 <=? x) && (x <? n)) then Ok true else any_outside l' shape'
  end.

(** io/__init__.py:106-113; [shape] is [scan_shape], the dimensions reversed
    (io/__init__.py:80-89). *)
Definition unravel (l shape : list Z) : outcome Z :=
  let* bad := any_outside l shape in
  if (bad : bool) then index_error
  else match l, shape with
       | i :: j :: _, _ :: w :: _ => Ok (i * w + j)
       | _, _ => index_error
       end.

(** io/__init__.py:103-116. *)
Definition image_number (pos : position) (r : mreader) : outcome (Z * mreader) :=
  match pos with
  | PFlat n => Ok (n, r)
  | PSeq l =>
      let* (d, r') := scan_dimensions r in
      let* p := unravel l [snd d; fst d] in
      Ok (p, r')
  end.

(** io/__init__.py:124-139: an integer becomes a list of one; the index is
    applied to [np.arange(num_frames)].  An [IndexError] is raised again with
    another text. *)
Definition frame_indices (n : Z) (sel : option key) : outcome (list Z) :=
  match sel with
  | None => Ok (zseq n)
  | Some (KInt i) => let* (_, l) := np_select [n] [KInts [i]] in Ok l
  | Some k => let* (_, l) := np_select [n] [k] in Ok l
  end.

(** io/__init__.py:149. *)
Definition rf_return (sel : option key) (bs : list block) : outcome frames_result :=
  match sel with
  | Some (KInt _) => match bs with b :: _ => Ok (ROne b) | [] => index_error end
  | _ => Ok (RMany bs)
  end.

(** read_frames, io/__init__.py:91-149.  [cs1] and [cs2] schedule the workers
    that read the headers, should [num_frames_per_scan] or [_load_frames] start
    them; [None] if they do not run them to their end.  The reader is returned
    as the call leaves it, also when it raises. *)
Definition read_frames (g : geom) (cs1 cs2 : list nat) (pos : position) (sel : option key)
  (r : mreader) : option (outcome frames_result * mreader) :=
  match image_number pos r with
  | Ok (img, r1) =>
      match num_frames_per_scan g cs1 r1 with
      | None => None
      | Some (Ok (n, r2)) =>
          match frame_indices n sel with
          | Ok idxs =>
              match as_u32 img, mapM as_u32 idxs with
              | Ok img', Ok idxs' =>
                  match load_frames g cs2 img' idxs' r2 with
                  | None => None
                  | Some (bs, r3) => Some ((let* l := bs in rf_return sel l), r3)
                  end
              | _, _ => Some (Throw "TypeError", r2)
              end
          | Throw e => Some (Throw e, r2)
          | UB e => Some (UB e, r2)
          | OutOfFuel => Some (OutOfFuel, r2)
          end
      | Some (Throw e) => Some (Throw e, r1)
      | Some (UB e) => Some (UB e, r1)
      | Some OutOfFuel => Some (OutOfFuel, r1)
      end
  | Throw e =>
      (* [scan_shape] was read before the exception *)
      Some (Throw e, match scan_dimensions r with Ok (_, r') => r' | _ => r end)
  | UB e => Some (UB e, r)
  | OutOfFuel => Some (OutOfFuel, r)
  end.
