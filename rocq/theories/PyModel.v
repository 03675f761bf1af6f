(** The Python-facing block reader and the NumPy views of C++ results
    (python/pyreader.cpp, python/pyreader.h, python/io.cpp, python/image.cpp). *)
From Coq Require Import String ZArith List.
From Verif Require Import Base BlockModel.
Import ListNotations.
Open Scope Z_scope.

(** A three-dimensional NumPy array of uint16: a memory buffer, the index in it
    of element (0,0,0), the shape (images, rows, columns) and the strides.
    Simplification: strides are counted in elements, not bytes, and the
    element type is already uint16 (py::array_t<uint16_t> converts other types
    into a fresh array, pyreader.cpp:41). *)
Record ndarray := mkNd {
  nd_buf : list Z;
  nd_off : Z;
  nd_shape : Z * Z * Z;
  nd_strides : Z * Z * Z
}.

Definition nd_count (a : ndarray) : Z := fst (fst (nd_shape a)).
Definition nd_rows (a : ndarray) : Z := snd (fst (nd_shape a)).
Definition nd_cols (a : ndarray) : Z := snd (nd_shape a).

(** dataset.__getitem__(slice(lo, hi, 1)), pyreader.cpp:32-41, for lo, hi >= 0:
    Python clamps both ends to the length and gives an empty array if the ends
    cross.  No pixels are copied and the strides are kept (NumPy); an h5py data
    set returns a fresh C-contiguous array, which is the same thing for a
    contiguous buffer. *)
Definition nd_slice (a : ndarray) (lo hi : Z) : ndarray :=
  let lo' := Z.min lo (nd_count a) in
  let hi' := Z.min hi (nd_count a) in
  mkNd (nd_buf a) (nd_off a + lo' * fst (fst (nd_strides a)))
    (Z.max 0 (hi' - lo'), nd_rows a, nd_cols a) (nd_strides a).

(** py::array::data(), pyreader.h:44-51: the address of element (0,0,0); the
    C++ code reads the memory from there on, whatever the strides are. *)
Definition nd_data (a : ndarray) : list Z := skipn (Z.to_nat (nd_off a)) (nd_buf a).

(** class PyReader, pyreader.h:77-150 and its constructor pyreader.cpp:13-20. *)
Record pyreader := mkPy {
  py_set : ndarray;
  py_numbers : list Z;
  py_scan : Z * Z;
  py_size : Z;               (* m_imageNumInBlock, uint32 *)
  py_total : Z;              (* m_totalImageNum, uint32 *)
  py_cur : Z                 (* m_currIndex, uint32, initially 0 *)
}.

Definition py_new (a : ndarray) (numbers : list Z) (scan : Z * Z) (size total : Z)
  : pyreader := mkPy a numbers scan (u32 size) (u32 total) 0.

(** pyreader.cpp:46-49: the image numbers cur .. upper - 1. *)
Definition py_image_numbers (numbers : list Z) (cur upper : Z) : outcome (list Z) :=
  for_from (Z.to_nat (upper - cur)) cur
    (fun i acc => let* x := rd numbers i in Ok (acc ++ [x])) [].

(** PyReader::read, pyreader.cpp:22-57. *)
Definition py_read (r : pyreader) : outcome (block * pyreader) :=
  if py_total r <=? py_cur r then Ok (empty_block, r)
  else
    let upper := u32 (py_cur r + py_size r) in
    let upper := if py_total r <? upper then py_total r else upper in
    let a := nd_slice (py_set r) (py_cur r) upper in
    let* numbers := py_image_numbers (py_numbers r) (py_cur r) upper in
    let h := mkHeader (py_scan r) (nd_cols a, nd_rows a) (u32 (Zlen numbers))
               3 0 0 0 numbers [] in
    Ok (mkBlock h (Some (nd_data a)),
        mkPy (py_set r) (py_numbers r) (py_scan r) (py_size r) (py_total r) upper).

(** PyReader::reset, pyreader.cpp:70-73. *)
Definition py_reset (r : pyreader) : pyreader :=
  mkPy (py_set r) (py_numbers r) (py_scan r) (py_size r) (py_total r) 0.

(** What a user does with a reader: calls of read() and reset(). *)
Inductive pycall := PyRead | PyReset.

Definition py_call (c : pycall) (r : pyreader) : outcome (list block * pyreader) :=
  match c with
  | PyRead => let* (b, r') := py_read r in Ok ([b], r')
  | PyReset => Ok ([], py_reset r)
  end.

Fixpoint py_calls (cs : list pycall) (r : pyreader) : outcome (list block * pyreader) :=
  match cs with
  | [] => Ok ([], r)
  | c :: t => let* (bs, r1) := py_call c r in
              let* (bs', r2) := py_calls t r1 in
              Ok (bs ++ bs', r2)
  end.

(** The range-for loop over a reader, pyreader.h:85-130: read until a block has
    no data.  Returns the blocks seen by the loop body. *)
Fixpoint py_iterate (fuel : nat) (r : pyreader) : outcome (list block * pyreader) :=
  match fuel with
  | O => OutOfFuel
  | S fuel =>
    let* (b, r') := py_read r in
    match data b with
    | None => Ok ([], r')
    | Some _ => let* (bs, r'') := py_iterate fuel r' in Ok (b :: bs, r'')
    end
  end.

(** A buffer_info: element count per axis and byte strides over a buffer.
    [nd_get] is what NumPy does for an index inside the shape: it reads the
    element at the byte offset given by the strides.  The offset is a multiple
    of the element size for every view below. *)
Record view := mkView {
  v_mem : list Z;
  v_elem : Z;                (* sizeof the element *)
  v_shape : list Z;
  v_strides : list Z         (* bytes *)
}.

Fixpoint dot (a b : list Z) : Z :=
  match a, b with
  | x :: a, y :: b => x * y + dot a b
  | _, _ => 0
  end.

Fixpoint in_shape (idx shape : list Z) : bool :=
  match idx, shape with
  | [], [] => true
  | i :: idx, n :: shape => (0 <=? i) && (i <? n) && in_shape idx shape
  | _, _ => false
  end%bool.

Definition view_get (v : view) (idx : list Z) : outcome Z :=
  if in_shape idx (v_shape v)
  then rd (v_mem v) (dot idx (v_strides v) / v_elem v)
  else Throw "IndexError".

(** Block and PyBlock buffers, python/io.cpp:25-41 and 43-62. *)
Definition block_view (b : block) : outcome view :=
  let* d := block_data b in
  let w := fst (frame_dims (hdr b)) in
  let h := snd (frame_dims (hdr b)) in
  Ok (mkView d 2 [images_in_block (hdr b); h; w] [2 * h * w; 2 * h; 2]).

(** Image<T> buffers, python/image.cpp:243-271 and 287-300; [s] = sizeof(T),
    [dims] = (width, height). *)
Definition image_view (s : Z) (dims : Z * Z) (mem : list Z) : view :=
  mkView mem s [snd dims; fst dims] [s * fst dims; s].

(** RadialSum<T> buffers, python/image.cpp:273-286. *)
Definition radial_view (s : Z) (radii : Z) (dims : Z * Z) (mem : list Z) : view :=
  mkView mem s [radii; snd dims; fst dims] [s * fst dims * snd dims; s * fst dims; s].
