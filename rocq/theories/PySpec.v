(** What the Python block reader and the NumPy views should give, in terms of
    arrays and pixel coordinates only. *)
From Coq Require Import ZArith List.
From Verif Require Import Base BlockModel PyModel.
Import ListNotations.
Open Scope Z_scope.

(** Element (i, y, x) of a NumPy array. *)
Definition nd_pixel (a : ndarray) (i y x : Z) : Z :=
  let '(s0, s1, s2) := nd_strides a in
  zat (nd_buf a) (nd_off a + i * s0 + y * s1 + x * s2).

(** A C-contiguous array whose memory holds all its elements. *)
Definition contiguous (a : ndarray) : Prop :=
  0 <= nd_count a /\ 0 <= nd_rows a /\ 0 <= nd_cols a /\ 0 <= nd_off a /\
  nd_strides a = (nd_rows a * nd_cols a, nd_cols a, 1) /\
  nd_off a + nd_count a * (nd_rows a * nd_cols a) <= Zlen (nd_buf a).

(** Pixel (x, y) of image i of a block, row by row. *)
Definition block_pixel (b : block) (i y x : Z) : option Z :=
  match data b with
  | None => None
  | Some d => let '(w, h) := frame_dims (hdr b) in
              nth_error d (Z.to_nat (i * (h * w) + y * w + x))
  end.

(** Block [b] holds the images lo .. hi-1 of the data set, with their numbers. *)
Definition holds_images (a : ndarray) (numbers : list Z) (scan : Z * Z) (lo hi : Z)
  (b : block) : Prop :=
  images_in_block (hdr b) = hi - lo /\
  image_numbers (hdr b) = map (fun i => zat numbers (lo + i)) (zseq (hi - lo)) /\
  frame_dims (hdr b) = (nd_cols a, nd_rows a) /\
  scan_dims (hdr b) = scan /\ version (hdr b) = 3 /\
  forall i y x, 0 <= i < hi - lo -> 0 <= y < nd_rows a -> 0 <= x < nd_cols a ->
    block_pixel b i y x = Some (nd_pixel a (lo + i) y x).

(** The block the k-th read after a reset must return. *)
Definition kth_block (a : ndarray) (numbers : list Z) (scan : Z * Z)
  (size total k : Z) (b : block) : Prop :=
  if k * size <? total
  then holds_images a numbers scan (k * size) (Z.min ((k + 1) * size) total) b
  else b = empty_block.

(** Arguments for which the reader is meant to be used. *)
Definition good_py (a : ndarray) (numbers : list Z) (size total : Z) : Prop :=
  contiguous a /\ 0 <= total <= nd_count a /\ total <= Zlen numbers /\
  0 < size < 2 ^ 32 /\ total + size <= 2 ^ 32.

(** Pixel (x, y) of image i in an array stored image by image, row by row. *)
Definition stored (mem : list Z) (w h i y x : Z) : Z :=
  zat mem (i * (h * w) + y * w + x).
