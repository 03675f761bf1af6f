(** What the image functions over a reader and the dark-reference workflow should
    give. *)
From Coq Require Import ZArith List Bool Reals.
From Flocq Require Import Core.
From Verif Require Import Base BlockModel Double Float32 StemSpec RadialSpec ImageSpec HistSpec ReaderImageModel.
Import ListNotations.
Open Scope Z_scope.
(* From ReaderImageModel only the records of the arrays a program holds are used. *)

(** Number of frames, and the sum of their pixels at (x, y). *)
Definition frame_count (bs : list block) : Z := Zlen (all_frames bs).
Definition pixel_total (bs : list block) (w h x y : Z) : Z := zsum (map (pixel_of w h x y) (all_frames bs)).

(** Real numbers that single precision holds exactly. *)
Definition single_precision (r : R) : Prop := generic_format radix2 (FLT_exp (-149) 24) r.

(** [imgs] are the images of the annular detectors: at a scan position the sum
    inside the annulus of the frame delivered for it, 0 if there is none. *)
Definition detector_images (imgs : list (list Z)) (bs : list block) (inner outer : list Z)
    (w h sw sh cx cy : Z) : Prop :=
  List.length imgs = List.length inner /\
  forall k, (k < List.length inner)%nat ->
    Zlen (nth k imgs []) = sw * sh /\
    forall p, 0 <= p < sw * sh ->
      (forall b d i, In b bs -> data b = Some d -> nth_error (image_numbers (hdr b)) i = Some p ->
         zat (nth k imgs []) p =
         annulus_sum w h (frame_pixel d w h (Z.of_nat i))
           (axis_center w cx) (axis_center h cy) (nth k inner 0) (nth k outer 0)) /\
      ((forall b, In b bs -> ~ In p (image_numbers (hdr b))) -> zat (nth k imgs []) p = 0).

(** A histogram with [N] bins of the pixels of an image: edges spread evenly from
    the smallest to the largest pixel (rounded to doubles), and in each bin the
    number of pixels that are in it. *)
Definition histogram_of (pixels : list Z) (N : Z) (bins : list double) (freq : list Z) : Prop :=
  exists mn mx, is_min pixels mn /\ is_max pixels mx /\
    Zlen bins = N + 1 /\ Zlen freq = N /\
    (forall j, 0 <= j <= N -> dval (dat bins j) (hist_edge mn mx N j)) /\
    (forall k, 0 <= k < N -> zat freq k = count_if (fun v => in_bin (hist_edge mn mx N) N k (as_double v)) pixels).

(** An array of the user with the real values [v], of width [w] and height [h],
    stored row by row. *)
Definition array_of (a : np_image) (w h : Z) (v : Z -> Z -> R) : Prop :=
  np_dims a = (w, h) /\ Zlen (np_values a) = w * h /\
  forall x y, 0 <= x < w -> 0 <= y < h -> dval (dat (np_values a) (y * w + x)) (v x y).

(** The gain the user gives, pixel by pixel ([None]: none): numbers whose inverse
    is a number of single precision; [gv] is the inverse. *)
Definition gain_given (gain : option np_image) (w h : Z) (gv : option (Z -> R)) : Prop :=
  match gain, gv with
  | None, None => True
  | Some g, Some v => np_fortran g = false /\ exists u, array_of g w h u /\
      forall x y, 0 <= x < w -> 0 <= y < h ->
        (u x y <> 0 /\ Rabs (/ u x y) <= bpow radix2 90 /\
         single_precision (d_rnd (/ u x y)) /\ v (y * w + x)%Z = d_rnd (/ u x y))%R
  | _, _ => False
  end.

(** A value per pixel, indexed row by row. *)
Definition by_rows (w : Z) (v : Z -> Z -> R) : Z -> R := fun j => v (j mod w) (j / w).

(** The average of a data set, as a real number. *)
Definition true_average (bs : list block) (w h : Z) : Z -> Z -> R :=
  fun x y => (IZR (pixel_total bs w h x y) / IZR (frame_count bs))%R.
