(** What STEM images of raw frames and of counted events should show, in terms
    of arrays, positions and annuli only. *)
From Coq Require Import ZArith List.
From Verif Require Import Base PyModel PySpec StemSpec SparseModel SparseSpec.
Import ListNotations.
Open Scope Z_scope.

(** A NumPy array of uint16 of any strides, all of whose elements exist. *)
Definition array_ok (a : ndarray) : Prop :=
  0 <= nd_count a /\ 0 <= nd_rows a /\ 0 <= nd_cols a /\ Forall is_u16 (nd_buf a) /\
  Zlen (nd_buf a) < 2 ^ 64 /\
  let '(s0, s1, s2) := nd_strides a in
  forall i y x, 0 <= i < nd_count a -> 0 <= y < nd_rows a -> 0 <= x < nd_cols a ->
    0 <= nd_off a + i * s0 + y * s1 + x * s2 < Zlen (nd_buf a).

(** The two arrays have the same shape and the same elements. *)
Definition same_array (a b : ndarray) : Prop :=
  nd_shape a = nd_shape b /\
  forall i y x, 0 <= i < nd_count a -> 0 <= y < nd_rows a -> 0 <= x < nd_cols a ->
    nd_pixel a i y x = nd_pixel b i y x.

(** Sizes the code can represent: a positive number of frames, below 2^32 with
    room for one more block, and frames of fewer than 2^32 pixels. *)
Definition sizes_ok (a : ndarray) : Prop :=
  0 < nd_count a <= 2 ^ 32 - 32 /\ nd_rows a < 2 ^ 31 /\ nd_cols a < 2 ^ 31 /\
  nd_cols a * nd_rows a < 2 ^ 32 /\ nd_count a * (nd_rows a * nd_cols a) < 2 ^ 64.

(** The scan position of frame [i]: given, or [i] itself. *)
Definition position (positions : option (list Z)) (i : Z) : Z :=
  match positions with Some l => zat l i | None => i end.

(** [n] frames have distinct positions in a scan of [npos] positions. *)
Definition positions_ok (positions : option (list Z)) (n npos : Z) : Prop :=
  match positions with
  | Some l => Zlen l = n /\ Forall is_u32 l /\ NoDup l /\ Forall (fun p => 0 <= p < npos) l
  | None => n <= npos
  end.

(** Matching lists of radii whose squares fit a C int. *)
Definition radii_ok (inner outer : list Z) : Prop :=
  inner <> [] /\ List.length inner = List.length outer /\
  Forall radius_ok inner /\ Forall radius_ok outer.

(** The scan in effect: the argument, unless one of its components is zero. *)
Definition scan_or (arg default : Z * Z) : Z * Z :=
  if (fst arg =? 0)%Z then default else if (snd arg =? 0)%Z then default else arg.

(** Image [k] shows at the position of frame [i] the sum of the pixels of that
    frame in the k-th annulus, and zero where there is no frame. *)
Definition shows_frames (imgs : list (list Z)) (a : ndarray) (positions : option (list Z))
  (inner outer : list Z) (npos cx cy : Z) : Prop :=
  let w := nd_cols a in let h := nd_rows a in
  List.length imgs = List.length inner /\
  forall k, (k < List.length inner)%nat ->
    Zlen (nth k imgs []) = npos /\
    forall p, 0 <= p < npos ->
      (forall i, 0 <= i < nd_count a -> position positions i = p ->
         zat (nth k imgs []) p =
         annulus_sum w h (fun x y => nd_pixel a i y x)
           (axis_center w cx) (axis_center h cy) (nth k inner 0) (nth k outer 0)) /\
      ((forall i, 0 <= i < nd_count a -> position positions i <> p) ->
         zat (nth k imgs []) p = 0).

(** Image [k] shows at every position 65535 times the events in the k-th
    annulus; [ev p x y] is the number of events at position [p] on pixel (x, y)
    of w x h frames. *)
Definition shows_events (imgs : list (list Z)) (ev : Z -> Z -> Z -> Z) (w h : Z)
  (inner outer : list Z) (npos cx cy : Z) : Prop :=
  List.length imgs = List.length inner /\
  forall k, (k < List.length inner)%nat ->
    Zlen (nth k imgs []) = npos /\
    forall p, 0 <= p < npos ->
      zat (nth k imgs []) p =
      65535 * annulus_sum w h (ev p)
                (axis_center w cx) (axis_center h cy) (nth k inner 0) (nth k outer 0).

(** Events at position [p] on pixel (x, y) of an array with one list of events
    per position. *)
Definition listed (l : list (list Z)) (w p x y : Z) : Z :=
  cnt (nth (Z.to_nat p) l []) (y * w + x).
