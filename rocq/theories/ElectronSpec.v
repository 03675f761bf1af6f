(** What a user means by an electron strike in a frame. *)
From Coq Require Import ZArith List QArith.
From Verif Require Import Base ElectronModel.
Import ListNotations.
Open Scope Z_scope.
(* From ElectronModel only the record [frame_ops] of primitive arithmetic
   operations is used here. *)

(** Pixel (x,y) of a row-major frame of width w. *)
Definition pixel {T} (frame : list T) (w x y : Z) : option T :=
  nth_error frame (Z.to_nat (y * w + x)).

(** (x',y') is one of the up to eight neighbours of (x,y) inside the frame. *)
Definition neighbour (w h x y x' y' : Z) : Prop :=
  0 <= x' < w /\ 0 <= y' < h /\
  -1 <= x' - x <= 1 /\ -1 <= y' - y <= 1 /\ (x', y') <> (x, y).

(** The pixel is greater than all its neighbours. *)
Definition strict_local_max {T} (gt : T -> T -> bool) (frame : list T)
    (w h x y : Z) : Prop :=
  0 <= x < w /\ 0 <= y < h /\
  forall x' y' v v', neighbour w h x y x' y' ->
    pixel frame w x y = Some v -> pixel frame w x' y' = Some v' -> gt v v' = true.

(** Strictly ascending list. *)
Fixpoint ascending (l : list Z) : Prop :=
  match l with
  | [] => True
  | x :: t => match t with [] => True | y :: _ => x < y end /\ ascending t
  end.

(** Half of the row of pixel (x,y) in which the pixel lies, for rows of length w:
    columns 0 .. w/2-1, or columns w/2 .. w-1. *)
Definition half_row {T} (frame : list T) (w x y : Z) : list T :=
  if x <? w / 2
  then firstn (Z.to_nat (w / 2)) (skipn (Z.to_nat (y * w)) frame)
  else firstn (Z.to_nat (w - w / 2)) (skipn (Z.to_nat (y * w + w / 2)) frame).

(** Two frames order their pixels the same way. *)
Definition same_order {T U} (gt : T -> T -> bool) (gt' : U -> U -> bool)
    (f : list T) (g : list U) : Prop :=
  List.length f = List.length g /\
  forall i j a b a' b', nth_error f i = Some a -> nth_error f j = Some b ->
    nth_error g i = Some a' -> nth_error g j = Some b' -> gt a b = gt' a' b'.

(** Value [c] of a pixel after optional dark subtraction and, for non-integral
    pixel types, multiplication by the gain. *)
Definition corrected {T F D} (ops : frame_ops T F D) (dark gain : option F) (v c : T) : Prop :=
  exists v1,
    match dark with Some d => op_sub_cast ops v d = Ok v1 | None => v1 = v end /\
    if op_integral ops then c = v1
    else exists g, gain = Some g /\ op_mul ops v1 g = Ok c.

(** Same with row-dark correction by the statistic [stat] of the half-row. *)
Definition row_corrected {T F D} (ops : frame_ops T F D) (target stat : F)
    (dark gain : option F) (v c : T) : Prop :=
  exists v1 r v2,
    match dark with Some d => op_sub ops v d = Ok v1 | None => v1 = v end /\
    op_ratio ops target stat = Ok r /\ op_mul ops v1 r = Ok v2 /\
    if op_integral ops then c = v2
    else exists g, gain = Some g /\ op_mul ops v2 g = Ok c.

(** Pixels not above the background or not below the X-ray threshold count as 0. *)
Definition kept {T F D} (ops : frame_ops T F D) (bg xray : D) (c : T) : T :=
  if op_le ops c bg then op_zero ops else
  if op_ge ops c xray then op_zero ops else c.

(** Element (x,y) of an optional reference image. *)
Definition ref_at {F} (r : option (list F)) (w x y : Z) : option F :=
  match r with None => None | Some a => pixel a w x y end.

(** A reference image is absent or covers the whole frame. *)
Definition ref_ok {F} (r : option (list F)) (w h : Z) : Prop :=
  match r with None => True | Some a => Zlen a = w * h end.

(** All pixels of f (w x h) are given by p. *)
Definition frame_is {T} (f : list T) (w h : Z) (p : Z -> Z -> T) : Prop :=
  Zlen f = w * h /\ forall x y, 0 <= x < w -> 0 <= y < h -> pixel f w x y = Some (p x y).

(** The middle of a list: of a sorted rearrangement s, the middle element or the
    mean of the two middle elements. *)
Fixpoint sorted (l : list Z) : Prop :=
  match l with
  | [] => True
  | x :: t => (forall y, In y t -> x <= y) /\ sorted t
  end.
Definition middle (s : list Z) : Q :=
  ((inject_Z (zat s ((Zlen s - 1) / 2) + zat s (Zlen s / 2))) / 2)%Q.
