(** What a radial sum is, independently of the model's helpers. *)
From Coq Require Import ZArith List Bool.
From Verif Require Import Base BlockModel StemSpec.
Import ListNotations.
Open Scope Z_scope.

(** Pixel (x,y) lies in ring r around (cx,cy): its distance d satisfies
    r - 1 < d <= r (ring 0 is the centre itself). *)
Definition in_ring (cx cy r x y : Z) : Prop :=
  let d := (x - cx) * (x - cx) + (y - cy) * (y - cy) in
  0 <= r /\ d <= r * r /\ (r = 0 \/ (r - 1) * (r - 1) < d).

Definition in_ringb (cx cy r x y : Z) : bool :=
  let d := (x - cx) * (x - cx) + (y - cy) * (y - cy) in
  (0 <=? r) && (d <=? r * r) && ((r =? 0) || ((r - 1) * (r - 1) <? d)).

(** Sum of the pixels of a frame in ring r, and of all pixels. *)
Definition ring_sum (w h : Z) (pix : Z -> Z -> Z) (cx cy r : Z) : Z :=
  zsum (map (fun y => zsum (map (fun x =>
    if in_ringb cx cy r x y then pix x y else 0) (zseq w))) (zseq h)).

Definition frame_sum (w h : Z) (pix : Z -> Z -> Z) : Z :=
  zsum (map (fun y => zsum (map (fun x => pix x y) (zseq w))) (zseq h)).

(** Sum of [f pix] over all frames delivered for scan position p. *)
Definition over_frames_at (w h : Z) (blocks : list block) (p : Z) (f : (Z -> Z -> Z) -> Z) : Z :=
  zsum (map (fun b => zsum (map (fun i =>
    if zat (image_numbers (hdr b)) i =? p
    then f (frame_pixel (match data b with Some d => d | None => [] end) w h i) else 0)
    (zseq (Zlen (image_numbers (hdr b)))))) blocks).

(** Largest squared distance of a corner (0 or w, 0 or h) from the centre. *)
Definition far (n c : Z) : Z := Z.max c (n - c).

(** Acceptable arguments: at least one block, all of w x h frames; the scan
    size; the frame size and the centre below 2^24; the result buffer, which has
    [radii] = ceil(largest corner distance) + 1 rings, fits 32-bit indexing. *)
Record radial_input (blocks : list block) (scan : Z * Z) (w h sw sh cx cy radii : Z) : Prop := {
  ri_nonempty : blocks <> [];
  ri_blocks : Forall (block_holds w h (sw * sh)) blocks;
  ri_frame : 0 < w < 2 ^ 24 /\ 0 < h < 2 ^ 24 /\ w * h < 2 ^ 32;
  ri_scan : effective_scan scan blocks = (sw, sh) /\ 0 < sw /\ 0 < sh;
  ri_center : cx < 2 ^ 24 /\ cy < 2 ^ 24;
  ri_radii : in_ring 0 0 (radii - 1) (far w (axis_center w cx)) (far h (axis_center h cy));
  ri_fits : radii * (sw * sh) < 2 ^ 32
}.
