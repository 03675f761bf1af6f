(** What a user means by an annular detector and a STEM image; independent of
    the model's helper functions. *)
From Coq Require Import ZArith List Bool.
From Verif Require Import Base BlockModel.
Import ListNotations.
Open Scope Z_scope.

(** Centre used on one axis of [n] pixels: a negative coordinate means the
    middle, rounded up for odd sizes. *)
Definition axis_center (n c : Z) : Z := if c <? 0 then (n + 1) / 2 else c.

(** Pixel (x, y) is in the annulus. *)
Definition in_annulus (cx cy inner outer x y : Z) : Prop :=
  inner * inner <= (x - cx) * (x - cx) + (y - cy) * (y - cy) < outer * outer.

Definition in_annulusb (cx cy inner outer x y : Z) : bool :=
  let d := (x - cx) * (x - cx) + (y - cy) * (y - cy) in
  (inner * inner <=? d) && (d <? outer * outer).

(** Sum of the pixels of a frame ([pix x y] is the value of pixel (x,y)) inside
    the annulus. *)
Definition annulus_sum (w h : Z) (pix : Z -> Z -> Z) (cx cy inner outer : Z) : Z :=
  zsum (map (fun y => zsum (map (fun x =>
    if in_annulusb cx cy inner outer x y then pix x y else 0) (zseq w))) (zseq h)).

(** Pixel (x,y) of the i-th image stored in block data [d] of w x h frames. *)
Definition frame_pixel (d : list Z) (w h i x y : Z) : Z :=
  zat d (i * (w * h) + y * w + x).

(** A block of [w] x [h] frames whose positions are below [npos] and whose
    buffer holds one frame per image number. *)
Definition block_holds (w h npos : Z) (b : block) : Prop :=
  frame_dims (hdr b) = (w, h) /\
  exists d, data b = Some d /\
    w * h * Zlen (image_numbers (hdr b)) <= Zlen d /\
    Zlen d < 2 ^ 64 /\
    Forall is_u16 d /\
    Forall (fun p => 0 <= p < npos) (image_numbers (hdr b)).

(** The scan size in effect: the argument, or the first block's header when the
    argument has a zero component. *)
Definition effective_scan (scan : Z * Z) (blocks : list block) : Z * Z :=
  if (fst scan =? 0) || (snd scan =? 0)
  then match blocks with b :: _ => scan_dims (hdr b) | [] => scan end
  else scan.

(** Radii whose squares fit a C int. *)
Definition radius_ok (r : Z) : Prop := -46340 <= r <= 46340.

(** Acceptable arguments of createSTEMImages. *)
Record stem_input (blocks : list block) (inner outer : list Z) (scan : Z * Z)
    (w h sw sh : Z) : Prop := {
  si_nonempty : blocks <> [];
  si_blocks : Forall (block_holds w h (sw * sh)) blocks;
  si_frame : 0 <= w < 2 ^ 31 /\ 0 <= h < 2 ^ 31 /\ w * h < 2 ^ 32;
  si_scan : effective_scan scan blocks = (sw, sh) /\ 0 < sw /\ 0 < sh /\ sw * sh < 2 ^ 32;
  si_radii : inner <> [] /\ List.length inner = List.length outer;
  si_inner : Forall radius_ok inner;
  si_outer : Forall radius_ok outer
}.

(** No scan position is delivered twice. *)
Definition distinct_positions (blocks : list block) : Prop :=
  NoDup (flat_map (fun b => image_numbers (hdr b)) blocks).

(** Number of occurrences of a value. *)
Definition occurrences (e : Z) (l : list Z) : Z :=
  Z.of_nat (count_occ Z.eq_dec l e).
