(** What average, maximum and histogram mean. *)
From Coq Require Import ZArith List Bool Reals.
From Verif Require Import Base BlockModel StemSpec Double.
Import ListNotations.
Open Scope Z_scope.

(** All frames of a sequence of blocks: block and index inside the block. *)
Definition all_frames (blocks : list block) : list (block * Z) :=
  flat_map (fun b => map (fun i => (b, i)) (zseq (images_in_block (hdr b)))) blocks.

(** Pixel (x,y) of such a frame. *)
Definition pixel_of (w h x y : Z) (f : block * Z) : Z :=
  frame_pixel (match data (fst f) with Some d => d | None => [] end) w h (snd f) x y.

(** A block of w x h frames: the buffer holds the frames that the header says;
    32-bit indexing reaches all of them. *)
Definition block_of_frames (w h : Z) (b : block) : Prop :=
  frame_dims (hdr b) = (w, h) /\ 0 <= images_in_block (hdr b) /\
  exists d, data b = Some d /\ w * h * images_in_block (hdr b) <= Zlen d /\
    w * h * images_in_block (hdr b) < 2 ^ 32 /\ Forall is_u16 d.

Record frames_input (blocks : list block) (w h : Z) : Prop := {
  fi_nonempty : blocks <> [];
  fi_blocks : Forall (block_of_frames w h) blocks;
  fi_frame : 0 <= w /\ 0 <= h /\ w * h < 2 ^ 32
}.

(** Element of a list of doubles. *)
Definition dat (l : list double) (i : Z) : double := nth (Z.to_nat i) l (d_of_Z 0).

(** [m] is the largest element of [l], or 0 if that is larger. *)
Definition is_max0 (l : list Z) (m : Z) : Prop :=
  (m = 0 \/ In m l) /\ 0 <= m /\ forall v, In v l -> v <= m.

(** Number of elements satisfying a test. *)
Definition count_if {A} (f : A -> bool) (l : list A) : Z := Zlen (filter f l).
