(** What counting with a plain reader should give. *)
From Coq Require Import ZArith List Bool Reals.
From Flocq Require Import Core.
From Verif Require Import Base BlockModel CountSpec Double Float32 ThresholdSpec ElectronSpec SparseModel SparseSpec ClassicPyModel.
Import ListNotations.
Open Scope Z_scope.
(* From ClassicPyModel only the records [reader_ops] and [classic_args] and the
   calls of a program on a reader are used here, from SparseModel the array and
   to_dense(). *)

(** ** Readers *)

(** The results of [n] calls of read(). *)
Fixpoint ro_reads {R} (ops : reader_ops R) (n : nat) (r : R) : list (outcome block) :=
  match n with
  | O => []
  | S m => fst (ro_read ops r) :: ro_reads ops m (snd (ro_read ops r))
  end.

(** From now on the reader returns the blocks [bs], then empty blocks. *)
Definition delivers {R} (ops : reader_ops R) (r : R) (bs : list block) : Prop :=
  forall n, ro_reads ops n r = firstn n (map Ok bs ++ repeat (Ok empty_block) n).

(** A new reader of the data set [bs]: it delivers the blocks, and delivers
    them again after a reset at any time. *)
Definition reader_of {R} (ops : reader_ops R) (r : R) (bs : list block) : Prop :=
  delivers ops r bs /\ forall cs, delivers ops (ro_reset ops (run_calls ops cs r)) bs.

(** Blocks as readers make them: with data and a version. *)
Definition real_block (b : block) : Prop := data b <> None /\ version (hdr b) <> 0.

(** Number of calls of read() after the last reset. *)
Fixpoint since_reset (cs : list reader_call) : nat :=
  match cs with
  | [] => 0
  | CReset :: t => since_reset t
  | CRead :: t => if existsb (fun c => match c with CReset => true | CRead => false end) t
                  then since_reset t else S (since_reset t)
  end.

(** ** Electrons *)

(** Every entry of a reference image is a number, given by [v]. *)
Definition refs_are (r : list float32) (n : Z) (v : Z -> R) : Prop :=
  Zlen r = n /\ forall j, 0 <= j < n -> ref_is r j (v j).

(** The value of a pixel after subtraction of the dark level [d] and
    multiplication by the (inverted) gain, in single precision; without a gain
    the fraction is dropped. *)
Definition classic_value (gain : option R) (v : Z) (d : R) : R :=
  match gain with
  | None => IZR (Ztrunc (f_rnd (IZR v - d)))
  | Some g => f_rnd (f_rnd (IZR v - d) * g)
  end.

(** Values not above the background or not below the X-ray threshold count as 0. *)
Definition clipped (bg xr x : R) : R :=
  if Rle_dec x bg then 0%R else if Rle_dec xr x then 0%R else x.

(** Pixel (x, y) is greater than each of its up to eight neighbours. *)
Definition greatest (val : Z -> Z -> R) (w h x y : Z) : Prop :=
  forall x' y', neighbour w h x y x' y' -> (val x' y' < val x y)%R.

(** An electron at pixel (x, y) of a frame [f] of width [w] and height [h]. *)
Definition electron_in (dv : Z -> R) (gv : option (Z -> R)) (bg xr : R) (w h : Z) (f : list Z) (x y : Z) : Prop :=
  greatest (fun x y => clipped bg xr
    (classic_value (option_map (fun g => g (y * w + x)) gv) (zat f (y * w + x)) (dv (y * w + x)))) w h x y.

(** The values for which this arithmetic is defined: without a gain the rounded
    difference must be above -1 and below 65536 (a value that a 16 bit number
    can hold without its fraction), with one the numbers must not overflow. *)
Definition in_range (gain : option R) (v : Z) (d : R) : Prop :=
  match gain with
  | None => (-1 < f_rnd (IZR v - d) < 65536)%R
  | Some g => (Rabs d <= bpow radix2 40)%R /\ (Rabs g <= bpow radix2 40)%R
  end.

(** ** Counting *)

(** The data set: blocks of w x h frames with 16 bit pixels, at positions of an
    sw x sh scan. *)
Record data_set (a : classic_args) (bs : list block) (sw sh w h : Z) : Prop := {
  ds_some : exists b0 rest, bs = b0 :: rest /\ scan_in_effect (ca_scan a) b0 = (sw, sh);
  ds_scan : 0 < sw /\ 0 < sh /\ sw * sh < 2 ^ 32;
  ds_frame : 1 <= w < 65536 /\ 1 <= h < 65536 /\ 2 <= w * h < 2 ^ 32;
  ds_blocks : forall b, In b bs -> block_ok b /\ frame_dims (hdr b) = (w, h) /\ version (hdr b) <> 0;
  ds_pixels : forall f, In f (flat_map frames_of bs) -> Forall is_u16 (snd (snd f));
  ds_positions : forall f, In f (flat_map frames_of bs) -> 0 <= fst f < sw * sh
}.

(** The references: a dark reference and perhaps a gain, of the size of a frame. *)
Definition refs_given (a : classic_args) (n : Z) (dv : Z -> R) (gv : option (Z -> R)) : Prop :=
  (exists d, ca_dark a = Some d /\ refs_are d n dv) /\
  match ca_gain a, gv with
  | None, None => True
  | Some g, Some v => refs_are g n v
  | _, _ => False
  end.

(** References for which the arithmetic on all pixels is defined. *)
Definition references (a : classic_args) (bs : list block) (n : Z) (dv : Z -> R) (gv : option (Z -> R)) : Prop :=
  refs_given a n dv gv /\
  forall f j, In f (flat_map frames_of bs) -> 0 <= j < n ->
    in_range (option_map (fun v => v j) gv) (zat (snd (snd f)) j) (dv j).

(** The array [sa] holds the electrons of the last frame of each position: 1 where
    there is one, 0 everywhere else. *)
Definition holds_electrons (sa : sparse) (bs : list block) (sw sh w h : Z) (dv : Z -> R) (gv : option (Z -> R))
    (bg xr : R) : Prop :=
  exists D, to_dense sa = Ok (Dense [sh; sw; w; h] D) /\
    forall p x y, 0 <= p < sw * sh -> 0 <= x < w -> 0 <= y < h ->
      let v := zat D (p * (w * h) + (y * w + x)) in
      (v = 1 /\ exists f, last_frame p bs = Some ((w, h), f) /\ electron_in dv gv bg xr w h f x y) \/
      (v = 0 /\ forall f, last_frame p bs = Some ((w, h), f) -> ~ electron_in dv gv bg xr w h f x y).
