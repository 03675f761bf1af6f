(** What counting with a threaded reader should give. *)
From Coq Require Import String ZArith List Bool Reals.
From Flocq Require Import Core.
From Verif Require Import Base BlockModel CountSpec Double Float32 ThresholdModel ThresholdSpec ElectronSpec
  SparseModel SparseSpec ClassicPyModel ClassicPySpec FullCountModel.
Import ListNotations.
Open Scope string_scope.
Open Scope Z_scope.
(* From the models only the records [classic_args], [thresholds] and [pyvalue] are
   used here. *)

(** The value of a pixel after subtraction of the dark level and multiplication by
    the (inverted) gain.  Without a gain the pixels stay 16 bit numbers: the fraction
    of the dark level is dropped and a difference below zero wraps around. *)
Definition counted_value (dark gain : option R) (v : Z) : R :=
  match gain with
  | None => match dark with
            | None => IZR v
            | Some d => IZR ((v - Ztrunc d) mod 65536)
            end
  | Some g => match dark with
              | None => f_rnd (IZR v * g)
              | Some d => f_rnd (f_rnd (IZR v - d) * g)
              end
  end.

(** Dark levels and gains for which this is defined. *)
Definition level_ok (dark gain : option R) : Prop :=
  match gain with
  | None => match dark with None => True | Some d => (-1 < d < 65536)%R end
  | Some g => (Rabs g <= bpow radix2 40)%R /\ match dark with None => True | Some d => (Rabs d <= bpow radix2 40)%R end
  end.

(** The level of pixel [j] of a reference, if there is one. *)
Definition level (v : option (Z -> R)) (j : Z) : option R := option_map (fun f => f j) v.

(** The references are those the user gave, of the size of a frame. *)
Definition refs_of (a : classic_args) (n : Z) (dv gv : option (Z -> R)) : Prop :=
  match ca_dark a, dv with
  | None, None => True
  | Some d, Some v => refs_are d n v
  | _, _ => False
  end /\
  match ca_gain a, gv with
  | None, None => True
  | Some g, Some v => refs_are g n v
  | _, _ => False
  end /\
  forall j, 0 <= j < n -> level_ok (level dv j) (level gv j).

(** An electron at pixel (x, y) of a frame [f]: after the thresholds the pixel is
    greater than each of its neighbours. *)
Definition electron_at (dv gv : option (Z -> R)) (bg xr : R) (w h : Z) (f : list Z) (x y : Z) : Prop :=
  greatest (fun x y => clipped bg xr
    (counted_value (level dv (y * w + x)) (level gv (y * w + x)) (zat f (y * w + x)))) w h x y.

(** [n] members of the list have the property. *)
Inductive how_many {A} (P : A -> Prop) : list A -> Z -> Prop :=
| none_left : how_many P [] 0
| one_more x l n : P x -> how_many P l n -> how_many P (x :: l) (n + 1)
| not_this x l n : ~ P x -> how_many P l n -> how_many P (x :: l) n.

(** What a dict holds under a name. *)
Fixpoint entry (d : list (string * pyvalue)) (name : string) : option pyvalue :=
  match d with
  | [] => None
  | (k, v) :: t => if String.eqb k name then Some v else entry t name
  end.

(** The dict tells that thresholds were calculated, and all of [t]. *)
Definition tells (d : list (string * pyvalue)) (t : thresholds) : Prop :=
  entry d "threshold_calculated" = Some (VBool true) /\
  entry d "background_threshold" = Some (VFloat (th_background t)) /\
  entry d "x_ray_threshold" = Some (VFloat (th_xray t)) /\
  entry d "number_of_samples" = Some (VInt (th_samples t)) /\
  entry d "min_sample" = Some (VFloat (d_of_Z (th_min t))) /\
  entry d "max_sample" = Some (VFloat (d_of_Z (th_max t))) /\
  entry d "mean" = Some (VFloat (th_mean t)) /\
  entry d "variance" = Some (VFloat (th_variance t)) /\
  entry d "std_dev" = Some (VFloat (th_stddev t)) /\
  entry d "number_of_bins" = Some (VInt (th_bins t)) /\
  entry d "x_ray_threshold_n_sigma" = Some (VFloat (th_xray_nsigma t)) /\
  entry d "background_threshold_n_sigma" = Some (VFloat (th_background_nsigma t)) /\
  entry d "optimized_mean" = Some (VFloat (th_opt_mean t)) /\
  entry d "optimized_std_dev" = Some (VFloat (th_opt_stddev t)).

(** Blocks of w x h frames with 16 bit pixels of an sw x sh scan. *)
Record delivery (a : classic_args) (bs : list block) (sw sh w h : Z) : Prop := {
  de_scan : 0 < sw /\ 0 < sh /\ sw * sh < 2 ^ 32;
  de_frame : 1 <= w < 65536 /\ 1 <= h < 65536 /\ 2 <= w * h < 2 ^ 32;
  de_blocks : forall b, In b bs -> block_ok b /\ frame_dims (hdr b) = (w, h) /\ scan_in_effect (ca_scan a) b = (sw, sh);
  de_pixels : forall f, In f (flat_map frames_of bs) -> Forall is_u16 (snd (snd f));
  de_few : Zlen (flat_map frames_of bs) < 2 ^ 32
}.
