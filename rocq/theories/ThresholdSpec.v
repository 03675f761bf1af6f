(** Specification of the threshold calculation. *)
From Coq Require Import ZArith List Reals.
From Flocq Require Import Core.
From Verif Require Import Base BlockModel CountSpec Double Float32.
Import ListNotations.
Open Scope Z_scope.

(** The frames stored in the blocks. *)
Definition stored_frames (blocks : list block) : list (list Z) :=
  map (fun f => snd (snd f)) (flat_map frames_of blocks).

(** Entry [j] of a reference image, as a real number. *)
Definition ref_is (r : list float32) (j : Z) (x : R) : Prop :=
  exists f, nth_error r (Z.to_nat j) = Some f /\ fval f x.

(** The integer dark levels [dv]: the dark reference without fractions, 0 without one. *)
Definition dark_levels (dark : option (list float32)) (n : Z) (dv : Z -> Z) : Prop :=
  forall j, 0 <= j < n ->
    match dark with
    | None => dv j = 0
    | Some d => exists x, ref_is d j x /\ dv j = Ztrunc x
    end.

(** A frame after dark subtraction, in 16 bit arithmetic. *)
Definition minus_dark (dv : Z -> Z) (n : Z) (f : list Z) : list Z :=
  map (fun j => (zat f j - dv j) mod 2 ^ 16) (zseq n).

(** Value of a pixel after gain correction in the sampling code: the fraction is
    dropped after the subtraction and after the multiplication. *)
Definition gain_value (v : Z) (d g : R) : Z :=
  Ztrunc (f_rnd (IZR (Ztrunc (f_rnd (IZR v - d))) * g)).

(** Exact mean and sample variance. *)
Fixpoint rsum (l : list R) : R := match l with [] => 0%R | x :: t => (x + rsum t)%R end.
Definition mean_of (l : list Z) : R := (IZR (zsum l) / IZR (Zlen l))%R.
Definition variance_of (l : list Z) : R :=
  (rsum (map (fun v => (IZR v - mean_of l) * (IZR v - mean_of l)) l) / (IZR (Zlen l) - 1))%R.

(** Number of occurrences. *)
Definition occurrences (l : list Z) (v : Z) : Z := Zlen (filter (Z.eqb v) l).

(** Smallest and largest element. *)
Definition is_min (l : list Z) (m : Z) : Prop := In m l /\ forall v, In v l -> m <= v.
Definition is_max (l : list Z) (m : Z) : Prop := In m l /\ forall v, In v l -> v <= m.

(** Mean, variance, deviation and X-ray threshold of the samples in double
    precision: the mean is the rounded exact mean, the variance has a relative
    error below 2^-19, the deviation is the rounded root of the variance. *)
Record statistics (l : list Z) (nsigma : R) (mean variance sd xray : double) : Prop := {
  st_mean : dval mean (d_rnd (mean_of l));
  st_variance : exists v, dval variance v /\
    (Rabs (v - variance_of l) <= variance_of l * bpow radix2 (-19))%R /\ dval sd (d_rnd (sqrt v));
  st_xray : exists s, dval sd s /\ dval xray (d_rnd (d_rnd (mean_of l) + d_rnd (nsigma * s)))
}.

(** Histogram of the samples from [lo] up to but not including [hi]. *)
Definition histogram_of (l : list Z) (lo hi : Z) (hist : list Z) : Prop :=
  Zlen hist = hi - lo /\ forall v, lo <= v < hi -> zat hist (v - lo) = occurrences l v.
