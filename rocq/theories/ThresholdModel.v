(** Model of the threshold calculation: stempy/electronthresholds.cpp 74-193.
    The Levenberg-Marquardt solver (Eigen) is a parameter, as are the random
    numbers. *)
From Coq Require Import String ZArith List Bool.
From Flocq Require Import IEEE754.BinarySingleNaN IEEE754.Binary IEEE754.Bits.
From Verif Require Import Base BlockModel Double Float32 FloatConv.
Import ListNotations.
Open Scope Z_scope.

(** Conversions of floating point numbers to integers drop the fraction; they
    are undefined when the result is not in [lo, hi] (or for NaN, infinity). *)
Definition int_of {prec emax} (x : binary_float prec emax) (lo hi : Z) : outcome Z :=
  if is_finite prec emax x
  then let t := Binary.Btrunc prec emax x in
       if (lo <=? t) && (t <=? hi) then Ok t else UB "floating point number out of integer range"
  else UB "floating point number out of integer range".
Definition d_to_int (x : double) : outcome Z := int_of x (- 2 ^ 31) (2 ^ 31 - 1).
Definition f_to_i16 (x : float32) : outcome Z := int_of x (- 2 ^ 15) (2 ^ 15 - 1).
Definition f_to_u16 (x : float32) : outcome Z := int_of x 0 (2 ^ 16 - 1).

(** uint32 to int (two's complement). *)
Definition i32_of_u32 (x : Z) : Z := if x <? 2 ^ 31 then x else x - 2 ^ 32.

(** std::uniform_int_distribution<int>(lo, hi) fed by the random number [r]:
    any value in the range; undefined for an empty range. *)
Definition uniform_int (lo hi r : Z) : outcome Z :=
  if hi <? lo then UB "empty uniform distribution" else Ok (lo + r mod (hi - lo + 1)).

(** :103-115.  The variable [value] has the type of the block data, uint16_t, in
    both branches, so in the gain branch the fraction is dropped twice. *)
Definition sample_value (dark gain : option (list float32)) (v j : Z) : outcome Z :=
  match gain with
  | None =>
    match dark with
    | None => Ok v
    | Some d => let* r := rd d j in let* k := f_to_i16 r in Ok (u16 (v - k))
    end
  | Some g =>
    let* v1 := match dark with
               | None => Ok v
               | Some d => let* r := rd d j in f_to_u16 (f_sub (f_of_Z v) r)
               end in
    let* m := rd g j in f_to_u16 (f_mul (f_of_Z v1) m)
  end.

(** :91-118, one sample: the [i]-th, with random numbers [rb] and [rf]. *)
Definition take_sample (blocks : list block) (dark gain : option (list float32)) (npix i rb rf : Z)
    (samples : list Z) : outcome (list Z) :=
  let* bi := uniform_int 0 (Zlen blocks - 1) rb in                               (* :91-92 *)
  let* b := rd blocks bi in
  let* fi := uniform_int 0 (i32_of_u32 (u32 (images_in_block (hdr b) - 1))) rf in  (* :94-96 *)
  let* d := block_data b in
  for_loop npix (fun j s =>
    let* v := rd d (u32 (fi * npix + j)) in                                      (* :103 *)
    let* v' := sample_value dark gain v j in
    wr s (u32 (i * npix + j)) v') samples.                                       (* :117 *)

(** :80-119.  [rnd k]: the k-th random number.  A vector of negative size
    throws.  In the gain case the samples are floats with these integer values. *)
Definition take_samples (blocks : list block) (dark gain : option (list float32)) (n : Z) (rnd : Z -> Z)
    : outcome (list Z) :=
  let* b0 := rd blocks 0 in                                                      (* :80 *)
  let npix := u32 (fst (frame_dims (hdr b0)) * snd (frame_dims (hdr b0))) in     (* :81 *)
  let size := i32_of_u32 (u32 (npix * n)) in                                     (* :87-88 *)
  if size <? 0 then Throw "std::length_error" else
  for_loop n (fun i s => take_sample blocks dark gain npix i (rnd (2 * i)) (rnd (2 * i + 1)) s)
    (repeat 0 (Z.to_nat size)).

(** calculateMean, :13-17. *)
Definition calculate_mean (l : list Z) : double :=
  d_div (fold_left (fun a v => d_add a (d_of_Z v)) l (d_of_Z 0)) (d_of_Z (Zlen l)).

(** calculateVariance, :19-31.  pow(t, 2.0) is taken to be the rounded square. *)
Definition calculate_variance (l : list Z) (mean : double) : double :=
  d_div (fold_left (fun a v => let t := d_sub (d_of_Z v) mean in d_add a (d_mul t t)) l (d_of_Z 0))
        (d_sub (d_of_Z (Zlen l)) (d_of_Z 1)).

(** std::minmax_element of a non-empty vector; undefined to dereference otherwise. *)
Definition min_max (l : list Z) : outcome (Z * Z) :=
  match l with
  | [] => UB "dereferencing end()"
  | x :: t => Ok (fold_left Z.min t x, fold_left Z.max t x)
  end.

(** :145-153.  The counts are doubles, exact for fewer than 2^53 samples. *)
Definition fill_histogram (samples : list Z) (minBin nbins : Z) : outcome (list Z) :=
  for_each samples (fun v h =>
    let bin := v - minBin in
    if nbins <=? bin then Ok h
    else let* c := rd h bin in wr h bin (c + 1)) (repeat 0 (Z.to_nat nbins)).

(** struct CalculateThresholdsResults, electronthresholds.h:14-30. *)
Record thresholds := mkThresholds {
  th_background : double;
  th_xray : double;
  th_samples : Z;
  th_min : Z;
  th_max : Z;
  th_mean : double;
  th_variance : double;
  th_stddev : double;
  th_bins : Z;
  th_xray_nsigma : double;
  th_background_nsigma : double;
  th_opt_mean : double;
  th_opt_stddev : double
}.

(** fabs. *)
Definition d_abs (x : double) : double :=
  match x with
  | B754_zero _ _ _ => B754_zero 53 1024 false
  | B754_infinity _ _ _ => B754_infinity 53 1024 false
  | B754_nan _ _ _ pl H => B754_nan 53 1024 false pl H
  | B754_finite _ _ _ m e H => B754_finite 53 1024 false m e H
  end.

Section Calculate.
(** LevenbergMarquardt::minimize: bins, histogram and start values (amplitude,
    mean, deviation) to the fitted mean and deviation, [None] if not converged. *)
Variable fit : list Z -> list Z -> Z -> double -> double -> option (double * double).

(** :121-192, from the samples on. *)
Definition thresholds_of_samples (samples : list Z) (n : Z) (bgNSigma xrayNSigma : double) : outcome thresholds :=
  let mean := calculate_mean samples in                                          (* :122 *)
  let variance := calculate_variance samples mean in
  let stdDev := d_sqrt variance in
  let xray := d_add mean (d_mul xrayNSigma stdDev) in                            (* :125 *)
  let* (minSample, maxSample) := min_max samples in                              (* :128-130 *)
  let* hi := d_to_int (d_add mean (d_mul xray stdDev)) in                        (* :131-134 *)
  let* lo := d_to_int (d_sub mean (d_mul xray stdDev)) in
  let maxBin := Z.min maxSample hi in
  let minBin := Z.max minSample lo in
  let nbins := maxBin - minBin in                                                (* :136 *)
  if nbins <? 0 then Throw "std::length_error" else
  let* histogram := fill_histogram samples minBin nbins in
  let* first := rd histogram 0 in                                                (* :160-162 *)
  let amplitude := fold_left Z.max histogram first in
  match fit (map (fun i => minBin + i) (zseq nbins)) histogram amplitude mean stdDev with
  | None => Throw "Optimization did not converge"                                (* :167-169 *)
  | Some (om, os) =>
    let osd := d_abs os in
    Ok (mkThresholds (d_add om (d_mul osd bgNSigma)) xray n minSample maxSample mean variance stdDev
          nbins xrayNSigma bgNSigma om osd)
  end.

(** calculateThresholds, :74-193. *)
Definition calculate_thresholds (blocks : list block) (dark gain : option (list float32)) (n : Z)
    (bgNSigma xrayNSigma : double) (rnd : Z -> Z) : outcome thresholds :=
  let* samples := take_samples blocks dark gain n rnd in
  thresholds_of_samples samples n bgNSigma xrayNSigma.
End Calculate.
