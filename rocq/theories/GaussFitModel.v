(** The error functor of the threshold calculation, stempy/electronthresholds.cpp:33-72,
    which Eigen's Levenberg-Marquardt solver minimises.  Simplification: real
    numbers instead of doubles. *)
From Coq Require Import Reals List.
Import ListNotations.
Open Scope R_scope.

(** The state vector x: amplitude x[0], mean x[1], standard deviation x[2]. *)
Record params := mkParams { p_amp : R; p_mean : R; p_dev : R }.

(** One element of operator(), :42-50. *)
Definition residual (x : params) (bin count : R) : R :=
  let num := - (bin - p_mean x) ^ 2 in
  let variance := p_dev x ^ 2 in
  p_amp x * exp (num / (2 * variance)) - count.

(** operator(), :42-50: the vector fvec. *)
Definition residuals (x : params) (bins counts : list R) : list R :=
  map (fun bc => residual x (fst bc) (snd bc)) (combine bins counts).

(** One row of df, :52-68. *)
Definition jacobian_row (x : params) (bin : R) : R * R * R :=
  let tmp := bin - p_mean x in
  let num := - tmp ^ 2 in
  let variance := p_dev x ^ 2 in
  let den := 2 * variance in
  let j0 := exp (num / den) in
  let j1 := p_amp x * tmp * j0 / variance in
  (j0, j1, tmp * j1 / p_dev x).
(** df, :52-68: the matrix. *)
Definition jacobian (x : params) (bins : list R) : list (R * R * R) := map (jacobian_row x) bins.

(** :171-175: the fitted deviation is reported without its sign, and the
    background threshold is so many of them above the fitted mean. *)
Definition background_threshold (x : params) (nSigma : R) : R :=
  p_mean x + Rabs (p_dev x) * nSigma.
