(** The normal curve that the histogram of the background is fitted to. *)
From Coq Require Import Reals List.
Import ListNotations.
Open Scope R_scope.

Definition gaussian (a m s b : R) : R := a * exp (- ((b - m) / s) ^ 2 / 2).

(** The sum of the squared differences between the curve and the histogram. *)
Definition misfit (a m s : R) (bins counts : list R) : R :=
  fold_right (fun bc t => (gaussian a m s (fst bc) - snd bc) ^ 2 + t) 0 (combine bins counts).

(** The histogram lies on the curve. *)
Definition on_curve (a m s : R) (bins counts : list R) : Prop :=
  forall b c, In (b, c) (combine bins counts) -> c = gaussian a m s b.

Definition sum_squares (l : list R) : R := fold_right (fun r t => r ^ 2 + t) 0 l.

(** The product of a matrix of three columns and a vector. *)
Definition times (j : list (R * R * R)) (v : R * R * R) : list R :=
  map (fun r => fst (fst r) * fst (fst v) + snd (fst r) * snd (fst v) + snd r * snd v) j.
