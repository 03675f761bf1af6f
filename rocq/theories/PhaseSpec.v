(** What the phase of C69 means: a smooth periodic surface over the image. *)
From Coq Require Import Reals ZArith List.
Import ListNotations.
Open Scope R_scope.

(** One wave: [rows] periods over the height of the image and [cols] over its
    width, with the coefficients of cosine and sine. *)
Record wave := mkWave { rows : Z; cols : Z; w_cos : R; w_sin : R }.

(** The wave, and a sum of waves, at the point (y, x); pixels are the points with
    integer coordinates. *)
Definition wave_at (ny nx : nat) (w : wave) (y x : R) : R :=
  let t := 2 * PI * (IZR (rows w) * y / INR ny + IZR (cols w) * x / INR nx) in
  w_cos w * cos t + w_sin w * sin t.
Definition surface (ny nx : nat) (ws : list wave) (y x : R) : R :=
  fold_right (fun w s => wave_at ny nx w y x + s) 0 ws.

(** More than two pixels per period in both directions. *)
Definition resolved (ny nx : nat) (ws : list wave) : Prop :=
  Forall (fun w => 2 * Z.abs (rows w) < Z.of_nat ny /\ 2 * Z.abs (cols w) < Z.of_nat nx)%Z ws.

(** [gy] and [gx] are the slopes of the surface at the pixels, downwards and to
    the right. *)
Definition slopes (ny nx : nat) (f : R -> R -> R) (gy gx : nat -> nat -> R) : Prop :=
  forall y x, (y < ny)%nat -> (x < nx)%nat ->
    derivable_pt_lim (fun t => f t (INR x)) (INR y) (gy y x) /\
    derivable_pt_lim (fun t => f (INR y) t) (INR x) (gx y x).

(** Sum and mean of an array. *)
Fixpoint rsum (n : nat) (f : nat -> R) : R := match n with O => 0 | S k => rsum k f + f k end.
Definition mean (ny nx : nat) (a : nat -> nat -> R) : R :=
  rsum ny (fun y => rsum nx (fun x => a y x)) / (INR ny * INR nx).

(** The factor by which the regularisation weakens a wave; a constant is removed. *)
Definition damping (ny nx : nat) (reg : R) (w : wave) : R :=
  if ((rows w =? 0) && (cols w =? 0))%Z%bool then 0
  else let k2 := (IZR (rows w) / INR ny) ^ 2 + (IZR (cols w) / INR nx) ^ 2 in
       k2 ^ 2 / (k2 ^ 2 + (reg / (2 * PI)) ^ 2).
Definition damped (ny nx : nat) (reg : R) (ws : list wave) : list wave :=
  map (fun w => mkWave (rows w) (cols w) (damping ny nx reg w * w_cos w) (damping ny nx reg w * w_sin w)) ws.

(** The sum of the coefficients, as a measure of the size of a surface. *)
Definition total_amplitude (ws : list wave) : R := fold_right (fun w s => Rabs (w_cos w) + Rabs (w_sin w) + s) 0 ws.
