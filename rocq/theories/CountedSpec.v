(** Specification for C56: how many frames of a position show an electron at a pixel. *)
From Coq Require Import ZArith List Bool QArith.
From Verif Require Import Base BlockModel CountSpec.
Import ListNotations.
Open Scope Z_scope.

(** The events a frame counter reports (none if it fails). *)
Definition reported (count : (Z * Z) -> list Z -> outcome (list Z)) (f : (Z * Z) * list Z) : list Z :=
  match count (fst f) (snd f) with Ok ev => ev | _ => [] end.

(** Number of frames delivered for position [p] in which pixel [j] is reported. *)
Definition frames_hitting (count : (Z * Z) -> list Z -> outcome (list Z)) (blocks : list block) (p j : Z) : Z :=
  Zlen (filter (fun f => existsb (Z.eqb j) (reported count f)) (frames_at p blocks)).

(** What is subtracted from pixel [j]: the dark reference without its fraction. *)
Definition dark_level (dark : option (list Q)) (j : Z) : Z :=
  match dark with
  | None => 0
  | Some d => let q := nth (Z.to_nat j) d 0%Q in Z.quot (Qnum q) (Zpos (Qden q))
  end.

(** Pixel (x, y) of a frame of width w after dark subtraction (of 16 bit
    numbers) and thresholding. *)
Definition shown (dark : option (list Q)) (bg xray : Q) (w : Z) (f : list Z) (x y : Z) : Z :=
  let v := (zat f (y * w + x) - dark_level dark (y * w + x)) mod 2 ^ 16 in
  if Qle_bool (inject_Z v) bg then 0 else if Qle_bool xray (inject_Z v) then 0 else v.

(** It is greater than each of its up to eight neighbours. *)
Definition peak (dark : option (list Q)) (bg xray : Q) (w h : Z) (f : list Z) (x y : Z) : bool :=
  forallb (fun y' => forallb (fun x' =>
    if (Z.abs (x' - x) <=? 1) && (Z.abs (y' - y) <=? 1) && negb ((x' =? x) && (y' =? y))
    then shown dark bg xray w f x' y' <? shown dark bg xray w f x y else true) (zseq w)) (zseq h).

(** Number of frames of position [p] with a peak at (x, y). *)
Definition peaks_at (dark : option (list Q)) (bg xray : Q) (w h : Z) (blocks : list block) (p x y : Z) : Z :=
  Zlen (filter (fun f => peak dark bg xray w h (snd f) x y) (frames_at p blocks)).
