(** What the centre of mass of recorded electrons is, in exact arithmetic and
    rounded once to double and once to single precision. *)
From Coq Require Import ZArith List Bool Reals.
From Verif Require Import Base Double Float32 SparseModel SparseSpec.
Import ListNotations.
Open Scope Z_scope.

(** All events of scan position [p], one frame after the other. *)
Definition events_at (sa : sparse) (p : Z) : list Z := concat (row_at sa p).

(** Squared distance of the point (a, b) from (c, d). *)
Definition dist2 (a b c d : Z) : Z := (a - c) * (a - c) + (b - d) * (b - d).

(** The events kept by cropping to [radius] around [center], where [X] and [Y]
    give the coordinates of an event; all of them without cropping. *)
Definition kept (X Y : Z -> Z) (crop : option (Z * (Z * Z))) (l : list Z) : list Z :=
  match crop with
  | None => l
  | Some (radius, (cx, cy)) =>
      filter (fun e => dist2 (X e) (Y e) cx cy <=? radius * radius) l
  end.

(** [v] is the mean of the coordinate [g] over the events [l]: not a number for
    no events, otherwise the exact quotient rounded to double, then to single. *)
Definition is_mean (g : Z -> Z) (l : list Z) (v : float32) : Prop :=
  match l with
  | [] => f_nan v = true
  | _ => fval v (f_rnd (d_rnd (IZR (zsum (map g l)) / IZR (Zlen l))))
  end.

(** Entry of a result row. *)
Definition entry (l : list float32) (p : Z) : option float32 := nth_error l (Z.to_nat p).

(** Any array of the declared shape whose events are pixels of the frame; the
    same pixel may occur several times in a frame. *)
Record shaped (sa : sparse) : Prop := {
  sh_scan : shape_ok (sp_scan sa);
  sh_len : Zlen (sp_data sa) = num_scans sa;
  sh_rows : forall row, In row (sp_data sa) -> Zlen row = sp_F sa;
  sh_events : forall row fr e, In row (sp_data sa) -> In fr row -> In e fr -> 0 <= e < frame_size sa }.

(** The cropping asked for by the arguments [crop_to] and [init_center]. *)
Definition crop_args (crop_to : option Z) (init_center : option (Z * Z)) : option (Z * (Z * Z)) :=
  match crop_to, init_center with
  | Some radius, Some center => Some (radius, center)
  | _, _ => None
  end.

(** Sizes for which no intermediate result is rounded: frame dimensions up to
    2^24, up to 2^29 events per position; when cropping (around a given
    centre), a radius below 2^11 and squared distances up to 2^24. *)
Record com_limits (sa : sparse) (fx fy : Z) (crop : option (Z * (Z * Z))) : Prop := {
  cl_frame : sp_frame sa = [fx; fy];
  cl_fx : 0 < fx <= 2 ^ 24;
  cl_fy : 0 < fy <= 2 ^ 24;
  cl_scan : exists s0 s1, sp_scan sa = [s0; s1];
  cl_positions : num_scans sa <= 2 ^ 31;
  cl_events : forall p, 0 <= p < num_scans sa -> Zlen (events_at sa p) <= 2 ^ 29;
  cl_crop : match crop with
            | None => True
            | Some (radius, (cx, cy)) =>
                0 <= radius < 2 ^ 11 /\ 0 <= cx <= 2 ^ 24 /\ 0 <= cy <= 2 ^ 24 /\
                forall p e, 0 <= p < num_scans sa -> In e (events_at sa p) ->
                  dist2 (e / fx) (e mod fy) cx cy <= 2 ^ 24
            end }.
