(** Specification for the sector readers: what the files contain and which
    frames that makes, independently of the readers. *)
From Coq Require Import ZArith List.
From Verif Require Import Base BlockModel StreamSpec SectorModel.
Import ListNotations.
Open Scope Z_scope.

(** Frames that can be divided into four equal sectors. *)
Definition wf_geom (g : geom) : Prop :=
  0 < g_w g /\ 0 < g_h g /\ g_w g mod 4 = 0 /\ g_h g mod 4 = 0 /\
  g_w g * g_h g < 2 ^ 31.

(** One record of a sector file: the position (x, y) in the scan and the
    pixels of the sector. *)
Record srec := mkSrec {
  s_scan : Z; s_frame : Z; s_sw : Z; s_sh : Z; s_x : Z; s_y : Z; s_px : list Z
}.

Definition s_pos (r : srec) : Z := s_y r * s_sw r + s_x r.

Definition encode_srec (r : srec) : list Z :=
  flat_map (le_bytes 4) [s_scan r; s_frame r] ++
  flat_map (le_bytes 2) [s_sw r; s_sh r; s_x r; s_y r] ++
  flat_map (le_bytes 2) (s_px r).

Definition wf_srec (g : geom) (r : srec) : Prop :=
  is_u32 (s_scan r) /\ is_u32 (s_frame r) /\ is_u16 (s_sw r) /\ is_u16 (s_sh r) /\
  is_u16 (s_x r) /\ is_u16 (s_y r) /\
  4 * Zlen (s_px r) = g_w g * g_h g /\ Forall is_u16 (s_px r).

(** Where pixel [i] of the frame comes from: the sector, and the index among
    that sector's pixels.  Version 4: four column strips; version 5: four row
    strips. *)
Definition pixel_source (g : geom) (v i : Z) : Z * Z :=
  let w := g_w g in
  let sw := w / 4 in
  let sh := g_h g / 4 in
  if v =? 4
  then ((i mod w) / sw, (i / w) * sw + (i mod w) mod sw)
  else (i / (w * sh), i mod (w * sh)).

(** The frame made of the sectors [rs] (sector number, record): every pixel of
    a sector that is there, zero elsewhere. *)
Definition assembled (g : geom) (v : Z) (rs : list (Z * srec)) : list Z :=
  map (fun i =>
         match find (fun e => fst e =? fst (pixel_source g v i)) rs with
         | Some e => zat (s_px (snd e)) (snd (pixel_source g v i))
         | None => 0
         end)
      (zseq (g_w g * g_h g)).

(** The block delivered for position [p] made of the records [rs]. *)
Definition frame_block (g : geom) (v p : Z) (rs : list (Z * srec)) : block :=
  let dims := match rs with e :: _ => (s_sw (snd e), s_sh (snd e)) | [] => (0, 0) end in
  let scan := match rs with e :: _ => s_scan (snd e) | [] => 0 end in
  mkBlock (mkHeader dims (g_w g, g_h g) 1 v 0 0 scan [p] [])
          (Some (assembled g v rs)).

(** A sector file: sector number (from its name) and records. *)
Notation sfile := (Z * list srec)%type.
Definition encode_sfile (f : sfile) : Z * list Z := (fst f, flat_map encode_srec (snd f)).

Definition all_records (fs : list sfile) : list (Z * srec) :=
  flat_map (fun f => map (pair (fst f)) (snd f)) fs.

Definition records_at (p : Z) (l : list (Z * srec)) : list (Z * srec) :=
  filter (fun e => s_pos (snd e) =? p) l.

(** Files of sectors 0 to 3 in which a scan position appears at most once per
    sector. *)
Definition wf_sfiles (g : geom) (fs : list sfile) : Prop :=
  (forall e, In e (all_records fs) -> wf_srec g (snd e) /\ 0 <= fst e < 4) /\
  NoDup (map (fun e => (s_pos (snd e), fst e)) (all_records fs)).

(** Records of the same position agree on the scan they belong to. *)
Definition same_scan (fs : list sfile) : Prop :=
  forall a b, In a (all_records fs) -> In b (all_records fs) ->
    s_pos (snd a) = s_pos (snd b) ->
    s_scan (snd a) = s_scan (snd b) /\ s_sw (snd a) = s_sw (snd b) /\
    s_sh (snd a) = s_sh (snd b).
