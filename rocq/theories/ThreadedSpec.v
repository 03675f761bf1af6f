(** Specification for the threaded sector reader: frames are identified by
    their frame number. *)
From Coq Require Import ZArith List.
From Verif Require Import Base BlockModel StreamSpec SectorModel SectorSpec.
Import ListNotations.
Open Scope Z_scope.

Definition records_of (n : Z) (l : list (Z * srec)) : list (Z * srec) :=
  filter (fun e => s_frame (snd e) =? n) l.

(** Files of sectors 0 to 3 in which a frame appears at most once per sector. *)
Definition wf_tfiles (g : geom) (fs : list sfile) : Prop :=
  (forall e, In e (all_records fs) -> wf_srec g (snd e) /\ 0 <= fst e < 4) /\
  NoDup (map (fun e => (s_frame (snd e), fst e)) (all_records fs)).

(** Records of the same frame agree on where it belongs. *)
Definition same_frame (fs : list sfile) : Prop :=
  forall a b, In a (all_records fs) -> In b (all_records fs) ->
    s_frame (snd a) = s_frame (snd b) ->
    s_scan (snd a) = s_scan (snd b) /\ s_sw (snd a) = s_sw (snd b) /\
    s_sh (snd a) = s_sh (snd b) /\ s_pos (snd a) = s_pos (snd b).

(** The block of frame [n] made of the records [rs]. *)
Definition numbered_block (g : geom) (v n : Z) (rs : list (Z * srec)) : block :=
  match rs with
  | [] => empty_block
  | (_, r) :: _ =>
      mkBlock (mkHeader (s_sw r, s_sh r) (g_w g, g_h g) 1 v 0 n (s_scan r) [s_pos r] [])
              (Some (assembled g v rs))
  end.

(** Number of sectors of frame [n]. *)
Definition nsec (n : Z) (l : list (Z * srec)) : Z := Zlen (records_of n l).
