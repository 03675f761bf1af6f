(** Specification for counting straight from recorded files. *)
From Coq Require Import ZArith List Bool.
From Verif Require Import Base BlockModel SectorModel SectorSpec MultipassSpec.
Import ListNotations.
Open Scope Z_scope.

(** [bs] has exactly one block for every recorded frame of every position. *)
Definition scan_blocks (g : geom) (r0 : srec) (fs : list sfile) (bs : list block) : Prop :=
  exists ks, NoDup ks /\ (forall k, In k ks <-> has_frame fs (fst k) (snd k)) /\
    bs = map (fun k => multi_block g r0 fs (fst k) (snd k)) ks.

(** The camera recorded at most one frame at every position. *)
Definition one_frame_per_position (fs : list sfile) : Prop :=
  forall p fn fn', has_frame fs p fn -> has_frame fs p fn' -> fn = fn'.

(** There are [n] different frames with all four sectors. *)
Definition has_complete_frames (fs : list sfile) (n : Z) : Prop :=
  exists ks, NoDup ks /\ Zlen ks = n /\
    forall k, In k ks -> Zlen (frame_records fs (fst k) (snd k)) = 4.

(** The number of positions: of the scan size the user asked for, or else of
    the one in the files. *)
Definition scan_size (scan_opt : Z * Z) (r0 : srec) : Z :=
  if (fst scan_opt =? 0) || (snd scan_opt =? 0) then s_sw r0 * s_sh r0
  else fst scan_opt * snd scan_opt.

(** ... and its two sides. *)
Definition scan_used (scan_opt : Z * Z) (r0 : srec) : Z * Z :=
  if (fst scan_opt =? 0) || (snd scan_opt =? 0) then (s_sw r0, s_sh r0) else scan_opt.

(** [fns] are the numbers of the frames recorded at position [p]. *)
Definition recorded_at (fs : list sfile) (p : Z) (fns : list Z) : Prop :=
  NoDup fns /\ forall fn, In fn fns <-> has_frame fs p fn.
