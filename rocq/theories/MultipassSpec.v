(** Specification for the multi-pass sector reader. *)
From Coq Require Import ZArith List Sorted.
From Verif Require Import Base BlockModel StreamSpec SectorModel SectorSpec MultipassModel.
Import ListNotations.
Open Scope Z_scope.

(** Size in bytes of one record: 16 of header and the pixels of a quarter of
    the frame. *)
Definition record_bytes (g : geom) : Z := 16 + 2 * (g_w g * g_h g / 4).

(** Record number [k] of file [i], with the sector of that file. *)
Definition record_at (fs : list sfile) (i k : nat) : option (Z * srec) :=
  match nth_error fs i with
  | Some f => match nth_error (snd f) k with Some r => Some (fst f, r) | None => None end
  | None => None
  end.

(** The data of sector [sec] of frame [fn] at position [p] is in file [i] at
    offset [off]. *)
Definition located (g : geom) (fs : list sfile) (p fn sec : Z) (i : nat) (off : Z) : Prop :=
  exists k r, record_at fs i k = Some (sec, r) /\ s_pos r = p /\ s_frame r = fn /\
    off = Z.of_nat k * record_bytes g + 16.

(** Files of a scan of [n] positions: records in the format, sectors 0 to 3, positions
    in the scan, and each (position, frame, sector) at most once. *)
Definition wf_mfiles (g : geom) (n : Z) (fs : list sfile) : Prop :=
  (forall e, In e (all_records fs) -> wf_srec g (snd e) /\ 0 <= fst e < 4 /\ s_pos (snd e) < n) /\
  NoDup (map (fun e => (s_pos (snd e), s_frame (snd e), fst e)) (all_records fs)).

(** The first record of the first file says how large the scan is. *)
Definition starts_with (fs : list sfile) (r0 : srec) : Prop :=
  exists sec recs t, fs = (sec, r0 :: recs) :: t.

(** The records of frame [fn] at position [p]. *)
Definition frame_records (fs : list sfile) (p fn : Z) : list (Z * srec) :=
  filter (fun e => (s_pos (snd e) =? p) && (s_frame (snd e) =? fn))%bool (all_records fs).

(** The files have a sector of frame [fn] at position [p]. *)
Definition has_frame (fs : list sfile) (p fn : Z) : Prop := frame_records fs p fn <> [].

(** The block for it. *)
Definition multi_block (g : geom) (r0 : srec) (fs : list sfile) (p fn : Z) : block :=
  let rs := frame_records fs p fn in
  mkBlock (mkHeader (s_sw r0, s_sh r0) (g_w g, g_h g) 1 5 0 fn (s_scan r0) [p] [Zlen rs =? 4])
          (Some (assembled g 5 rs)).

(** The place of a sector's data according to a scan map: file and offset. *)
Definition lookup (m : scanmap) (p fn sec : Z) : option (nat * Z) :=
  match nth_error m (Z.to_nat p) with
  | Some fms =>
      match find (fun e => fst e =? fn) fms with
      | Some e => match nth_error (snd e) (Z.to_nat sec) with
                  | Some (Some l) => Some (l_stream l, l_offset l)
                  | _ => None
                  end
      | None => None
      end
  | None => None
  end.

(** The calls a user can make on a reader, in any order; every call runs its
    workers to their end under some schedule. *)
Inductive mcall (g : geom) : mreader -> mreader -> Prop :=
| call_read_all cs1 cs2 r bs f r' : mp_read_all g cs1 cs2 r = Some (Ok (bs, f, r')) -> mcall g r r'
| call_load cs img idxs r res r' : 0 <= img -> Forall (fun i => 0 <= i) idxs ->
    load_frames g cs img idxs r = Some (res, r') -> mcall g r r'
| call_frames cs r n r' : num_frames_per_scan g cs r = Some (Ok (n, r')) -> mcall g r r'
| call_dims r d r' : scan_dimensions r = Ok (d, r') -> mcall g r r'.

Inductive mcalls (g : geom) : mreader -> mreader -> Prop :=
| calls_none r : mcalls g r r
| calls_more r r1 r2 : mcalls g r r1 -> mcall g r1 r2 -> mcalls g r r2.

(** [ks] are the frame numbers recorded at position [p], in increasing order. *)
Definition frame_numbers (fs : list sfile) (p : Z) (ks : list Z) : Prop :=
  StronglySorted Z.lt ks /\ forall fn, In fn ks <-> has_frame fs p fn.

(** A recorded scan and the number of workers that read it. *)
Definition good_scan (g : geom) (fs : list sfile) (r0 : srec) (workers : Z) : Prop :=
  wf_geom g /\ starts_with fs r0 /\ wf_mfiles g (s_sw r0 * s_sh r0) fs /\
  Zlen fs < 2 ^ 31 /\ 0 < workers <= 2 ^ 16.
