(** Specification for the MPI build. *)
From Coq Require Import ZArith List.
From Verif Require Import Base BlockModel SectorModel SectorSpec ThreadedModel MultipassModel
  MultipassSpec MpiModel.
Import ListNotations.
Open Scope Z_scope.

(** The half-open range of items (files, scan positions) given to a rank. *)
Definition belongs (n world rank i : Z) : Prop :=
  let (o, s) := share n world rank in o <= i < o + s.

(** A recorded scan read by as many ranks as [ws] has entries, rank [i] with
    the [i]-th number of worker threads, small enough for the maps to be
    exchanged with int displacements. *)
Definition good_world (g : geom) (fs : list sfile) (r0 : srec) (ws : list Z) : Prop :=
  ws <> [] /\ (forall w, In w ws -> good_scan g fs r0 w) /\
  8 * Zlen ws + 72 * Zlen (all_records fs) < 2 ^ 31.

(** Every rank has opened the files; [ts] are the number of threads asked for
    and the number of hardware threads on each rank. *)
Definition open_world (fs : list sfile) (ts : list (Z * Z)) (rs : list mreader) : Prop :=
  List.length rs = List.length ts /\
  forall i t, nth_error ts i = Some t -> exists r, nth_error rs i = Some r /\
    mpi_reader (map encode_sfile fs) (fst t) (snd t) (Zlen ts) (Z.of_nat i) = Ok r.

Definition workers_of (ts : list (Z * Z)) : list Z := map (fun t => init_threads (fst t) (snd t)) ts.

(** ** Blocks *)

(** A block whose header and data fit their types, with all the pixels its
    header announces. *)
Definition wf_wire (b : block) (d : list Z) : Prop :=
  let h := hdr b in
  data b = Some d /\
  is_u32 (fst (scan_dims h)) /\ is_u32 (snd (scan_dims h)) /\
  is_u32 (fst (frame_dims h)) /\ is_u32 (snd (frame_dims h)) /\
  is_u32 (images_in_block h) /\ is_u32 (frame_number h) /\
  Forall is_u32 (image_numbers h) /\ Zlen (image_numbers h) < 2 ^ 64 /\
  Zlen d = fst (frame_dims h) * snd (frame_dims h) * images_in_block h /\ Forall is_u16 d.

(** What arrives. *)
Definition received (b : block) : block :=
  let h := hdr b in
  mkBlock (mkHeader (scan_dims h) (frame_dims h) (images_in_block h) 0 0 (frame_number h) 0
                    (image_numbers h) []) (data b).

(** Bytes a block takes on the wire. *)
Definition wire_size (b : block) : Z :=
  let h := hdr b in
  32 + 4 * Zlen (image_numbers h) +
  2 * (fst (frame_dims h) * snd (frame_dims h) * images_in_block h).

(** ** Events *)

(** An upper bound for the bytes the events of a rank take on the wire. *)
Definition event_bytes (ev : list (list (list Z))) : Z :=
  8 + zsum (map (fun frames => 12 + zsum (map (fun l => 8 + 4 * Zlen l) frames)) ev).

(** Electron events of one rank: [n] scan positions, values of 32 bits. *)
Definition wf_events (n : nat) (ev : list (list (list Z))) : Prop :=
  List.length ev = n /\ Z.of_nat n < 2 ^ 32 /\ event_bytes ev < 2 ^ 64 /\
  forall frames l, In frames ev -> In l frames -> Forall is_u32 l.

(** The events of all ranks: at every position those of rank 0, then those of
    rank 1, and so on. *)
Definition all_events (n : nat) (evs : list (list (list (list Z)))) : list (list (list Z)) :=
  map (fun p => flat_map (fun ev => nth p ev []) evs) (seq 0 n).
