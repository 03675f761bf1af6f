(** The MPI build of the multi-pass reader and of the electron counter
    (stempy/reader_mpi.cpp, stempy/electron_mpi.cpp, the USE_MPI parts of
    reader.h and electron.cpp).

    What MPI and cereal do is modelled as documented: MPI_Allgather(v) and
    MPI_Gather(v) give the receiver the contributions of all ranks in rank
    order; a point-to-point channel is first in, first out; a cereal binary
    archive is the concatenation of the little-endian values, containers being
    preceded by a 64-bit size, and loading from a stream that is too short
    throws. *)
From Coq Require Import String ZArith List Bool.
From Verif Require Import Base BlockModel StreamModel SectorModel ThreadedModel MultipassModel.
Import ListNotations.
Open Scope Z_scope.

(** ** Shares of the ranks *)

(** initMPI, reader_mpi.cpp:94-115 (files, size_t) and partitionScanMap,
    reader_mpi.cpp:130-142 (scan positions, size_t): offset and size of the
    share of a rank; the results are stored in uint32 members.  The int world
    size and rank are non-negative, so their conversion to size_t is the
    identity. *)
Definition share (n world rank : Z) : Z * Z :=
  let per := n / world in
  let offset := u32 (u64 (rank * per)) in
  let size := if rank =? world - 1 then u32 (u64 (n - offset)) else u32 per in
  (offset, size).

(** getSampleBlocksPerRank, electron_mpi.cpp:200-211 (int).  rank * share is at
    most the total, so the product does not overflow. *)
Definition sample_share (world rank total : Z) : Z :=
  let per := Z.quot total world in
  let offset := rank * per in
  if rank =? world - 1 then total - offset else per.

(** ** cereal binary archives *)

(** saveBinary of an integer of [k] bytes (two's complement, little endian). *)
Fixpoint put (k : nat) (v : Z) : bytes :=
  match k with
  | O => []
  | S m => v mod 256 :: put m (v / 256)
  end.

(** loadBinary of an unsigned integer of [k] bytes. *)
Definition get (k : nat) (l : bytes) : outcome (Z * bytes) :=
  if (List.length l <? k)%nat then Throw "Failed to read bytes from input stream!"
  else Ok (le (firstn k l), skipn k l).

(** ... of a signed one. *)
Definition get_signed (k : nat) (l : bytes) : outcome (Z * bytes) :=
  let* (v, r) := get k l in
  Ok (if v <? 256 ^ Z.of_nat k / 2 then v else v - 256 ^ Z.of_nat k, r).

(** A container: its size as uint64 and its elements. *)
Definition put_list {A} (e : A -> bytes) (l : list A) : bytes :=
  put 8 (Zlen l) ++ flat_map e l.

Fixpoint get_n {A} (d : bytes -> outcome (A * bytes)) (n : nat) (l : bytes)
  : outcome (list A * bytes) :=
  match n with
  | O => Ok ([], l)
  | S m => let* (x, r) := d l in
           let* (xs, r') := get_n d m r in
           Ok (x :: xs, r')
  end.

Definition get_list {A} (d : bytes -> outcome (A * bytes)) (l : bytes)
  : outcome (list A * bytes) :=
  let* (n, r) := get 8 l in get_n d (Z.to_nat n) r.

(** std::map<uint32_t, V>: pairs in key order; loading inserts each pair unless
    its key is already there (emplace_hint). *)
Definition put_pair {V} (e : V -> bytes) (x : Z * V) : bytes := put 4 (fst x) ++ e (snd x).
Definition get_pair {V} (d : bytes -> outcome (V * bytes)) (l : bytes)
  : outcome (Z * V * bytes) :=
  let* (k, r) := get 4 l in
  let* (v, r') := d r in
  Ok ((k, v), r').

Definition emplace {V} (m : list (Z * V)) (x : Z * V) : list (Z * V) :=
  match map_get (fst x) m with Some _ => m | None => map_put (fst x) (snd x) m end.

Definition put_map {V} (e : V -> bytes) (m : list (Z * V)) : bytes := put_list (put_pair e) m.
Definition get_map {V} (d : bytes -> outcome (V * bytes)) (l : bytes)
  : outcome (list (Z * V) * bytes) :=
  let* (xs, r) := get_list (get_pair d) l in
  Ok (fold_left emplace xs [], r).

(** ** Blocks *)

(** Header::serialize, reader_mpi.cpp:62-67. *)
Definition put_header (h : header) : bytes :=
  put 4 (fst (scan_dims h)) ++ put 4 (snd (scan_dims h)) ++
  put 4 (fst (frame_dims h)) ++ put 4 (snd (frame_dims h)) ++
  put 4 (images_in_block h) ++ put 4 (frame_number h) ++
  put_list (put 4) (image_numbers h).

(** The other members keep the values of a default constructed header. *)
Definition get_header (l : bytes) : outcome (header * bytes) :=
  let* (a, l) := get 4 l in
  let* (b, l) := get 4 l in
  let* (c, l) := get 4 l in
  let* (d, l) := get 4 l in
  let* (n, l) := get 4 l in
  let* (f, l) := get 4 l in
  let* (ns, l) := get_list (get 4) l in
  Ok (mkHeader (a, b) (c, d) n 0 0 f 0 ns [], l).

(** Block::save, reader_mpi.cpp:69-76: the size is computed in size_t. *)
Definition save_block (b : block) : outcome bytes :=
  let h := hdr b in
  let n := u64 (u64 (u64 (2 * fst (frame_dims h)) * snd (frame_dims h)) * images_in_block h) in
  if n =? 0 then Ok (put_header h)
  else
    let* d := block_data b in
    if Zlen d * 2 <? n then UB "saveBinary past the end of the data"
    else Ok (put_header h ++ firstn (Z.to_nat n) (flat_map (put 2) d)).

(** Block::load, reader_mpi.cpp:78-86: the size is computed in uint32. *)
Definition load_block (l : bytes) : outcome (block * bytes) :=
  let* (h, l) := get_header l in
  let size := u32 (u32 (fst (frame_dims h) * snd (frame_dims h)) * images_in_block h) in
  let n := Z.to_nat (2 * size) in
  if (List.length l <? n)%nat then Throw "Failed to read bytes from input stream!"
  else Ok (mkBlock h (Some (words (Z.to_nat size) 2 (firstn n l))), skipn n l).

(** serializeBlocks, electron_mpi.cpp:33-37. *)
Fixpoint save_all (bs : list block) : outcome bytes :=
  match bs with
  | [] => Ok []
  | b :: t => let* x := save_block b in let* y := save_all t in Ok (x ++ y)
  end.
Definition save_blocks (bs : list block) : outcome bytes :=
  let* x := save_all bs in Ok (put 8 (Zlen bs) ++ x).

(** ** Scan maps *)

(** SectorLocation::serialize, reader_mpi.cpp:88-92, and std::streampos, :18-32.
    A location that was never set has sector -1, stream -1 and offset 0. *)
Definition put_loc (l : option loc) : bytes :=
  match l with
  | Some l => put 2 (l_sector l) ++ put 4 (Z.of_nat (l_stream l)) ++ put 8 (l_offset l)
  | None => put 2 (-1) ++ put 4 (-1) ++ put 8 0
  end.

(** sector, streamIndex, offset *)
Definition get_loc (l : bytes) : outcome (Z * Z * Z * bytes) :=
  let* (s, l) := get_signed 2 l in
  let* (i, l) := get_signed 4 l in
  let* (o, l) := get_signed 8 l in
  Ok ((s, i, o), l).

(** std::array<SectorLocation, 4>: no size. *)
Definition put_locs (fm : fmap) : bytes := flat_map put_loc fm.
Definition get_locs (l : bytes) : outcome (list (Z * Z * Z) * bytes) := get_n get_loc 4 l.

(** The non-empty entries of a vector of containers with their index:
    reader_mpi.cpp:119-124 and electron_mpi.cpp:76-82.  The index becomes a
    uint32 key (a scan has fewer than 2^32 positions). *)
Fixpoint partial_map {A} (i : Z) (m : list (list A)) : list (Z * list A) :=
  match m with
  | [] => []
  | fr :: t => match fr with
               | [] => partial_map (i + 1) t
               | _ => (i, fr) :: partial_map (i + 1) t
               end
  end.

(** serializeScanMap, reader_mpi.cpp:117-128. *)
Definition serialize_scan_map (m : scanmap) : bytes :=
  put_map (put_map put_locs) (partial_map 0 m).

(** One location of another rank's map, reader_mpi.cpp:197-209. *)
Definition merge_loc (nstreams : Z) (p fn j : Z) (l : Z * Z * Z) (m : scanmap) : outcome scanmap :=
  let '(sector, stream, offset) := l in
  if stream =? -1 then Ok m
  else if (stream <? 0) || (nstreams <=? stream) then UB "m_streams[streamIndex]"
  else
    match nth_error m (Z.to_nat p) with
    | None => UB "m_scanMap[scanPosition]"
    | Some fr =>
        let fm := match map_get fn fr with Some fm => fm | None => no_locs end in
        let* fm' := wr fm j (Some (mkLoc sector (Z.to_nat stream) offset)) in
        Ok (upd m (Z.to_nat p) (map_put fn fm' fr))
    end.

Definition merge_frame (nstreams : Z) (p : Z) (f : Z * list (Z * Z * Z)) (m : scanmap)
  : outcome scanmap :=
  for_loop 4 (fun j m => let* l := rd (snd f) j in merge_loc nstreams p (fst f) j l m) m.

Definition merge_map (nstreams : Z) (pm : list (Z * list (Z * list (Z * Z * Z)))) (m : scanmap)
  : outcome scanmap :=
  for_each pm (fun x m => for_each (snd x) (merge_frame nstreams (fst x)) m) m.

(** int localSize = stream.GetSize(), reader_mpi.cpp:150, electron_mpi.cpp:127. *)
Definition int_size (l : bytes) : Z := i32_of_u32 (u32 (Zlen l)).

(** reader_mpi.cpp:157-163, electron_mpi.cpp:142-148: int displacements. *)
Fixpoint displacements (d : Z) (sizes : list Z) : outcome (list Z) :=
  match sizes with
  | [] => Ok []
  | s :: t => if 2 ^ 31 <=? d + s then UB "signed overflow"
              else let* r := displacements (d + s) t in Ok (d :: r)
  end.

(** MPI_Allgatherv / MPI_Gatherv of the ranks' buffers. *)
Definition gatherv (msgs : list bytes) : outcome bytes :=
  if existsb (fun m => int_size m <? 0) msgs then Throw "MPI_ERR_COUNT" else Ok (concat msgs).

(** gatherScanMap on one rank, reader_mpi.cpp:144-214; [msgs] are the
    serialized maps of all ranks. *)
Definition view_of (recv : bytes) (d s : Z) : bytes :=
  firstn (Z.to_nat s) (skipn (Z.to_nat d) recv).

Fixpoint merge_ranks (nstreams rank i : Z) (recv : bytes) (dss : list (Z * Z)) (m : scanmap)
  : outcome scanmap :=
  match dss with
  | [] => Ok m
  | (d, s) :: t =>
      if i =? rank then merge_ranks nstreams rank (i + 1) recv t m
      else
        let* (pm, _) := get_map (get_map get_locs) (view_of recv d s) in
        let* m := merge_map nstreams pm m in
        merge_ranks nstreams rank (i + 1) recv t m
  end.

Definition gather_scan_map (rank : Z) (msgs : list bytes) (nstreams : Z) (m : scanmap)
  : outcome scanmap :=
  let sizes := map int_size msgs in
  let* ds := displacements 0 sizes in
  let* recv := gatherv msgs in
  merge_ranks nstreams rank 0 recv (combine ds sizes) m.

(** ** The ranks together *)

(** Constructor with initMPI, reader.cpp:833-853: all ranks open the same files
    in the same (sorted) order, reader.cpp:531-538. *)
Definition mpi_reader (files : list (Z * bytes)) (threads hardware world rank : Z)
  : outcome mreader :=
  let* r := multi_reader files threads hardware in
  let '(o, s) := share (Zlen (mr_streams r)) world rank in
  Ok (mkMR (mr_streams r) (mr_map r) (mr_scan r) (mr_offset r) (mr_size r) o s
           (mr_nframes r) (mr_dims r) (mr_processed r) (mr_threads r) (mr_futures r)).

(** The end of initializeScanMap, reader.h:740-755, on one rank. *)
Definition mpi_collect (world rank : Z) (msgs : list bytes) (r : mreader) : outcome mreader :=
  let* m := gather_scan_map rank msgs (Zlen (mr_streams r)) (mr_map r) in
  let '(o, s) := share (Zlen m) world rank in
  Ok (mkMR (mr_streams r) m (mr_scan r) o s (mr_soffset r) (mr_ssize r)
           (mr_nframes r) (mr_dims r) o (mr_threads r) (mr_futures r)).

Fixpoint zip_run {A B C} (f : A -> B -> option (outcome C)) (l : list A) (m : list B)
  : option (outcome (list C)) :=
  match l, m with
  | [], [] => Some (Ok [])
  | a :: l, b :: m =>
      match f a b, zip_run f l m with
      | Some (Ok c), Some (Ok cs) => Some (Ok (c :: cs))
      | None, _ | _, None => None
      | Some (UB e), _ | _, Some (UB e) => Some (UB e)
      | Some (Throw e), _ | _, Some (Throw e) => Some (Throw e)
      | Some OutOfFuel, _ | _, Some OutOfFuel => Some OutOfFuel
      end
  | _, _ => None
  end.

Fixpoint collect_all (world rank : Z) (msgs : list bytes) (rs : list mreader)
  : outcome (list mreader) :=
  match rs with
  | [] => Ok []
  | r :: t => let* r' := mpi_collect world rank msgs r in
              let* t' := collect_all world (rank + 1) msgs t in
              Ok (r' :: t')
  end.

(** initializeScanMap called on every rank; [css] are the schedules of the
    workers of each rank.  Ranks only meet in the collective operations, so
    the part before them is independent.  [None]: some rank does not get to the
    end, in particular when only some of the ranks enter the collectives.
    Simplification: rewinding the streams and clearing the futures, which the
    code does after the collectives, is done before them (they touch neither). *)
Definition mpi_initialize (g : geom) (css : list (list nat)) (rs : list mreader)
  : option (outcome (list mreader)) :=
  match zip_run (initialize_scan_map g) css rs with
  | Some (Ok rs1) =>
      let fresh := map (fun r => match mr_map r with [] => true | _ => false end) rs in
      if forallb negb fresh then Some (Ok rs1)
      else if forallb (fun b => b) fresh then
        Some (collect_all (Zlen rs) 0 (map (fun r => serialize_scan_map (mr_map r)) rs1) rs1)
      else None
  | o => o
  end.

(** readAll on every rank: what each rank delivers. *)
Definition mpi_read_all (g : geom) (css1 css2 : list (list nat)) (rs : list mreader)
  : option (outcome (list (list block * outcome (list bool) * mreader))) :=
  match mpi_initialize g css1 rs with
  | Some (Ok rs1) => zip_run (second_pass g) css2 rs1
  | Some (Throw e) => Some (Throw e)
  | Some (UB e) => Some (UB e)
  | Some OutOfFuel => Some OutOfFuel
  | None => None
  end.

(** numFramesPerScan on every rank, reader.h:539-557.  Ranks that remember the
    number do not enter the collectives. *)
Definition mpi_num_frames (g : geom) (css : list (list nat)) (rs : list mreader)
  : option (outcome (list Z * list mreader)) :=
  if forallb (fun r => negb (mr_nframes r =? 0)) rs then Some (Ok (map mr_nframes rs, rs))
  else if forallb (fun r => mr_nframes r =? 0) rs then
    match mpi_initialize g css rs with
    | Some (Ok rs1) =>
        Some (Ok (map (fun r => max_frames (mr_map r)) rs1,
                  map (fun r => mkMR (mr_streams r) (mr_map r) (mr_scan r) (mr_offset r) (mr_size r)
                                     (mr_soffset r) (mr_ssize r) (max_frames (mr_map r)) (mr_dims r)
                                     (mr_processed r) (mr_threads r) (mr_futures r)) rs1))
    | Some (Throw e) => Some (Throw e)
    | Some (UB e) => Some (UB e)
    | Some OutOfFuel => Some OutOfFuel
    | None => None
    end
  else None.

(** ** gatherBlocks *)

(** Loading std::vector<Block>, electron_mpi.cpp:175-178. *)
Definition load_blocks (l : bytes) : outcome (list block * bytes) := get_list load_block l.

(** electron_mpi.cpp:166-183 on rank 0, for ranks i, i+1, ... *)
Fixpoint append_ranks (i : Z) (recv : bytes) (dss : list (Z * Z)) (bs : list block)
  : outcome (list block) :=
  match dss with
  | [] => Ok bs
  | (d, s) :: t =>
      if i =? 0 then append_ranks (i + 1) recv t bs
      else
        let* (more, _) := load_blocks (view_of recv d s) in
        append_ranks (i + 1) recv t (bs ++ more)
  end.

(** gatherBlocks on rank 0, electron_mpi.cpp:122-184; [all] are the sample
    blocks of all ranks.  totalSize is a size_t sum of ints. *)
Fixpoint save_ranks (all : list (list block)) : outcome (list bytes) :=
  match all with
  | [] => Ok []
  | bs :: t => let* m := save_blocks bs in let* ms := save_ranks t in Ok (m :: ms)
  end.

Definition gather_blocks (all : list (list block)) : outcome (list block) :=
  let* msgs := save_ranks all in
  let sizes := map int_size msgs in
  let* ds := displacements 0 sizes in
  if 2 ^ 31 - 1 <? u64 (zsum sizes) then Throw "Data too large to send using MPI."
  else
    let* recv := gatherv msgs in
    append_ranks 0 recv (combine ds sizes) (hd [] all).

(** ** gatherEvents *)

(** SparseEventMap, electron_mpi.cpp:19. *)
Definition serialize_events (ev : list (list (list Z))) : bytes :=
  put_map (put_list (put_list (put 4))) (partial_map 0 ev).
Definition load_events (l : bytes) : outcome (list (Z * list (list Z)) * bytes) :=
  get_map (get_list (get_list (get 4))) l.

(** electron_mpi.cpp:61-70. *)
Definition merge_events (pm : list (Z * list (list Z))) (ev : list (list (list Z)))
  : outcome (list (list (list Z))) :=
  for_each pm (fun x ev =>
    let* l := rd ev (fst x) in wr ev (fst x) (l ++ snd x)) ev.

(** What rank 0 is doing: [GSize k]: about to receive the size from rank
    [k]; [GData k n]: about to receive the [n] bytes of rank [k]. *)
Inductive groot := GSize (k : nat) | GData (k : nat) (n : Z).

(** [ge_chan]: per sending rank 1, 2, ... the messages sent and not received;
    [ge_todo]: what each of them has still to send. *)
Record gstate := mkGS {
  ge_root : groot; ge_events : list (list (list Z));
  ge_chan : list (list bytes); ge_todo : list (list bytes)
}.

(** sendPartialMap, electron_mpi.cpp:73-98: the size, then the data (one
    message; BigMPI may use several). *)
Definition gsend (ev : list (list (list Z))) : list bytes :=
  let m := serialize_events ev in [put 8 (u64 (Zlen m)); m].

Definition gstart (evs : list (list (list (list Z)))) : gstate :=
  mkGS (GSize 1) (hd [] evs) (map (fun _ => []) (tl evs)) (map gsend (tl evs)).

(** One step of a rank, electron_mpi.cpp:100-120: rank 0 receives, the others
    send.  [sync]: sends are synchronous, that is, a rank cannot go on before
    its previous message has been received; otherwise they are buffered.
    [None]: the rank cannot move. *)
Definition gstep (sync : bool) (rank : nat) (s : gstate) : option (outcome gstate) :=
  match rank with
  | O =>
      match ge_root s with
      | GSize k =>
          match nth_error (ge_chan s) (k - 1) with
          | Some (m :: ms) =>
              match get 8 m with
              | Ok (n, _) => Some (Ok (mkGS (GData k n) (ge_events s) (upd (ge_chan s) (k - 1) ms) (ge_todo s)))
              | _ => Some (Throw "MPI_ERR_TRUNCATE")
              end
          | _ => None
          end
      | GData k n =>
          match nth_error (ge_chan s) (k - 1) with
          | Some (m :: ms) =>
              if n <? Zlen m then Some (Throw "MPI_ERR_TRUNCATE")
              else if Zlen m <? n then Some (UB "rest of the buffer was not received")
              else
                match (let* (pm, _) := load_events m in merge_events pm (ge_events s)) with
                | Ok ev => Some (Ok (mkGS (GSize (S k)) ev (upd (ge_chan s) (k - 1) ms) (ge_todo s)))
                | Throw e => Some (Throw e)
                | UB e => Some (UB e)
                | OutOfFuel => Some OutOfFuel
                end
          | _ => None
          end
      end
  | S k =>
      match nth_error (ge_todo s) k, nth_error (ge_chan s) k with
      | Some (m :: ms), Some c =>
          match sync, c with
          | true, _ :: _ => None
          | _, _ => Some (Ok (mkGS (ge_root s) (ge_events s) (upd (ge_chan s) k (c ++ [m])) (upd (ge_todo s) k ms)))
          end
      | _, _ => None
      end
  end.

Fixpoint grun (sync : bool) (cs : list nat) (s : gstate) : option (outcome gstate) :=
  match cs with
  | [] => Some (Ok s)
  | c :: r => match gstep sync c s with
              | Some (Ok s') => grun sync r s'
              | o => o
              end
  end.

(** Rank 0 has heard from all others. *)
Definition gfinished (s : gstate) : bool :=
  match ge_root s with GSize k => Z.of_nat k =? Zlen (ge_chan s) + 1 | _ => false end.
