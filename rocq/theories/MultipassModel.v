(** Model of SectorStreamMultiPassThreadedReader (stempy/reader.h:482-835 and
    stempy/reader.cpp:833-894): a first pass over the headers builds a map of
    where the sectors are, a second pass assembles the frames of each scan
    position.

    As in ThreadedModel.v a step of a worker is one access to shared state (an
    atomic operation, a critical section, or an access that no mutex protects,
    for which the model checks that no other worker is about to make a
    conflicting one).  Built without MPI. *)
From Coq Require Import String ZArith List Bool.
From Verif Require Import Base BlockModel StreamModel SectorModel ThreadedModel.
Import ListNotations.
Open Scope Z_scope.

(** SectorStream, reader.h:227-235: the sector, the contents of the file, the
    position in it and the failbit of the stream.  The eofbit is not modelled:
    seekg() clears it. *)
Record mstream := mkMS { ms_sector : Z; ms_content : bytes; ms_pos : Z; ms_fail : bool }.

Definition ms_rest (st : mstream) : bytes := skipn (Z.to_nat (ms_pos st)) (ms_content st).
Definition ms_seek (p : Z) (st : mstream) : mstream :=
  mkMS (ms_sector st) (ms_content st) (if ms_fail st then ms_pos st else p) (ms_fail st).

(** SectorLocation, reader.h:484-495; [None] in the map stands for a null
    sectorStream. *)
Record loc := mkLoc { l_sector : Z; l_stream : nat; l_offset : Z }.

(** std::array<SectorLocation, 4>; ScanMap, reader.h:500. *)
Notation fmap := (list (option loc)).
Notation scanmap := (list (list (Z * list (option loc)))).
Definition no_locs : fmap := repeat None 4.

(** ** First pass *)

(** Where a worker is in readHeaders, reader.cpp:857-894. *)
Inductive hworker :=
| HCheck                       (* while (m_processed < ...), :859 *)
| HClaim                       (* m_processed++, :860-865 *)
| HPeek (n : nat)              (* peek and readHeader, :871-873 *)
| HInsert (n : nat) (h : shdr) (* frameMaps[frameNumber] under the mutex, :877-884 *)
| HLoc (n : nat) (h : shdr)    (* store the location, skip the data, :885-892 *)
| HDone.

Record hstate := mkHS {
  hs_streams : list mstream; hs_processed : Z; hs_map : scanmap; hs_workers : list hworker
}.

Definition h_file (w : hworker) : option nat :=
  match w with HPeek n | HInsert n _ | HLoc n _ => Some n | _ => None end.
Definition at_file (n : nat) (w : hworker) : bool :=
  match h_file w with Some m => Nat.eqb m n | None => false end.
(** Another worker about to store the same location. *)
Definition same_slot (ss : list mstream) (sector : Z) (h : shdr) (w : hworker) : bool :=
  match w with
  | HLoc n' h' => match nth_error ss n' with
                  | Some st => (ms_sector st =? sector) && (sh_pos h' =? sh_pos h) &&
                               (sh_frame h' =? sh_frame h)
                  | None => false
                  end
  | _ => false
  end.

Definition set_hworker (s : hstate) (i : nat) (w : hworker) : hstate :=
  mkHS (hs_streams s) (hs_processed s) (hs_map s) (upd (hs_workers s) i w).

Definition lift {A} (o : outcome A) : option (outcome A) := Some o.

(** One step of worker [i]; [lim] is m_streamsOffset + m_streamsSize. *)
Definition hstep (g : geom) (lim : Z) (i : nat) (s : hstate) : option (outcome hstate) :=
  match nth_error (hs_workers s) i with
  | None => None
  | Some HDone => None
  | Some HCheck =>
      Some (Ok (set_hworker s i (if hs_processed s <? lim then HClaim else HDone)))
  | Some HClaim =>
      let n := hs_processed s in
      Some (Ok (set_hworker (mkHS (hs_streams s) (u32 (n + 1)) (hs_map s) (hs_workers s)) i
                            (if lim <=? n then HDone else HPeek (Z.to_nat n))))
  | Some (HPeek n) =>
      match nth_error (hs_streams s) n with
      | None => Some (UB "no such stream")
      | Some st =>
          if existsb (at_file n) (others i (hs_workers s)) then Some (UB "two threads use a stream")
          else
            match ms_rest st with
            | [] => Some (Ok (set_hworker s i HCheck))
            | _ => lift (let* (h, _) := sector_header (ms_rest st) in
                         Ok (set_hworker (mkHS (upd (hs_streams s) n (ms_seek (ms_pos st + 16) st))
                                               (hs_processed s) (hs_map s) (hs_workers s))
                                         i (HInsert n h)))
            end
      end
  | Some (HInsert n h) =>
      match nth_error (hs_map s) (Z.to_nat (sh_pos h)) with
      | None => Some (UB "position outside the scan map")
      | Some m =>
          let m' := match map_get (sh_frame h) m with
                    | Some _ => m
                    | None => map_put (sh_frame h) no_locs m
                    end in
          Some (Ok (set_hworker (mkHS (hs_streams s) (hs_processed s)
                                      (upd (hs_map s) (Z.to_nat (sh_pos h)) m') (hs_workers s))
                                i (HLoc n h)))
      end
  | Some (HLoc n h) =>
      match nth_error (hs_streams s) n, nth_error (hs_map s) (Z.to_nat (sh_pos h)) with
      | Some st, Some m =>
          if existsb (same_slot (hs_streams s) (ms_sector st) h) (others i (hs_workers s))
          then Some (UB "two threads store one location")
          else
            match map_get (sh_frame h) m with
            | None => Some (UB "no such frame")
            | Some fm =>
                lift (let* fm' := wr fm (ms_sector st) (Some (mkLoc (ms_sector st) n (ms_pos st))) in
                      Ok (set_hworker
                            (mkHS (upd (hs_streams s) n
                                       (ms_seek (ms_pos st + sector_size g 5 * 2) st))
                                  (hs_processed s)
                                  (upd (hs_map s) (Z.to_nat (sh_pos h))
                                       (map_put (sh_frame h) fm' m))
                                  (hs_workers s))
                            i (HPeek n)))
            end
      | _, _ => Some (UB "no such stream")
      end
  end.

(** An execution of the first pass: the workers that move, in order. *)
Fixpoint hrun (g : geom) (lim : Z) (cs : list nat) (s : hstate) : option (outcome hstate) :=
  match cs with
  | [] => Some (Ok s)
  | c :: r => match hstep g lim c s with
              | Some (Ok s') => hrun g lim r s'
              | o => o
              end
  end.

Definition h_is_done (w : hworker) : bool := match w with HDone => true | _ => false end.
Definition hfinished (s : hstate) : bool := forallb h_is_done (hs_workers s).

(** ** Frame assembly *)

(** The critical section of processFrame, reader.h:633-638: seekg and
    readSectorData.  On a stream whose failbit is set both do nothing; a read
    that hits the end of the file sets it. *)
Definition read_at (g : geom) (v sector off : Z) (st : mstream) (d : list Z)
  : outcome (list Z * mstream) :=
  if ms_fail st then Ok (d, st)
  else
    let rem := skipn (Z.to_nat off) (ms_content st) in
    let* (d', rem') := read_sector_data g v sector rem d in
    Ok (d', mkMS (ms_sector st) (ms_content st) (Zlen (ms_content st) - Zlen rem')
                 (Zlen rem <? sector_size g v * 2)).

(** Sector [j] of the loop at reader.h:630-641: the frame's pixels, the number
    of sectors so far and the streams. *)
Definition read_slot (g : geom) (v : Z) (fm : fmap) (j : Z) (acc : list Z * Z * list mstream)
  : outcome (list Z * Z * list mstream) :=
  let '(d, cnt, ss) := acc in
  let* l := rd fm j in
  match l with
  | None => Ok acc
  | Some lo =>
      match nth_error ss (l_stream lo) with
      | None => UB "no such stream"
      | Some st =>
          let* (d', st') := read_at g v j (l_offset lo) st d in
          Ok (d', cnt + 1, upd ss (l_stream lo) st')
      end
  end.

(** What processFrame hands to the functor, reader.h:610-628, 644-648. *)
Definition mp_block (g : geom) (v : Z) (dims : Z * Z) (scan img fn : Z) (d : list Z) (cnt : Z) : block :=
  mkBlock (mkHeader dims (g_w g, g_h g) 1 v 0 fn scan [img] [cnt =? 4]) (Some d).

Definition blank (g : geom) : list Z := repeat 0 (Z.to_nat (u32 (g_w g * g_h g))).

(** processFrame, reader.h:605-649, run by one thread alone. *)
Definition process_frame (g : geom) (v : Z) (dims : Z * Z) (scan img fn : Z) (fm : fmap)
  (ss : list mstream) : outcome (block * list mstream) :=
  let* (dc, ss') := for_loop 4 (read_slot g v fm) (blank g, 0, ss) in
  Ok (mp_block g v dims scan img fn (fst dc) (snd dc), ss').

(** ** Second pass *)

(** Where a worker is in processFrames, reader.h:653-682.  The frame numbers of
    a position are the keys of a std::map, so they are in increasing order and
    the std::sort at :671 changes nothing. *)
Inductive pworker :=
| PCheck                                   (* while (m_processed < ...), :655 *)
| PClaim                                   (* m_processed++, :656-664 *)
| PFrame (img : Z) (fns : list Z)          (* next frame of the position, :674 *)
| PSector (img : Z) (fns : list Z) (fn j : Z) (d : list Z) (cnt : Z) (* reader.h:630-641 *)
| PCall (img : Z) (fns : list Z) (b : block)                        (* func(b), :648 *)
| PDone.

(** [ps_claimed] records the positions that were claimed; the code has no such
    variable. *)
Record pstate := mkPS {
  ps_streams : list mstream; ps_processed : Z; ps_claimed : list Z;
  ps_workers : list pworker; ps_out : list block
}.

(** What does not change during the second pass. *)
Record penv := mkPE { pe_map : scanmap; pe_dims : Z * Z; pe_scan : Z; pe_lim : Z }.

Definition set_pworker (s : pstate) (i : nat) (w : pworker) : pstate :=
  mkPS (ps_streams s) (ps_processed s) (ps_claimed s) (upd (ps_workers s) i w) (ps_out s).

Definition pstep (g : geom) (e : penv) (i : nat) (s : pstate) : option (outcome pstate) :=
  match nth_error (ps_workers s) i with
  | None => None
  | Some PDone => None
  | Some PCheck =>
      Some (Ok (set_pworker s i (if ps_processed s <? pe_lim e then PClaim else PDone)))
  | Some PClaim =>
      let n := ps_processed s in
      if pe_lim e <=? n
      then Some (Ok (set_pworker (mkPS (ps_streams s) (u32 (n + 1)) (ps_claimed s) (ps_workers s)
                                       (ps_out s)) i PDone))
      else match nth_error (pe_map e) (Z.to_nat n) with
           | None => Some (UB "position outside the scan map")
           | Some m => Some (Ok (set_pworker (mkPS (ps_streams s) (u32 (n + 1)) (ps_claimed s ++ [n])
                                                   (ps_workers s) (ps_out s))
                                             i (PFrame n (map fst m))))
           end
  | Some (PFrame img []) => Some (Ok (set_pworker s i PCheck))
  | Some (PFrame img (fn :: r)) => Some (Ok (set_pworker s i (PSector img r fn 0 (blank g) 0)))
  | Some (PSector img fns fn j d cnt) =>
      if j <? 4 then
        match nth_error (pe_map e) (Z.to_nat img) with
        | None => Some (UB "position outside the scan map")
        | Some m =>
            match map_get fn m with
            | None => Some (UB "no such frame")
            | Some fm =>
                lift (let* (dc, ss') := read_slot g 5 fm j (d, cnt, ps_streams s) in
                      Ok (set_pworker (mkPS ss' (ps_processed s) (ps_claimed s) (ps_workers s) (ps_out s))
                                      i (PSector img fns fn (j + 1) (fst dc) (snd dc))))
            end
        end
      else Some (Ok (set_pworker s i (PCall img fns (mp_block g 5 (pe_dims e) (pe_scan e) img fn d cnt))))
  | Some (PCall img fns b) =>
      Some (Ok (set_pworker (mkPS (ps_streams s) (ps_processed s) (ps_claimed s) (ps_workers s)
                                  (ps_out s ++ [b])) i (PFrame img fns)))
  end.

Fixpoint prun (g : geom) (e : penv) (cs : list nat) (s : pstate) : option (outcome pstate) :=
  match cs with
  | [] => Some (Ok s)
  | c :: r => match pstep g e c s with
              | Some (Ok s') => prun g e r s'
              | o => o
              end
  end.

Definition p_is_done (w : pworker) : bool := match w with PDone => true | _ => false end.
Definition pfinished (s : pstate) : bool := forallb p_is_done (ps_workers s).

(** ** The reader *)

(** Members, reader.h:559-573 (without the mutexes); the last one is m_futures
    of the base class, as in ThreadedModel.v. *)
Record mreader := mkMR {
  mr_streams : list mstream;
  mr_map : scanmap;
  mr_scan : Z;
  mr_offset : Z; mr_size : Z;       (* m_scanMapOffset, m_scanMapSize *)
  mr_soffset : Z; mr_ssize : Z;     (* m_streamsOffset, m_streamsSize *)
  mr_nframes : Z;                   (* m_numFramesPerScan *)
  mr_dims : Z * Z;
  mr_processed : Z;
  mr_threads : nat;
  mr_futures : list bool
}.

(** Constructor, reader.cpp:833-853, with the base class constructors
    (reader.cpp:291-316, 769-796); every file can be opened. *)
Definition multi_reader (files : list (Z * bytes)) (threads hardware : Z) : outcome mreader :=
  match files with
  | [] => Throw "No files provided to SectorStreamReader!"
  | _ => Ok (mkMR (map (fun f => mkMS (fst f) (snd f) 0 false) files) [] 0 0 0 0
                  (u32 (Zlen files)) 0 (0, 0) 0 (Z.to_nat (init_threads threads hardware)) [])
  end.

(** readFirstHeader, reader.h:691-707. *)
Definition read_first_header (r : mreader) : outcome mreader :=
  if negb (mr_size r =? 0) then Ok r
  else
    match mr_streams r with
    | [] => UB "m_streams[0]"
    | st :: t =>
        let* (h, _) := sector_header (ms_rest st) in
        Ok (mkMR (ms_seek 0 st :: t) (mr_map r) (sh_scan h) (mr_offset r)
                 (u32 (fst (sh_dims h) * snd (sh_dims h))) (mr_soffset r) (mr_ssize r)
                 (mr_nframes r) (sh_dims h) (mr_processed r) (mr_threads r) (mr_futures r))
    end.

(** scanDimensions, reader.h:533-537. *)
Definition scan_dimensions (r : mreader) : outcome ((Z * Z) * mreader) :=
  let* r := read_first_header r in Ok (mr_dims r, r).

(** initializeScanMap, reader.h:709-756.  [cs] is the schedule of the workers;
    [None] if it does not run them to their end. *)
Definition initialize_scan_map (g : geom) (cs : list nat) (r : mreader) : option (outcome mreader) :=
  match read_first_header r with
  | Ok r =>
      match mr_map r with
      | _ :: _ => Some (Ok r)
      | [] =>
          match hrun g (u32 (mr_soffset r + mr_ssize r)) cs
                     (mkHS (mr_streams r) (mr_soffset r) (repeat [] (Z.to_nat (mr_size r)))
                           (repeat HCheck (mr_threads r))) with
          | Some (Ok s) =>
              if hfinished s then
                lift (let* _ := get_all (mr_futures r ++ repeat true (mr_threads r)) in
                      Ok (mkMR (map (ms_seek 0) (hs_streams s)) (hs_map s) (mr_scan r)
                               (mr_offset r) (mr_size r) (mr_soffset r) (mr_ssize r)
                               (mr_nframes r) (mr_dims r) (mr_offset r) (mr_threads r) []))
              else None
          | Some (Throw m) => Some (Throw m)
          | Some (UB m) => Some (UB m)
          | Some OutOfFuel => Some OutOfFuel
          | None => None
          end
      end
  | Throw m => Some (Throw m)
  | UB m => Some (UB m)
  | OutOfFuel => Some OutOfFuel
  end.

(** The rest of readAll and waiting for the returned future, reader.h:818-834:
    what was delivered, how the wait ends, and the reader afterwards. *)
Definition second_pass (g : geom) (cs : list nat) (r : mreader)
  : option (outcome (list block * outcome (list bool) * mreader)) :=
  match prun g (mkPE (mr_map r) (mr_dims r) (mr_scan r) (u32 (mr_offset r + mr_size r))) cs
             (mkPS (mr_streams r) (mr_processed r) [] (repeat PCheck (mr_threads r)) []) with
  | Some (Ok s) =>
      if pfinished s then
        let fs := mr_futures r ++ repeat true (mr_threads r) in
        Some (Ok (ps_out s, get_all fs,
                  mkMR (ps_streams s) (mr_map r) (mr_scan r) (mr_offset r) (mr_size r)
                       (mr_soffset r) (mr_ssize r) (mr_nframes r) (mr_dims r)
                       (ps_processed s) (mr_threads r) (map (fun _ => false) fs)))
      else None
  | Some (Throw m) => Some (Throw m)
  | Some (UB m) => Some (UB m)
  | Some OutOfFuel => Some OutOfFuel
  | None => None
  end.

(** readAll, reader.h:814-834. *)
Definition mp_read_all (g : geom) (cs1 cs2 : list nat) (r : mreader)
  : option (outcome (list block * outcome (list bool) * mreader)) :=
  match initialize_scan_map g cs1 r with
  | Some (Ok r) => second_pass g cs2 r
  | Some (Throw m) => Some (Throw m)
  | Some (UB m) => Some (UB m)
  | Some OutOfFuel => Some OutOfFuel
  | None => None
  end.

(** The loop of readFrames with the functor of loadFrames, reader.h:784-812. *)
Fixpoint load_loop (g : geom) (r : mreader) (img : Z) (m : list (Z * fmap)) (idxs : list Z)
  (ss : list mstream) : outcome (list block) * list mstream :=
  match idxs with
  | [] => (Ok [], ss)
  | idx :: rest =>
      if Zlen m <=? idx then (Throw "Frame index is out of bounds!", ss)
      else
        match nth_error m (Z.to_nat idx) with
        | None => (UB "frameNumbers[idx]", ss)
        | Some (fn, fm) =>
            match process_frame g 5 (mr_dims r) (mr_scan r) img fn fm ss with
            | Ok (b, ss1) =>
                let '(res, ss2) := load_loop g r img m rest ss1 in
                ((let* bs := res in Ok (b :: bs)), ss2)
            | Throw e => (Throw e, ss)
            | UB e => (UB e, ss)
            | OutOfFuel => (OutOfFuel, ss)
            end
        end
  end.

(** loadFrames, reader.h:758-812. *)
Definition load_frames (g : geom) (cs : list nat) (img : Z) (idxs : list Z) (r : mreader)
  : option (outcome (list block) * mreader) :=
  match initialize_scan_map g cs r with
  | Some (Ok r) =>
      if Zlen (mr_map r) <=? img then Some (Throw "Image number is out of bounds!", r)
      else
        match nth_error (mr_map r) (Z.to_nat img) with
        | None => Some (UB "m_scanMap[imageNumber]", r)
        | Some m =>
            let '(res, ss) := load_loop g r img m idxs (mr_streams r) in
            Some (res, mkMR ss (mr_map r) (mr_scan r) (mr_offset r) (mr_size r) (mr_soffset r)
                            (mr_ssize r) (mr_nframes r) (mr_dims r) (mr_processed r)
                            (mr_threads r) (mr_futures r))
        end
  | Some (Throw m) => Some (Throw m, r)
  | Some (UB m) => Some (UB m, r)
  | Some OutOfFuel => Some (OutOfFuel, r)
  | None => None
  end.

(** numFramesPerScan, reader.h:539-557. *)
Definition max_frames (m : scanmap) : Z :=
  fold_left (fun acc x => if acc <? Zlen x then u32 (Zlen x) else acc) m 0.

Definition num_frames_per_scan (g : geom) (cs : list nat) (r : mreader) : option (outcome (Z * mreader)) :=
  if negb (mr_nframes r =? 0) then Some (Ok (mr_nframes r, r))
  else
    match initialize_scan_map g cs r with
    | Some (Ok r) =>
        let n := max_frames (mr_map r) in
        Some (Ok (n, mkMR (mr_streams r) (mr_map r) (mr_scan r) (mr_offset r) (mr_size r)
                          (mr_soffset r) (mr_ssize r) n (mr_dims r) (mr_processed r)
                          (mr_threads r) (mr_futures r)))
    | Some (Throw m) => Some (Throw m)
    | Some (UB m) => Some (UB m)
    | Some OutOfFuel => Some OutOfFuel
    | None => None
    end.
