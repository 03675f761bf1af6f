(** Model of SectorStreamThreadedReader (stempy/reader.h:316-481 and
    stempy/reader.cpp:784-831): worker threads take files from a shared queue,
    read one sector at a time and assemble frames in a shared cache.

    Every step of [tstep] is one access to shared state: a critical section, an
    atomic operation, or one access to memory that the code leaves unprotected.
    Any sequence of steps of the workers is an execution.  Accesses that could
    race (the pixels of a frame, a frame that was erased) are checked, and are
    [UB] when they do; that the remaining accesses can be taken one at a time
    is sequential consistency of race-free programs.  The unprotected read of
    m_streams is treated separately (see [streams_race]). *)
From Coq Require Import String ZArith List Bool.
From Verif Require Import Base BlockModel StreamModel SectorModel.
Import ListNotations.
Open Scope Z_scope.

(** StreamQueueEntry, reader.h:289-303: the stream (an index into [t_files])
    and the number of reads. *)
Notation tentry := (nat * Z)%type.

(** struct Frame, reader.h:237-242.  [tf_id] stands for the address of the map
    node: a node that was erased and inserted again has another one. *)
Record tframe := mkTF {
  tf_id : Z; tf_block : block; tf_count : Z; tf_locked : bool
}.

(** Where a worker is while it has a frame, reader.h:415-452. *)
Inductive stage :=
| Load              (* first test of frame.block.data, :416 *)
| Lock              (* waiting for frame.mutex, :417 *)
| Alloc             (* second test, with the mutex, :419 *)
| Store             (* header written; storing the data pointer, :427-437 *)
| Fill (k : Z)      (* k pixels of the sector have been read, :441 *)
| Count             (* ++frame.sectorCount, :444 *)
| Collect.          (* last sector: copy the block and erase, :445-448 *)

Inductive tworker :=
| WCheck                                     (* while (!m_streams.empty()), :395 *)
| WNext                                      (* pop from the queue, reader.cpp:800-807 *)
| WPeek (e : tentry)                         (* peek, reader.cpp:809-814 *)
| WErase (e : tentry)                        (* erase from m_streams, reader.cpp:815-825 *)
| WHeader (e : tentry)                       (* readHeader, :406 *)
| WCache (e : tentry) (h : shdr)             (* m_frameCache[frameNumber], :411-413 *)
| WFrame (st : stage) (e : tentry) (h : shdr) (id : Z)
| WPush (e : tentry) (b : option block)      (* return the file to the queue, :458-462 *)
| WCall (b : option block)                   (* func(b), :465-467 *)
| WDone.

(** The reader during readAll. *)
Record tstate := mkTS {
  t_files : list (Z * bytes);     (* per stream: sector, bytes not read yet *)
  t_open : list nat;              (* m_streams *)
  t_queue : list tentry;          (* m_streamQueue *)
  t_cache : list (Z * tframe);    (* m_frameCache *)
  t_fresh : Z;                    (* identity of the next map node *)
  t_workers : list tworker;
  t_out : list block              (* calls of the functor, in order *)
}.

Definition set_worker (s : tstate) (i : nat) (w : tworker) : tstate :=
  mkTS (t_files s) (t_open s) (t_queue s) (t_cache s) (t_fresh s) (upd (t_workers s) i w) (t_out s).
Definition set_file (s : tstate) (n : nat) (f : Z * bytes) : tstate :=
  mkTS (upd (t_files s) n f) (t_open s) (t_queue s) (t_cache s) (t_fresh s) (t_workers s) (t_out s).
Definition set_cache (s : tstate) (c : list (Z * tframe)) : tstate :=
  mkTS (t_files s) (t_open s) (t_queue s) c (t_fresh s) (t_workers s) (t_out s).

(** Using the reference obtained from the cache: the node must still be there. *)
Definition use_frame (s : tstate) (h : shdr) (id : Z) : outcome tframe :=
  match map_get (sh_frame h) (t_cache s) with
  | Some fr => if tf_id fr =? id then Ok fr else UB "frame was erased"
  | None => UB "frame was erased"
  end.

(** A worker about to store a pixel of node [id] at address [a]. *)
Definition filling_at (g : geom) (v : Z) (files : list (Z * bytes)) (id a : Z) (w : tworker) : bool :=
  match w with
  | WFrame (Fill k) e _ id' =>
      match nth_error files (fst e) with
      | Some (sec, _) => (id' =? id) && (k <? sector_size g v) && (sector_address g v sec k =? a)
      | None => false
      end
  | _ => false
  end.
Definition filling (id : Z) (w : tworker) : bool :=
  match w with WFrame (Fill _) _ _ id' => id' =? id | _ => false end.

Definition others {A} (i : nat) (l : list A) : list A := remove_nth i l.

(** reader.h:420-437 without the data pointer: the header of a new frame. *)
Definition fill_header (g : geom) (v : Z) (h : shdr) (old : header) : header :=
  mkHeader (sh_dims h) (g_w g, g_h g) 1 v (timestamp old) (sh_frame h) (sh_scan h)
           (image_numbers old ++ [sh_pos h]) (complete old).

Definition new_tframe (id : Z) : tframe := mkTF id empty_block 0 false.

(** The stages of one sector. *)
Definition frame_step (g : geom) (v : Z) (s : tstate) (i : nat) (st : stage) (e : tentry)
  (h : shdr) (id : Z) : option (outcome tstate) :=
  match use_frame s h id with
  | Throw m => Some (Throw m)
  | UB m => Some (UB m)
  | OutOfFuel => Some OutOfFuel
  | Ok fr =>
    let put fr' := set_cache s (map_put (sh_frame h) fr' (t_cache s)) in
    let go st' s' := Some (Ok (set_worker s' i (WFrame st' e h id))) in
    match st with
    | Load => match data (tf_block fr) with
              | None => go Lock s
              | Some _ => go (Fill 0) s
              end
    | Lock => if tf_locked fr then None
              else go Alloc (put (mkTF id (tf_block fr) (tf_count fr) true))
    | Alloc => match data (tf_block fr) with
               | None => go Store (put (mkTF id (mkBlock (fill_header g v h (hdr (tf_block fr))) None)
                                             (tf_count fr) true))
               | Some _ => go (Fill 0) (put (mkTF id (tf_block fr) (tf_count fr) false))
               end
    | Store => go (Fill 0) (put (mkTF id (mkBlock (hdr (tf_block fr))
                                          (Some (repeat 0 (Z.to_nat (u32 (g_w g * g_h g))))))
                                      (tf_count fr) false))
    | Fill k =>
        match nth_error (t_files s) (fst e) with
        | None => Some (UB "no such stream")
        | Some (sec, rem) =>
          if sector_size g v <=? k then go Count s
          else
            match rem with
            | [] => go Count s              (* the file ends early: no error is raised *)
            | b0 :: t =>
                let a := sector_address g v sec k in
                if existsb (filling_at g v (t_files s) id a) (others i (t_workers s))
                then Some (UB "two threads store the same pixel")
                else
                  match (let* d := block_data (tf_block fr) in
                         let* old := rd d a in
                         wr d a (match t with
                                 | b1 :: _ => b0 + 256 * b1
                                 | [] => b0 + 256 * (old / 256)
                                 end)) with
                  | Ok d' => go (Fill (k + 1))
                                (set_file (put (mkTF id (mkBlock (hdr (tf_block fr)) (Some d'))
                                                     (tf_count fr) (tf_locked fr)))
                                          (fst e) (sec, tl t))
                  | Throw m => Some (Throw m)
                  | UB m => Some (UB m)
                  | OutOfFuel => Some OutOfFuel
                  end
            end
        end
    | Count =>
        let n := tf_count fr + 1 in
        let s' := put (mkTF id (tf_block fr) n (tf_locked fr)) in
        if n =? 4 then go Collect s' else Some (Ok (set_worker s' i (WPush e None)))
    | Collect =>
        if existsb (filling id) (others i (t_workers s))
        then Some (UB "a thread stores pixels of a delivered frame")
        else Some (Ok (set_worker (set_cache s (map_erase (sh_frame h) (t_cache s)))
                                  i (WPush e (Some (tf_block fr)))))
    end
  end.

(** One step of worker [i].  [j] says which of the entries with the fewest reads
    the priority queue returns (reader.h:306-326: the order among equals is not
    specified).  [None]: the worker cannot move (it waits for a mutex or is done),
    or [j] is not such an entry. *)
Definition tstep (g : geom) (v : Z) (c : nat * nat) (s : tstate) : option (outcome tstate) :=
  let '(i, j) := c in
  let go s' w := Some (Ok (set_worker s' i w)) in
  match nth_error (t_workers s) i with
  | None => None
  | Some WCheck => match t_open s with [] => go s WDone | _ => go s WNext end
  | Some WNext =>
      match t_queue s with
      | [] => go s WCheck
      | q => match nth_error q j with
             | None => None
             | Some e =>
                 if existsb (fun e' => snd e' <? snd e) q then None
                 else go (mkTS (t_files s) (t_open s) (remove_nth j q) (t_cache s) (t_fresh s)
                               (t_workers s) (t_out s)) (WPeek e)
             end
      end
  | Some (WPeek e) =>
      match nth_error (t_files s) (fst e) with
      | None => Some (UB "no such stream")
      | Some (_, []) => go s (WErase e)
      | Some (_, _ :: _) => go s (WHeader e)
      end
  | Some (WErase e) =>
      if existsb (Nat.eqb (fst e)) (t_open s)
      then go (mkTS (t_files s) (filter (fun n => negb (Nat.eqb (fst e) n)) (t_open s)) (t_queue s)
                    (t_cache s) (t_fresh s) (t_workers s) (t_out s)) WCheck
      else Some (UB "erase(end())")
  | Some (WHeader e) =>
      match nth_error (t_files s) (fst e) with
      | None => Some (UB "no such stream")
      | Some (sec, rem) =>
          match sector_header rem with
          | Ok (h, rem') => go (set_file s (fst e) (sec, rem')) (WCache e h)
          | Throw m => Some (Throw m)
          | UB m => Some (UB m)
          | OutOfFuel => Some OutOfFuel
          end
      end
  | Some (WCache e h) =>
      match map_get (sh_frame h) (t_cache s) with
      | Some fr => go s (WFrame Load e h (tf_id fr))
      | None =>
          go (mkTS (t_files s) (t_open s) (t_queue s)
                   (map_put (sh_frame h) (new_tframe (t_fresh s)) (t_cache s)) (t_fresh s + 1)
                   (t_workers s) (t_out s)) (WFrame Load e h (t_fresh s))
      end
  | Some (WFrame st e h id) => frame_step g v s i st e h id
  | Some (WPush e b) =>
      go (mkTS (t_files s) (t_open s) (t_queue s ++ [(fst e, u32 (snd e + 1))]) (t_cache s)
               (t_fresh s) (t_workers s) (t_out s)) (WCall b)
  | Some (WCall b) =>
      go (mkTS (t_files s) (t_open s) (t_queue s) (t_cache s) (t_fresh s) (t_workers s)
               (t_out s ++ match b with Some x => [x] | None => [] end)) WCheck
  | Some WDone => None
  end.

(** An execution: [None] if some worker was asked to do a step it cannot do. *)
Fixpoint trun (g : geom) (v : Z) (cs : list (nat * nat)) (s : tstate) : option (outcome tstate) :=
  match cs with
  | [] => Some (Ok s)
  | c :: r => match tstep g v c s with
              | Some (Ok s') => trun g v r s'
              | Some o => Some o
              | None => None
              end
  end.

(** readAll before the workers start, reader.h:379-393, on a reader whose open
    streams are [files] (all of them queued, with readCount 0) and whose cache
    is empty. *)
Definition tinit (threads : nat) (files : list (Z * bytes)) : tstate :=
  mkTS files (seq 0 (List.length files)) (map (fun n => (n, 0)) (seq 0 (List.length files)))
       [] 0 (repeat WCheck threads) [].

(** All futures are ready, reader.h:474-478. *)
Definition is_done (w : tworker) : bool := match w with WDone => true | _ => false end.
Definition tfinished (s : tstate) : bool := forallb is_done (t_workers s).

(** The read of m_streams in the loop condition (reader.h:395) takes no mutex,
    while another thread erases from it under m_streamsMutex: both can be about
    to happen. *)
Definition streams_race (s : tstate) : Prop :=
  exists i j e, i <> j /\ nth_error (t_workers s) i = Some WCheck /\
    nth_error (t_workers s) j = Some (WErase e).

(** The number of threads, reader.cpp:784-796. *)
Definition init_threads (threads hardware : Z) : Z :=
  if threads <? 1 then (if hardware =? 0 then 10 else hardware) else threads.

(** The returned future, reader.h:472-480: m_futures has a future per worker of
    every readAll of this reader so far (nothing removes them); get() leaves a
    future without state, and get() on such a future throws (std::future_error
    in the implementations; the standard leaves it undefined). *)
Fixpoint get_all (futures : list bool) : outcome (list bool) :=
  match futures with
  | [] => Ok []
  | true :: t => let* t' := get_all t in Ok (false :: t')
  | false :: _ => Throw "future_error: no state"
  end.

(** [n] times readAll(f).get(), each with [threads] workers. *)
Fixpoint read_all_calls (n : nat) (threads : nat) (futures : list bool) : outcome (list bool) :=
  match n with
  | O => Ok futures
  | S m => let* fs := get_all (futures ++ repeat true threads) in read_all_calls m threads fs
  end.
