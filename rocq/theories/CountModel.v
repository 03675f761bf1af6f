(** Electron counting of whole data sets: the classic sequential loop
    (stempy/electron.cpp:408-525) and the threaded counter
    (stempy/electron.cpp:563-855, without USE_MPI) as a transition system whose
    executions are all interleavings of the main thread and the reader's worker
    threads.  The per-frame work is the parameter [count] (ElectronModel.v gives
    the instance) and the threshold calculation (electronthresholds.cpp:74-193)
    is the parameter [thresholds_of]. *)
From Coq Require Import String ZArith List Bool.
From Verif Require Import Base BlockModel.
Import ListNotations.
Open Scope Z_scope.

(** One frame to count: scan position, frame dimensions, raw data. *)
Definition job : Type := Z * ((Z * Z) * list Z).
(** Events: position -> frame at that position -> pixel indices. *)
Definition events_t : Type := list (list (list Z)).

(** frameStart .. frameStart + width*height, electron.cpp:455-459, 620-624, 764-768:
    pointer offsets are computed in uint32. *)
Definition raw_frame (d : list Z) (dims : Z * Z) (i : Z) : outcome (list Z) :=
  let n := u32 (fst dims * snd dims) in
  let start := u32 (u32 (i * fst dims) * snd dims) in
  if start + n <=? Zlen d
  then Ok (firstn (Z.to_nat n) (skipn (Z.to_nat start) d))
  else UB "frame outside the block data".

(** The frames of a block with their positions (loops at electron.cpp:622-641 and
    763-777).  Simplification: all frames are extracted before the first one is
    counted; the block is private to the thread, so nobody can tell. *)
Definition block_jobs (b : block) : outcome (list job) :=
  let dims := frame_dims (hdr b) in
  for_loop (images_in_block (hdr b)) (fun i jobs =>
    let* d := block_data b in
    let* f := raw_frame d dims i in
    let* p := rd (image_numbers (hdr b)) i in
    Ok (jobs ++ [(p, (dims, f))])) [].

(** Classic electronCount, electron.cpp:408-506.  [count1] counts one frame. *)
Definition classic_frame (count1 : (Z * Z) -> list Z -> outcome (list Z)) (dims : Z * Z)
    (b : block) (i : Z) (events : events_t) : outcome events_t :=
  let* d := block_data b in
  let* f := raw_frame d dims i in
  let* ev := count1 dims f in
  let* p := rd (image_numbers (hdr b)) i in
  let* slot := rd events p in
  let* slot := wr slot 0 ev in                                       (* :494 *)
  wr events p slot.

Definition electronCountClassic (count1 : (Z * Z) -> list Z -> outcome (list Z))
    (scan : Z * Z) (blocks : list block) : outcome events_t :=
  match blocks with
  | [] => Throw "No blocks to read!"                                 (* :422 *)
  | b0 :: _ =>
    let scan := if (fst scan =? 0) || (snd scan =? 0)
                then scan_dims (hdr b0) else scan in                 (* :429 *)
    if (fst scan =? 0) || (snd scan =? 0)
    then Throw "No scan image size provided."                        (* :434 *)
    else
      let dims := frame_dims (hdr b0) in                             (* :442 *)
      let events := repeat [[]] (Z.to_nat (u32 (fst scan * snd scan))) in (* :446 *)
      for_each blocks (fun b events =>
        for_loop (images_in_block (hdr b)) (classic_frame count1 dims b) events) events
  end.

(** Padding, electron.cpp:799-811: std::vector::resize to the longest. *)
Definition resize_to {A} (n : Z) (x : A) (l : list A) : list A :=
  firstn (Z.to_nat n) l ++ repeat x (Z.to_nat (n - Zlen l)).

Definition max_frames (events : events_t) : Z :=
  fold_left (fun m l => if m <? Zlen l then Zlen l else m) events 0.

Definition pad_events (events : events_t) : events_t :=
  map (resize_to (max_frames events) []) events.

Section Threaded.
Context {Th : Type}.
Variable thresholds_of : list block -> outcome Th.
Variable count : Th -> (Z * Z) -> list Z -> outcome (list Z).
Variable nsamples : Z.           (* options.thresholdNumberOfBlocks *)
Variable scan_opt : Z * Z.       (* options.scanDimensions *)

(** Program point of a reader worker inside [counter]/[countBlock],
    electron.cpp:616-682.  The boolean of the counting phases says whether the
    worker still holds sampleMutex: the lock taken at :649 is not released
    before the countBlock call at :675. *)
Inductive wphase :=
| WIdle                                            (* between blocks *)
| WGot (b : block)                                 (* :648, about to test electronCounting *)
| WWantLock (b : block)                            (* :649 *)
| WNotify                                          (* :665, unlocked, about to notify_all *)
| WAsleep (b : block)                              (* :671, waiting on sampleCondition *)
| WAwake (b : block)                               (* notified, must reacquire the mutex *)
| WCount (locked : bool) (jobs : list job)         (* :622 *)
| WPush (locked : bool) (pos : Z) (ev : list Z) (rest : list job)     (* :638 *)
| WPushing (locked : bool) (pos : Z) (ev : list Z) (rest : list job). (* :640 *)

(** Program point of the calling thread, electron.cpp:684-816. *)
Inductive mphase :=
| MLock                                            (* :687 *)
| MAsleep                                          (* :688 waiting on sampleCondition *)
| MAwake
| MNotify                                          (* :757 *)
| MExtra (blocks : list block) (jobs : list job)   (* :781-790 *)
| MPush (pos : Z) (ev : list Z) (rest : list job) (blocks : list block)    (* :776 *)
| MPushing (pos : Z) (ev : list Z) (rest : list job) (blocks : list block)
| MJoin                                            (* :793 *)
| MDone (result : events_t).

Record csys := mkSys {
  c_todo : list block;         (* blocks the reader has not handed out yet *)
  c_workers : list wphase;
  c_samples : list block;      (* sampleBlocks *)
  c_incomplete : list block;   (* incompleteBlocks *)
  c_counting : bool;           (* electronCounting *)
  c_thr : option Th;           (* the thresholds once assigned *)
  c_events : events_t;         (* events *)
  c_main : mphase
}.

Inductive cchoice :=
| Take (i k : nat)    (* idle worker i gets the k-th outstanding block from the reader *)
| Work (i : nat)      (* worker i performs its next step *)
| MainStep.           (* the calling thread performs its next step *)

Definition holds (w : wphase) : bool :=
  match w with
  | WCount true _ | WPush true _ _ _ | WPushing true _ _ _ => true
  | _ => false
  end.

(** sampleMutex is free (the main thread never keeps it between steps). *)
Definition mutex_free (s : csys) : bool := negb (existsb holds (c_workers s)).

Definition pushing_at (p : Z) (w : wphase) : bool :=
  match w with WPushing _ q _ _ => q =? p | _ => false end.

(** What two workers storing at one position at the same time (electron.cpp:640)
    would be; the position mutex (:637) is there to exclude it. *)
Definition worker_race : string := "data race between two workers".

Definition wake (w : wphase) : wphase :=
  match w with WAsleep b => WAwake b | _ => w end.

Definition set_worker (s : csys) (i : nat) (w : wphase) : csys :=
  mkSys (c_todo s) (upd (c_workers s) i w) (c_samples s) (c_incomplete s)
        (c_counting s) (c_thr s) (c_events s) (c_main s).

Definition set_main (s : csys) (m : mphase) : csys :=
  mkSys (c_todo s) (c_workers s) (c_samples s) (c_incomplete s)
        (c_counting s) (c_thr s) (c_events s) m.

Definition set_events (s : csys) (e : events_t) : csys :=
  mkSys (c_todo s) (c_workers s) (c_samples s) (c_incomplete s)
        (c_counting s) (c_thr s) e (c_main s).

(** Counting one frame reads the thresholds. *)
Definition count_job (s : csys) (j : job) : outcome (list Z) :=
  match c_thr s with
  | None => UB "thresholds read before they are assigned"
  | Some t => count t (fst (snd j)) (snd (snd j))
  end.

(** events[position].push_back(ev) *)
Definition push_event (e : events_t) (p : Z) (ev : list Z) : outcome events_t :=
  let* l := rd e p in wr e p (l ++ [ev]).

(** In bounds of [events] and [positionMutexes]. *)
Definition in_events (e : events_t) (p : Z) : bool := (0 <=? p) && (p <? Zlen e).

(** The wait at :671 and the countBlock after it, sampleMutex held. *)
Definition worker_wait (s : csys) (i : nat) (b : block) : outcome csys :=
  if c_counting s
  then let* jobs := block_jobs b in Ok (set_worker s i (WCount true jobs))
  else Ok (set_worker s i (WAsleep b)).

Definition worker_step (i : nat) (w : wphase) (s : csys) : option (outcome csys) :=
  match w with
  | WIdle => None
  | WGot b =>
    Some (if c_counting s
          then let* jobs := block_jobs b in Ok (set_worker s i (WCount false jobs)) (* :680 *)
          else Ok (set_worker s i (WWantLock b)))
  | WWantLock b =>
    if mutex_free s then Some
      (if Zlen (c_samples s) <? u32 nsamples                         (* :650 *)
       then
         let* c := rd (complete (hdr b)) 0 in                        (* :655 *)
         let samples := if c then c_samples s ++ [b] else c_samples s in
         let incomplete := if c then c_incomplete s else c_incomplete s ++ [b] in
         Ok (mkSys (c_todo s)
               (upd (c_workers s) i
                  (if Zlen samples =? u32 nsamples then WNotify else WIdle)) (* :662 *)
               samples incomplete (c_counting s) (c_thr s) (c_events s) (c_main s))
       else worker_wait s i b)
    else None
  | WNotify =>
    Some (Ok (mkSys (c_todo s) (upd (map wake (c_workers s)) i WIdle)
            (c_samples s) (c_incomplete s) (c_counting s) (c_thr s) (c_events s)
            (match c_main s with MAsleep => MAwake | m => m end)))
  | WAsleep _ => None
  | WAwake b => if mutex_free s then Some (worker_wait s i b) else None
  | WCount l [] => Some (Ok (set_worker s i WIdle))
  | WCount l (j :: rest) =>
    Some (let* ev := count_job s j in Ok (set_worker s i (WPush l (fst j) ev rest)))
  | WPush l p ev rest =>
    if negb (in_events (c_events s) p) then Some (UB "position outside events")
    else if existsb (pushing_at p) (c_workers s) then None   (* position mutex taken *)
    else Some (match c_main s with
               | MPushing q _ _ _ => if q =? p then UB "data race" else
                                     Ok (set_worker s i (WPushing l p ev rest))
               | _ => Ok (set_worker s i (WPushing l p ev rest))
               end)
  | WPushing l p ev rest =>
    Some (if 2 <=? Zlen (filter (pushing_at p) (c_workers s)) then UB worker_race
          else let* e := push_event (c_events s) p ev in
               Ok (set_worker (set_events s e) i (WCount l rest)))
  end.

(** electron.cpp:684-757: with sampleMutex held, all samples collected. *)
Definition main_thresholds (s : csys) : outcome csys :=
  let* t := thresholds_of (c_samples s) in                           (* :705 *)
  let* b0 := rd (c_samples s) 0 in                                   (* :742 *)
  let scan := if (fst scan_opt =? 0) || (snd scan_opt =? 0)
              then scan_dims (hdr b0) else scan_opt in               (* :745 *)
  let n := u32 (fst scan * snd scan) in                              (* :749 *)
  Ok (mkSys (c_todo s) (c_workers s) (c_samples s) (c_incomplete s)
        true (Some t) (repeat [] (Z.to_nat n)) MNotify).

Definition main_check (s : csys) : option (outcome csys) :=
  if mutex_free s
  then Some (if Zlen (c_samples s) =? u32 nsamples then main_thresholds s
             else Ok (set_main s MAsleep))
  else None.

Definition is_idle (w : wphase) : bool := match w with WIdle => true | _ => false end.

Definition main_step (s : csys) : option (outcome csys) :=
  match c_main s with
  | MLock | MAwake => main_check s
  | MAsleep => None
  | MNotify =>
    Some (Ok (mkSys (c_todo s) (map wake (c_workers s)) (c_samples s) (c_incomplete s)
            (c_counting s) (c_thr s) (c_events s)
            (MExtra (c_samples s ++ c_incomplete s) [])))
  | MExtra bs (j :: rest) =>
    Some (let* ev := count_job s j in Ok (set_main s (MPush (fst j) ev rest bs)))
  | MExtra (b :: bs) [] =>
    Some (let* jobs := block_jobs b in Ok (set_main s (MExtra bs jobs)))
  | MExtra [] [] => Some (Ok (set_main s MJoin))
  | MPush p ev rest bs =>
    Some (if negb (in_events (c_events s) p) then UB "position outside events"
          else if existsb (pushing_at p) (c_workers s) then UB "data race"
          else Ok (set_main s (MPushing p ev rest bs)))
  | MPushing p ev rest bs =>
    Some (let* e := push_event (c_events s) p ev in
          Ok (set_main (set_events s e) (MExtra bs rest)))
  | MJoin =>
    if forallb is_idle (c_workers s) && (Zlen (c_todo s) =? 0)
    then Some (Ok (set_main s (MDone (pad_events (c_events s)))))
    else None
  | MDone _ => None
  end.

(** One step of the chosen thread; [None]: that thread cannot move now. *)
Definition count_step (c : cchoice) (s : csys) : option (outcome csys) :=
  match c with
  | Take i k =>
    match nth_error (c_workers s) i, nth_error (c_todo s) k with
    | Some WIdle, Some b =>
      Some (Ok (mkSys (firstn k (c_todo s) ++ skipn (S k) (c_todo s))
                  (upd (c_workers s) i (WGot b)) (c_samples s) (c_incomplete s)
                  (c_counting s) (c_thr s) (c_events s) (c_main s)))
    | _, _ => None
    end
  | Work i =>
    match nth_error (c_workers s) i with
    | Some w => worker_step i w s
    | None => None
    end
  | MainStep => main_step s
  end.

(** readAll has started [nw] workers; the caller is about to wait. *)
Definition count_init (nw : nat) (blocks : list block) : csys :=
  mkSys blocks (repeat WIdle nw) [] [] false None [] MLock.

(** Run a schedule.  Choices of threads that cannot move are not executions. *)
Fixpoint count_run (cs : list cchoice) (s : csys) : option (outcome csys) :=
  match cs with
  | [] => Some (Ok s)
  | c :: r =>
    match count_step c s with
    | None => None
    | Some (Ok s') => count_run r s'
    | Some (Throw m) => Some (Throw m)
    | Some (UB m) => Some (UB m)
    | Some OutOfFuel => Some OutOfFuel
    end
  end.

End Threaded.
Arguments csys : clear implicits.
