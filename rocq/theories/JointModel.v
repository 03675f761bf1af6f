(** Electron counting straight from a reader (stempy/electron.cpp:563-855 with
    stempy/reader.h:378-481 or 814-834): the reader's worker threads call the
    counting functor themselves, while the thread that called electronCount
    waits for samples, computes the thresholds and counts the rest.  One
    transition system holds both the reader and the counter, so that no
    assumption about the delivered blocks is left.

    The steps of a reader are those of MultipassModel.v or ThreadedModel.v, the
    steps of the counter those of CountModel.v (whose list of outstanding blocks
    stays empty: blocks come from the reader). *)
From Coq Require Import String ZArith List Bool.
From Verif Require Import Base BlockModel StreamModel SectorModel ThreadedModel MultipassModel CountModel.
Import ListNotations.
Open Scope Z_scope.

(** What the counter sees of a reader: its threads' steps ([src_who] is the
    thread that makes a step), the block with which a step calls the functor,
    and whether all its threads have ended. *)
Record source := mkSrc {
  src_state : Type;
  src_choice : Type;
  src_who : src_choice -> nat;
  src_step : src_choice -> src_state -> option (outcome src_state);
  src_call : src_choice -> src_state -> option block;
  src_ended : src_state -> bool
}.

(** SectorStreamMultiPassThreadedReader; func(b) is at reader.h:648. *)
Definition multipass_source (g : geom) (e : penv) : source :=
  mkSrc pstate nat (fun i => i) (pstep g e)
        (fun i s => match nth_error (ps_workers s) i with
                    | Some (PCall _ _ b) => Some b
                    | _ => None
                    end)
        pfinished.

(** SectorStreamThreadedReader; func(b) is at reader.h:466-468. *)
Definition threaded_source (g : geom) (v : Z) : source :=
  mkSrc tstate (nat * nat) fst (tstep g v)
        (fun c s => match nth_error (t_workers s) (fst c) with
                    | Some (WCall b) => b
                    | _ => None
                    end)
        tfinished.

Section Joint.
Variable S : source.
Context {Th : Type}.
Variable thresholds_of : list block -> outcome Th.
Variable count : Th -> (Z * Z) -> list Z -> outcome (list Z).
Variable nsamples : Z.           (* options.thresholdNumberOfBlocks *)
Variable scan_opt : Z * Z.       (* options.scanDimensions *)

Record jsys := mkJ { j_src : src_state S; j_cnt : csys Th }.

Inductive jchoice :=
| JRead (c : src_choice S)   (* a reader thread, outside the functor *)
| JWork (i : nat)            (* a reader thread, inside the functor *)
| JMain.                     (* the thread that called electronCount *)

(** done.wait(), electron.cpp:793: all threads of the reader have ended. *)
Definition may_join (s : jsys) : bool :=
  match c_main (j_cnt s) with MJoin => src_ended S (j_src s) | _ => true end.

Definition from_counter (s : jsys) (o : option (outcome (csys Th))) : option (outcome jsys) :=
  match o with
  | None => None
  | Some m => Some (let* c := m in Ok (mkJ (j_src s) c))
  end.

(** One step.  A thread of the reader is inside the functor from the call
    (electron.cpp:646) until it is idle again for the counter. *)
Definition joint_step (c : jchoice) (s : jsys) : option (outcome jsys) :=
  match c with
  | JRead c =>
    match nth_error (c_workers (j_cnt s)) (src_who S c) with
    | Some WIdle =>
      match src_step S c (j_src s) with
      | None => None
      | Some m => Some (let* r := m in
                        Ok (mkJ r (match src_call S c (j_src s) with
                                   | Some b => set_worker (j_cnt s) (src_who S c) (WGot b)
                                   | None => j_cnt s
                                   end)))
      end
    | _ => None
    end
  | JWork i => from_counter s (count_step thresholds_of count nsamples scan_opt (Work i) (j_cnt s))
  | JMain => if may_join s
             then from_counter s (count_step thresholds_of count nsamples scan_opt MainStep (j_cnt s))
             else None
  end.

Fixpoint joint_run (cs : list jchoice) (s : jsys) : option (outcome jsys) :=
  match cs with
  | [] => Some (Ok s)
  | c :: r => match joint_step c s with
              | Some (Ok s') => joint_run r s'
              | o => o
              end
  end.

(** reader->readAll(counter), electron.cpp:684, has started [nw] threads on a
    reader in state [s]. *)
Definition joint_init (nw : nat) (s : src_state S) : jsys := mkJ s (count_init nw []).

End Joint.
Arguments JRead {S}.
Arguments JWork {S}.
Arguments JMain {S}.
Arguments mkJ {S Th}.
Arguments j_src {S Th}.
Arguments j_cnt {S Th}.

(** electronCount on a multi-pass reader: readAll first builds the scan map
    ([cs1], reader.h:816), then the second pass and the counting interleave
    ([cs]).  [None]: this is not a complete execution. *)
Definition multipass_start (r : mreader) : pstate :=
  mkPS (mr_streams r) (mr_processed r) [] (repeat PCheck (mr_threads r)) [].
Definition multipass_env (r : mreader) : penv :=
  mkPE (mr_map r) (mr_dims r) (mr_scan r) (u32 (mr_offset r + mr_size r)).

Section MultiCount.
Context {Th : Type}.
Variable thresholds_of : list block -> outcome Th.
Variable count : Th -> (Z * Z) -> list Z -> outcome (list Z).
Variable nsamples : Z.
Variable scan_opt : Z * Z.

(** [r] is the reader after initializeScanMap. *)
Definition multi_counting (g : geom) (r : mreader)
    (cs : list (jchoice (multipass_source g (multipass_env r))))
  : option (outcome (jsys (multipass_source g (multipass_env r)) (Th:=Th))) :=
  joint_run _ thresholds_of count nsamples scan_opt cs
    (joint_init (multipass_source g (multipass_env r)) (mr_threads r) (multipass_start r)).
End MultiCount.

(** The reader after an electronCount that ended in [s] (as at the end of
    readAll in MultipassModel.v, where the futures are used up). *)
Definition reader_after {Th} {g : geom} (r : mreader)
    (s : jsys (multipass_source g (multipass_env r)) (Th:=Th)) : mreader :=
  mkMR (ps_streams (j_src s)) (mr_map r) (mr_scan r) (mr_offset r) (mr_size r) (mr_soffset r)
       (mr_ssize r) (mr_nframes r) (mr_dims r) (ps_processed (j_src s)) (mr_threads r)
       (map (fun _ => false) (mr_futures r ++ repeat true (mr_threads r))).

(** electronCount on a SectorStreamThreadedReader with [threads] threads;
    readAll (reader.h:379-393) has queued all streams. *)
Definition threaded_counting {Th} (thresholds_of : list block -> outcome Th)
    (count : Th -> (Z * Z) -> list Z -> outcome (list Z)) (nsamples : Z) (scan_opt : Z * Z)
    (g : geom) (v : Z) (threads : nat) (files : list (Z * bytes))
    (cs : list (jchoice (threaded_source g v))) :=
  joint_run (threaded_source g v) thresholds_of count nsamples scan_opt cs
    (joint_init (threaded_source g v) threads (tinit threads files)).
