(** The worker pool used by createSTEMImages and radialSum
    (thirdparty/ThreadPool/ThreadPool.h:36-94): a FIFO queue of tasks filled by
    the main thread while worker threads pop and run tasks.  A task is the list
    of the atomic memory operations it performs, in program order.  Any
    interleaving of main thread and workers is an execution.
    Simplification: a task is reduced to its effects on shared memory; the
    queue mutex makes push and pop atomic (ThreadPool.h:46-53, 78-86). *)
From Coq Require Import ZArith List String.
From Verif Require Import Base.
Import ListNotations.

Section Pool.
Context {op mem : Type}.
Variable exec : op -> mem -> outcome mem.

Record pool := mkPool {
  pending : list (list op);   (* blocks the main thread has not enqueued yet *)
  queue : list (list op);     (* ThreadPool::tasks *)
  workers : list (list op);   (* remaining operations of each worker's task *)
  memory : outcome mem        (* shared result buffer *)
}.

(** Which thread moves next. *)
Inductive choice := Main | Worker (i : nat).

(** One step of the chosen thread; [None] when that thread is blocked. *)
Definition pool_step (c : choice) (p : pool) : option pool :=
  match c with
  | Main =>
    match pending p with
    | [] => None
    | t :: r => Some (mkPool r (queue p ++ [t]) (workers p) (memory p))
    end
  | Worker i =>
    match nth_error (workers p) i with
    | None => None
    | Some (o :: rest) =>
      Some (mkPool (pending p) (queue p) (upd (workers p) i rest)
                   (bind (memory p) (exec o)))
    | Some [] =>
      match queue p with
      | [] => None
      | t :: q => Some (mkPool (pending p) q (upd (workers p) i t) (memory p))
      end
    end
  end.

Definition pool_init (nworkers : nat) (tasks : list (list op)) (m : mem) : pool :=
  mkPool tasks [] (repeat [] nworkers) (Ok m).

(** All futures are ready (image.cpp:270-271, 577-578). *)
Definition pool_done (p : pool) : Prop :=
  pending p = [] /\ queue p = [] /\ Forall (fun w => w = []) (workers p).

(** [pool_run cs p q]: executing the choices [cs] from [p] ends in [q]. *)
Fixpoint pool_run (cs : list choice) (p : pool) : option pool :=
  match cs with
  | [] => Some p
  | c :: r => match pool_step c p with
              | Some p' => pool_run r p'
              | None => None
              end
  end.

End Pool.
Arguments pool : clear implicits.
