(** electron_count of the Python package with a reader that is not threaded
    (python/stempy/image/__init__.py:197-352, the deprecated branch 266-328): it
    reads blocks, calculates the thresholds from them, resets the reader, counts
    all blocks in one thread (stempy/electron.cpp:408-525) and wraps the result. *)
From Coq Require Import String ZArith List Bool.
From Verif Require Import Base BlockModel Double Float32 FloatConv ElectronModel IeeeModel CountModel
  ThresholdModel SparseModel CountedModel StreamModel SectorModel PyModel.
Import ListNotations.
Open Scope Z_scope.

(** What the function uses of a reader: read() and reset(). *)
Record reader_ops (R : Type) := mkReader {
  ro_read : R -> outcome block * R;
  ro_reset : R -> R
}.
Arguments mkReader {R}. Arguments ro_read {R}. Arguments ro_reset {R}.

(** The three readers: io.Reader (reader.cpp:32-269), io.SectorReader
    (reader.cpp:292-567), io.PyReader (pyreader.cpp). *)
Definition stream_ops : reader_ops sr := mkReader read_block reset.
Definition sector_ops (g : geom) : reader_ops ssr := mkReader (sector_read g) sector_reset.
Definition py_ops : reader_ops pyreader :=
  mkReader (fun r => match py_read r with
                     | Ok (b, r') => (Ok b, r')
                     | Throw m => (Throw m, r)
                     | UB m => (UB m, r)
                     | OutOfFuel => (OutOfFuel, r)
                     end) py_reset.

(** Continue with the result of a call that also changes the reader. *)
Definition obind {A B R} (m : outcome A * R) (k : A -> R -> outcome B * R) : outcome B * R :=
  match m with
  | (Ok a, r) => k a r
  | (Throw s, r) => (Throw s, r)
  | (UB s, r) => (UB s, r)
  | (OutOfFuel, r) => (OutOfFuel, r)
  end.

Section Count.
Context {R : Type}.
Variable ops : reader_ops R.

(** ReaderMixin.__next__ with read, io/__init__.py:25-47: a block with version 0
    is the end of the data. *)
Definition py_next (r : R) : outcome block * R :=
  obind (ro_read ops r) (fun b r' =>
    if version (hdr b) =? 0 then (Throw "StopIteration", r') else (Ok b, r')).

(** image/__init__.py:275-277. *)
Fixpoint next_blocks (n : nat) (r : R) : outcome (list block) * R :=
  match n with
  | O => (Ok [], r)
  | S n' => obind (py_next r) (fun b r1 =>
            obind (next_blocks n' r1) (fun bs r2 => (Ok (b :: bs), r2)))
  end.

(** The blocks visited by the loop from reader.begin() to reader.end(),
    reader.h:90-148, pyreader.h:85-130: a block without data ends it.
    Simplification: all blocks are read before the first one is counted; the
    order matters only when both reading and counting fail. *)
Fixpoint ro_iterate (fuel : nat) (r : R) : outcome (list block) * R :=
  match fuel with
  | O => (OutOfFuel, r)
  | S f => obind (ro_read ops r) (fun b r1 =>
           match data b with
           | None => (Ok [], r1)
           | Some _ => obind (ro_iterate f r1) (fun bs r2 => (Ok (b :: bs), r2))
           end)
  end.

(** The arguments of electron_count.  [ca_gain] is the inverted gain in float32
    (:241-244), [ca_dark] the dark reference in float32 (:246-248); both row by
    row. *)
Record classic_args := mkClassic {
  ca_dark : option (list float32);
  ca_gain : option (list float32);
  ca_samples : Z;
  ca_bg_nsigma : double;
  ca_xray_nsigma : double;
  ca_blocks : Z;
  ca_scan : Z * Z;
  ca_row_dark : bool;
  ca_use_mean : bool
}.

(** toCpp, python/image.cpp:71-95: an array with at most one element counts as
    absent.  (Python's None becomes an array with one NaN.) *)
Definition to_pointer (r : option (list float32)) : option (list float32) :=
  match r with
  | Some l => if 1 <? Zlen l then Some l else None
  | None => None
  end.

(** One frame of the classic counter, electron.cpp:455-499, for a pixel type. *)
Definition classic_one {T} (fops : frame_ops T float32 double) (dark gain : option (list float32))
    (bg xray : double) (row_dark : bool) (mean : float32) (use_mean : bool) (dims : Z * Z)
    (raw : list Z) : outcome (list Z) :=
  let frame := map (op_of_u16 fops) raw in                                 (* :457 *)
  let* frame := (if row_dark
                 then applyRowDark fops use_mean mean dark gain bg xray dims frame  (* :465 *)
                 else preprocess_classic fops dark gain bg xray dims frame) in      (* :477 *)
  maximalPoints (op_gt fops) frame dims.                                   (* :495 *)

(** The choice of the pixel type, electron.cpp:508-525. *)
Definition classic_count (a : classic_args) (t : thresholds) : (Z * Z) -> list Z -> outcome (list Z) :=
  let dark := to_pointer (ca_dark a) in
  let gain := to_pointer (ca_gain a) in
  let mean := f_of_d (th_opt_mean t) in                                    (* float optimizedMean *)
  match gain with
  | Some _ => classic_one f32_ieee dark gain (th_background t) (th_xray t) (ca_row_dark a) mean (ca_use_mean a)
  | None => classic_one u16_ieee dark gain (th_background t) (th_xray t) (ca_row_dark a) mean (ca_use_mean a)
  end.

(** ElectronCountedData: events, scan and frame dimensions (electron.cpp:427-442,
    503-506), then image/__init__.py:330-352. *)
Definition classic_wrapped (count : (Z * Z) -> list Z -> outcome (list Z)) (scan : Z * Z)
    (blocks : list block) : outcome sparse :=
  let* events := electronCountClassic count scan blocks in
  match blocks with
  | [] => Throw "No blocks to read!"
  | b0 :: _ =>
    let scan := if (fst scan =? 0) || (snd scan =? 0) then scan_dims (hdr b0) else scan in
    wrap_counted events scan (frame_dims (hdr b0))
  end.

Variable fit : list Z -> list Z -> Z -> double -> double -> option (double * double).

(** image/__init__.py:275-352.  [rnd]: the random numbers of the sampling.
    [ca_blocks] blocks are taken from where the reader is, then it is reset. *)
Definition electron_count (a : classic_args) (rnd : Z -> Z) (fuel : nat) (r : R) : outcome sparse * R :=
  obind (next_blocks (Z.to_nat (ca_blocks a)) r) (fun blocks r1 =>
  match calculate_thresholds fit blocks (ca_dark a) (ca_gain a) (ca_samples a)
          (ca_bg_nsigma a) (ca_xray_nsigma a) rnd with                      (* :280-291 *)
  | Ok t =>
    obind (ro_iterate fuel (ro_reset ops r1)) (fun all r2 =>                (* :314, :328 *)
      (classic_wrapped (classic_count a t) (ca_scan a) all, r2))
  | Throw m => (Throw m, r1)
  | UB m => (UB m, r1)
  | OutOfFuel => (OutOfFuel, r1)
  end).
End Count.

(** What else a program may have done with the reader before. *)
Inductive reader_call := CRead | CReset.
Fixpoint run_calls {R} (ops : reader_ops R) (cs : list reader_call) (r : R) : R :=
  match cs with
  | [] => r
  | CRead :: t => run_calls ops t (snd (ro_read ops r))
  | CReset :: t => run_calls ops t (ro_reset ops r)
  end.
