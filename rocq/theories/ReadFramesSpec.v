(** What [read_frames] is documented to do (io/__init__.py:92-102), in terms of
    the recorded files only. *)
From Coq Require Import ZArith List Sorted.
From Verif Require Import Base BlockModel SectorModel SectorSpec MultipassModel MultipassSpec
  SparseModel ReadFramesModel.
Import ListNotations.
Open Scope Z_scope.

(** The number of a position in a scan of [w] columns and [h] rows: a pair
    (row, column) inside the scan, or the flattened index itself. *)
Inductive names (w h : Z) : position -> Z -> Prop :=
| names_flat p : 0 <= p < w * h -> names w h (PFlat p) p
| names_pair i j : 0 <= i < h -> 0 <= j < w -> names w h (PSeq [i; j]) (i * w + j).

(** A Python index counts from the end when it is negative. *)
Definition from_end (n i : Z) : Z := if i <? 0 then i + n else i.

(** [l] lists, in order, the indices of an axis of length [n] that a Python
    slice takes: those between start and stop at a distance from the start that
    is a multiple of the step. *)
Definition slice_up (n : Z) (start stop : option Z) (step : Z) (l : list Z) : Prop :=
  let from := match start with Some v => Z.max 0 (from_end n v) | None => 0 end in
  let to := match stop with Some v => from_end n v | None => n end in
  StronglySorted Z.lt l /\
  forall x, In x l <-> 0 <= x < n /\ from <= x < to /\ (x - from) mod step = 0.

Definition slice_down (n : Z) (start stop : option Z) (step : Z) (l : list Z) : Prop :=
  let from := match start with Some v => Z.min (n - 1) (from_end n v) | None => n - 1 end in
  let to := match stop with Some v => from_end n v | None => -1 end in
  StronglySorted Z.gt l /\
  forall x, In x l <-> 0 <= x < n /\ to < x <= from /\ (from - x) mod (- step) = 0.

(** [l] are the indices that [sel] takes of the frames 0 .. [n]-1. *)
Inductive picks (n : Z) : option key -> list Z -> Prop :=
| picks_all : picks n None (zseq n)
| picks_int i : - n <= i < n -> picks n (Some (KInt i)) [from_end n i]
| picks_ints l : (forall i, In i l -> - n <= i < n) -> picks n (Some (KInts l)) (map (from_end n) l)
| picks_mask m l : Zlen m = n -> StronglySorted Z.lt l ->
    (forall x, In x l <-> 0 <= x /\ nth_error m (Z.to_nat x) = Some true) ->
    picks n (Some (KMask m)) l
| picks_up a b s st l : s = Some st /\ 0 < st \/ s = None /\ st = 1 -> slice_up n a b st l ->
    picks n (Some (KSlice a b s)) l
| picks_down a b st l : st < 0 -> slice_down n a b st l ->
    picks n (Some (KSlice a b (Some st))) l.

(** [n] is the largest number of frames recorded at one position. *)
Definition most_frames (fs : list sfile) (positions n : Z) : Prop :=
  (forall p ks, 0 <= p < positions -> frame_numbers fs p ks -> Zlen ks <= n) /\
  exists p ks, 0 <= p < positions /\ frame_numbers fs p ks /\ Zlen ks = n.

(** One block for an integer index, a list of blocks otherwise. *)
Inductive returns : option key -> list block -> frames_result -> Prop :=
| returns_one i b : returns (Some (KInt i)) [b] (ROne b)
| returns_many sel bs : (forall i, sel <> Some (KInt i)) -> returns sel bs (RMany bs).
