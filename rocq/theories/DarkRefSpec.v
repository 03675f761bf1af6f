(** What counting with a given dark reference means. *)
From Coq Require Import ZArith List Bool Reals.
From Verif Require Import Base BlockModel Double Float32 ThresholdModel SparseModel SparseSpec CountSpec
  ClassicPyModel ClassicPySpec ReaderImageModel ReaderImageSpec.
Import ListNotations.
Open Scope Z_scope.

(** electron_count, called with the arguments [dark], [gain] and [s] on the reader
    [r] of the data set [bs] after the calls [cs], counts the electrons of the
    data set for the dark level [dv] and the inverted gain [gv], in the thresholds
    calculated with these same references from the [cs_blocks s] blocks after the
    reader's position. *)
Definition counts_with {T} (ops : reader_ops T) fit (dark : dark_arg) (gain : option np_image) (s : count_settings)
    rnd fuel cs r (bs : list block) (sw sh w h : Z) (dv : Z -> R) (gv : option (Z -> R)) : Prop :=
  exists d g, refs_are d (w * h) dv /\
    match g, gv with None, None => True | Some g, Some v => refs_are g (w * h) v | _, _ => False end /\
    forall t bg xr,
      calculate_thresholds fit (firstn (Z.to_nat (cs_blocks s)) (skipn (since_reset cs) bs)) (Some d) g
        (cs_samples s) (cs_bg_nsigma s) (cs_xray_nsigma s) rnd = Ok t ->
      dval (th_background t) bg -> dval (th_xray t) xr ->
      exists sa r', py_electron_count ops fit dark gain s rnd fuel (run_calls ops cs r) = (Ok sa, r') /\
        wf sa /\ holds_electrons sa bs sw sh w h dv gv bg xr.

(** Arguments and data for which this is asked: frames of one size, pixels and
    references within the range of the arithmetic, no row dark subtraction,
    enough blocks left for the thresholds. *)
Record countable (s : count_settings) (cs : list reader_call) (bs : list block) (fuel : nat) (sw sh w h : Z)
    (dv : Z -> R) (gv : option (Z -> R)) : Prop := {
  cb_data : data_set (with_references s None None) bs sw sh w h;
  cb_range : forall f j, In f (flat_map frames_of bs) -> 0 <= j < w * h ->
    in_range (option_map (fun v => v j) gv) (zat (snd (snd f)) j) (dv j);
  cb_row_dark : cs_row_dark s = false;
  cb_blocks : (since_reset cs + Z.to_nat (cs_blocks s) <= List.length bs)%nat;
  cb_fuel : (List.length bs < fuel)%nat
}.
