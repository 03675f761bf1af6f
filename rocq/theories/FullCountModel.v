(** electron_count of the Python package with a threaded reader
    (python/stempy/image/__init__.py:197-264, 330-352): the arithmetic of the
    frames in IEEE 754 (stempy/electron.cpp:527-561, 838-855), the thresholds from
    the sampled blocks (:696-731) and the metadata of the result (:813-833).  The
    threads are those of CountModel.v. *)
From Coq Require Import String ZArith List Bool.
From Verif Require Import Base BlockModel Double Float32 FloatConv ElectronModel IeeeModel CountModel
  ThresholdModel SparseModel CountedModel ClassicPyModel.
Import ListNotations.
Open Scope string_scope.
Open Scope Z_scope.

(** One frame, electron.cpp:527-561, called at :622-632 and :765-774 with a copy of
    the 16 bit pixels; the template parameter [dark] says whether there is a dark
    reference (:844-854). *)
Definition threaded_one {T} (fops : frame_ops T float32 double) (dark gain : option (list float32))
    (bg xray : double) (row_dark : bool) (mean : float32) (use_mean : bool) (dims : Z * Z)
    (raw : list Z) : outcome (list Z) :=
  electronCountFrame fops (match dark with Some _ => true | None => false end) dark gain bg xray
    row_dark mean use_mean dims (map (op_of_u16 fops) raw).

(** The three numbers the workers use, electron.cpp:593-595, 725-727. *)
Definition used_thresholds : Type := double * double * double.
Definition used_of (t : thresholds) : used_thresholds := (th_background t, th_xray t, th_opt_mean t).

(** The choice of the pixel type, electron.cpp:838-855.  The optimized mean is
    passed as a float (:531). *)
Definition worker_count (a : classic_args) (u : used_thresholds) : (Z * Z) -> list Z -> outcome (list Z) :=
  let dark := to_pointer (ca_dark a) in
  let gain := to_pointer (ca_gain a) in
  let '(bg, xray, om) := u in
  match gain with
  | Some _ => threaded_one f32_ieee dark gain bg xray (ca_row_dark a) (f_of_d om) (ca_use_mean a)
  | None => threaded_one u16_ieee dark gain bg xray (ca_row_dark a) (f_of_d om) (ca_use_mean a)
  end.
Definition threaded_count (a : classic_args) (t : thresholds) : (Z * Z) -> list Z -> outcome (list Z) :=
  worker_count a (used_of t).

(** calculateThresholds on the sampled blocks, electron.cpp:698-700. *)
Definition threaded_thresholds (fit : list Z -> list Z -> Z -> double -> double -> option (double * double))
    (a : classic_args) (rnd : Z -> Z) (blocks : list block) : outcome thresholds :=
  calculate_thresholds fit blocks (to_pointer (ca_dark a)) (to_pointer (ca_gain a)) (ca_samples a)
    (ca_bg_nsigma a) (ca_xray_nsigma a) rnd.

(** struct ElectronCountedMetadata, electron.h:14-30. *)
Record metadata := mkMeta {
  md_calculated : bool;
  md_background : double;
  md_xray : double;
  md_samples : Z;
  md_min : double;
  md_max : double;
  md_mean : double;
  md_variance : double;
  md_stddev : double;
  md_bins : Z;
  md_xray_nsigma : double;
  md_background_nsigma : double;
  md_opt_mean : double;
  md_opt_stddev : double
}.

Definition d0 : double := d_of_Z 0.
(** Its initial values, electron.h:16-29. *)
Definition default_metadata : metadata := mkMeta true d0 d0 0 d0 d0 d0 d0 d0 0 d0 d0 d0 d0.
(** ... and those of CalculateThresholdsResults, electronthresholds.h:17-29. *)
Definition default_thresholds : thresholds := mkThresholds d0 d0 0 0 0 d0 d0 d0 0 d0 d0 d0 d0.

(** electron.cpp:818-833. *)
Definition metadata_of (calculated : bool) (t : thresholds) : metadata :=
  mkMeta calculated (th_background t) (th_xray t) (th_samples t) (d_of_Z (th_min t)) (d_of_Z (th_max t))
    (th_mean t) (th_variance t) (th_stddev t) (th_bins t) (th_xray_nsigma t) (th_background_nsigma t)
    (th_opt_mean t) (th_opt_stddev t).

(** A value of the dict. *)
Inductive pyvalue := VBool (b : bool) | VInt (z : Z) | VFloat (d : double).

(** _electron_counted_metadata_to_dict, image/__init__.py:781-804, with the names
    of the attributes from python/image.cpp:368-390. *)
Definition metadata_dict (m : metadata) : list (string * pyvalue) :=
  [("threshold_calculated", VBool (md_calculated m));
   ("background_threshold", VFloat (md_background m));
   ("x_ray_threshold", VFloat (md_xray m));
   ("number_of_samples", VInt (md_samples m));
   ("min_sample", VFloat (md_min m));
   ("max_sample", VFloat (md_max m));
   ("mean", VFloat (md_mean m));
   ("variance", VFloat (md_variance m));
   ("std_dev", VFloat (md_stddev m));
   ("number_of_bins", VInt (md_bins m));
   ("x_ray_threshold_n_sigma", VFloat (md_xray_nsigma m));
   ("background_threshold_n_sigma", VFloat (md_background_nsigma m));
   ("optimized_mean", VFloat (md_opt_mean m));
   ("optimized_std_dev", VFloat (md_opt_stddev m))].

(** The array and the dict metadata['electron_counting'] that electron_count
    returns when the threads have ended in state [s], electron.cpp:738-742, 813-833,
    image/__init__.py:330-352. *)
Definition returned (a : classic_args) (s : @csys thresholds) : outcome (sparse * list (string * pyvalue)) :=
  match c_main s, c_samples s, c_thr s with
  | MDone events, b0 :: _, Some t =>
    let scan := ca_scan a in
    let scan := if (fst scan =? 0) || (snd scan =? 0) then scan_dims (hdr b0) else scan in
    let* sa := wrap_counted events scan (frame_dims (hdr b0)) in
    Ok (sa, metadata_dict (metadata_of true t))
  | _, _, _ => Throw "not finished"
  end.

(** The same with a reader that is not threaded: the counter leaves the metadata as
    it was created (electron.cpp:408-506). *)
Definition classic_returned {R} (ops : reader_ops R)
    (fit : list Z -> list Z -> Z -> double -> double -> option (double * double))
    (a : classic_args) (rnd : Z -> Z) (fuel : nat) (r : R) : outcome (sparse * list (string * pyvalue)) * R :=
  match electron_count ops fit a rnd fuel r with
  | (Ok sa, r') => (Ok (sa, metadata_dict default_metadata), r')
  | (Throw m, r') => (Throw m, r')
  | (UB m, r') => (UB m, r')
  | (OutOfFuel, r') => (OutOfFuel, r')
  end.

(** With MPI only rank 0 calculates the thresholds (electron.cpp:688-700); the others
    have those of a new object. *)
Definition rank_thresholds (t0 : thresholds) (rank : Z) : thresholds :=
  if rank =? 0 then t0 else default_thresholds.

(** MPI_Bcast with root 0: every buffer becomes that of rank 0. *)
Definition mpi_bcast {A} (buffers : list A) : list A :=
  match buffers with
  | [] => []
  | b :: _ => map (fun _ => b) buffers
  end.

(** broadcastThresholds, electron_mpi.cpp:186-198, of all ranks. *)
Definition pack (u : used_thresholds) : list double := let '(bg, xray, om) := u in [bg; xray; om].
Definition unpack (l : list double) : used_thresholds := (nth 0 l d0, nth 1 l d0, nth 2 l d0).
Definition broadcast (own : list used_thresholds) : list used_thresholds := map unpack (mpi_bcast (map pack own)).

(** The counters of the [world] ranks and the metadata of a rank, electron.cpp:725-731,
    818-833. *)
Definition rank_counts (a : classic_args) (t0 : thresholds) (world : Z) : list ((Z * Z) -> list Z -> outcome (list Z)) :=
  map (worker_count a) (broadcast (map (fun r => used_of (rank_thresholds t0 r)) (zseq world))).
Definition rank_metadata (t0 : thresholds) (rank : Z) : list (string * pyvalue) :=
  metadata_dict (metadata_of (rank =? 0) (rank_thresholds t0 rank)).
