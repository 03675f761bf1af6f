(** The image functions of the Python package that take a reader
    (python/stempy/image/__init__.py): create_stem_histogram, calculate_average,
    radial_sum, maximum_diffraction_pattern, and the way electron_count treats
    the dark reference and the gain it is given. *)
From Coq Require Import String ZArith List Bool.
From Verif Require Import Base BlockModel Double Float32 FloatConv PoolModel ImageModel StemModel RadialModel
  SparseModel HelperModel ClassicPyModel.
Import ListNotations.
Open Scope Z_scope.

(** An ImageArray, image/__init__.py:170-179: an array ([ia_dims]: width and
    height; [ia_values]: row by row, float64) with the C++ image it was made of
    ([_image], None for an array that was made directly).  [ia_shared]: the array
    is a view of the memory of that image, as safe_array(image, copy=False) makes
    it. *)
Record image_array := mkImage {
  ia_dims : Z * Z;
  ia_values : list double;
  ia_image : option (list double);
  ia_shared : bool
}.

(** img = ImageArray(safe_array(image, copy=False)); img._image = image,
    image/__init__.py:191-192, 397-398. *)
Definition image_array_of (image : (Z * Z) * list double) : image_array :=
  mkImage (fst image) (snd image) (Some (snd image)) true.

(** A new array made by NumPy from this one element by element (img * 2,
    np.round(img), img.astype(...)): __array_finalize__ (:176-178) gives it the
    same [_image]. *)
Definition elementwise (f : double -> double) (a : image_array) : image_array :=
  mkImage (ia_dims a) (map f (ia_values a)) (ia_image a) false.

(** The same in place (img *= 2, np.round(img, out=img)). *)
Definition in_place (f : double -> double) (a : image_array) : image_array :=
  mkImage (ia_dims a) (map f (ia_values a))
          (if ia_shared a then option_map (map f) (ia_image a) else ia_image a) (ia_shared a).

(** ImageArray(array), :171-174. *)
Definition new_image_array (dims : Z * Z) (values : list double) : image_array :=
  mkImage dims values None false.

(** A two-dimensional NumPy array of float64 given by the user: width and height,
    the values row by row, and whether its memory holds it column by column
    (Fortran order, as np.asfortranarray(a) and a.T of a new array make it).
    Simplification: no axis of length one is treated specially (for those both
    orders are the same). *)
Record np_image := mkNp {
  np_dims : Z * Z;
  np_values : list double;
  np_fortran : bool
}.

(** The values in the order of the memory.  np.power and astype (order='K') keep
    the order of the memory and leave no gaps. *)
Definition memory_of (a : np_image) : list double :=
  if np_fortran a then
    let '(w, h) := np_dims a in
    map (fun k => nth (Z.to_nat ((k mod h) * w + k / h)) (np_values a) (d_of_Z 0)) (zseq (w * h))
  else np_values a.

Section Reader.
Context {R : Type}.
Variable ops : reader_ops R.

(** calculate_average, :181-194. *)
Definition py_calculate_average (fuel : nat) (r : R) : outcome image_array * R :=
  obind (ro_iterate ops fuel r) (fun blocks r' =>
    (let* image := calculateAverage blocks in Ok (image_array_of image), r')).

(** radial_sum, :354-377, under the schedule [cs] of the pool: the number of
    rings and the sums, ring by ring. *)
Definition py_radial_sum (fuel : nat) (center scan : Z * Z) (cs : list choice) (r : R)
  : option (outcome (Z * list Z)) * R :=
  match ro_iterate ops fuel r with
  | (Ok blocks, r') => (radialSum blocks scan center cs, r')
  | (Throw m, r') => (Some (Throw m), r')
  | (UB m, r') => (Some (UB m), r')
  | (OutOfFuel, r') => (Some OutOfFuel, r')
  end.

(** The loop over the images, :157-166. *)
Fixpoint histograms (dims : Z * Z) (numBins : Z) (imgs : images) : outcome (list (list double) * list (list Z)) :=
  match imgs with
  | [] => Ok ([], [])
  | img :: rest =>
    let* bins := getContainer dims img numBins in
    let* freq := createSTEMHistogram dims img numBins bins in
    let* (allBins, allFreqs) := histograms dims numBins rest in
    Ok (bins :: allBins, freq :: allFreqs)
  end.

(** create_stem_histogram, :126-168, under the schedule [cs]. *)
Definition py_create_stem_histogram (fuel : nat) (numBins : Z) (inner outer : list Z) (scan center : Z * Z)
    (cs : list choice) (r : R) : option (outcome (list (list double) * list (list Z))) * R :=
  match ro_iterate ops fuel r with
  | (Ok blocks, r') =>
    (match createSTEMImages blocks inner outer scan center cs with
     | None => None
     | Some imgs => Some (
         let* imgs := imgs in
         histograms (if (fst scan =? 0) || (snd scan =? 0)
                     then match blocks with b0 :: _ => scan_dims (hdr b0) | [] => scan end
                     else scan) numBins imgs)
     end, r')
  | (Throw m, r') => (Some (Throw m), r')
  | (UB m, r') => (Some (UB m), r')
  | (OutOfFuel, r') => (Some OutOfFuel, r')
  end.

(** The overloads of _image.maximum_diffraction_pattern, python/image.cpp:591-613:
    the C++ types of the parameters. *)
Inductive reader_kind := KStream | KSector | KPy.
Inductive cpp_type := CIterator (k : reader_kind) | CImageFloat | CImageDouble.
Definition maximum_overloads : list (list cpp_type) :=
  [ [CIterator KStream; CIterator KStream; CImageFloat];
    [CIterator KStream; CIterator KStream];
    [CIterator KSector; CIterator KSector; CImageFloat];
    [CIterator KSector; CIterator KSector];
    [CIterator KPy; CIterator KPy] ].
Definition kind_eqb (a b : reader_kind) : bool :=
  match a, b with KStream, KStream | KSector, KSector | KPy, KPy => true | _, _ => false end.
Definition type_eqb (a b : cpp_type) : bool :=
  match a, b with
  | CIterator k, CIterator l => kind_eqb k l
  | CImageFloat, CImageFloat | CImageDouble, CImageDouble => true
  | _, _ => false
  end.
Fixpoint types_eqb (a b : list cpp_type) : bool :=
  match a, b with
  | [], [] => true
  | x :: a', y :: b' => type_eqb x y && types_eqb a' b'
  | _, _ => false
  end.
(** pybind11 takes the first overload whose parameters accept the arguments; a
    class is not converted into another.  (None would be accepted for a class by
    a pointer parameter only, not by a reference.) *)
Definition accepted (args : list cpp_type) : bool := existsb (types_eqb args) maximum_overloads.

(** maximum_diffraction_pattern, :379-400.  [dark]: nothing, an object without
    [_image] (such as a plain array), or an ImageArray.  reader.begin() has read
    one block when the overloads are tried. *)
Inductive dark_arg := NoDark | PlainDark (a : np_image) | ImageDark (a : image_array).
Definition py_maximum_diffraction_pattern (k : reader_kind) (fuel : nat) (dark : dark_arg) (r : R)
  : outcome image_array * R :=
  match dark with
  | NoDark =>
    if accepted [CIterator k; CIterator k] then
      obind (ro_iterate ops fuel r) (fun blocks r' =>
        (let* image := maximumDiffractionPattern_nodark blocks in Ok (image_array_of image), r'))
    else obind (ro_read ops r) (fun _ r' => (Throw "TypeError", r'))
  | PlainDark _ => (Throw "AttributeError", r)                              (* :393 *)
  | ImageDark a =>
    match ia_image a with
    | Some image =>
      if accepted [CIterator k; CIterator k; CImageDouble] then
        obind (ro_iterate ops fuel r) (fun blocks r' =>
          (let* image := maximumDiffractionPattern blocks (ia_dims a, image) in Ok (image_array_of image), r'))
      else obind (ro_read ops r) (fun _ r' => (Throw "TypeError", r'))
    | None => obind (ro_read ops r) (fun _ r' => (Throw "TypeError", r'))
    end
  end.

(** The dark reference of electron_count, image/__init__.py:246-248 and 279-280:
    the values must be float32 numbers; a plain reader then uses the C++ image of
    an ImageArray instead of its values (None: no dark reference), which
    py::array_t<float> converts to float32 by rounding
    (python/image.cpp:506-539, 57-61).  The C++ code reads the memory of an array
    from its start without looking at its strides (darkReference.data(), :139,
    :155; buf.ptr, :82-85). *)
Definition prepare_dark (dark : dark_arg) : outcome (option (list float32)) :=
  match dark with
  | NoDark => Ok None
  | PlainDark a => let* d := safe_cast (memory_of a) in Ok (Some d)
  | ImageDark a =>
    let* _ := safe_cast (ia_values a) in
    Ok (option_map (map f_of_d) (ia_image a))
  end.

(** The gain, :240-244. *)
Definition prepare_gain_arg (gain : option np_image) : outcome (option (list float32)) :=
  match gain with
  | None => Ok None
  | Some g => let* g' := prepare_gain (memory_of g) in Ok (Some g')
  end.

Variable fit : list Z -> list Z -> Z -> double -> double -> option (double * double).

(** The other arguments of electron_count. *)
Record count_settings := mkSettings {
  cs_samples : Z;
  cs_bg_nsigma : double;
  cs_xray_nsigma : double;
  cs_blocks : Z;
  cs_scan : Z * Z;
  cs_row_dark : bool;
  cs_use_mean : bool
}.
Definition with_references (s : count_settings) (dark gain : option (list float32)) : classic_args :=
  mkClassic dark gain (cs_samples s) (cs_bg_nsigma s) (cs_xray_nsigma s) (cs_blocks s) (cs_scan s)
            (cs_row_dark s) (cs_use_mean s).

(** electron_count with a plain reader, :197-352: the references, then
    [electron_count] of ClassicPyModel. *)
Definition py_electron_count (dark : dark_arg) (gain : option np_image) (s : count_settings)
    (rnd : Z -> Z) (fuel : nat) (r : R) : outcome sparse * R :=
  match (let* g := prepare_gain_arg gain in let* d := prepare_dark dark in Ok (d, g)) with
  | Ok (d, g) => electron_count ops fit (with_references s d g) rnd fuel r
  | Throw m => (Throw m, r)
  | UB m => (UB m, r)
  | OutOfFuel => (OutOfFuel, r)
  end.
End Reader.
