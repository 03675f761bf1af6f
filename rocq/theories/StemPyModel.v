(** Model of the Python function [create_stem_images]
    (python/stempy/image/__init__.py 15-125) and of the raw-data files it reads:
    [save_raw_data] and [get_hdf5_reader] (python/stempy/io/__init__.py 151-172
    and 213-252). *)
From Coq Require Import String ZArith List Bool.
From Verif Require Import Base BlockModel PyModel PoolModel StemModel SparseModel CountedModel.
Import ListNotations.
Local Open Scope string_scope.
Open Scope Z_scope.

(** * Raw-data files *)

(** The parts of an HDF5 file read or written here: /frames, its attribute
    scan_dimensions, /scan_positions and the shape of /stem/images. *)
Record h5file := mkH5 {
  h5_frames : option ndarray;
  h5_dims : option (Z * Z);
  h5_positions : option (list Z);
  h5_stem : option (Z * Z * Z)
}.

(** What [create_dataset(name, data=a)] stores and what the data set then reads
    as: the elements of [a] in C order, whatever its strides (h5py copies
    through np.asarray(data, order="C")). *)
Definition nd_copy (a : ndarray) : ndarray :=
  let n := nd_count a in let h := nd_rows a in let w := nd_cols a in
  let '(s0, s1, s2) := nd_strides a in
  mkNd (map (fun k => zat (nd_buf a)
               (nd_off a + (k / (h * w)) * s0 + (k / w mod h) * s1 + (k mod w) * s2))
            (zseq (n * (h * w))))
       0 (n, h, w) (h * w, w, 1).

Definition name_exists {A} : outcome A :=
  Throw "Unable to create dataset (name already exists)".

(** save_raw_data, io/__init__.py:213-252: the file is opened in mode 'a'.
    Returns the file left behind and whether the call raised.  Compression
    ([zip_data]) changes the storage only and is not modelled. *)
Definition save_raw_data (f : h5file) (a : ndarray) (dims : option (Z * Z))
  (positions : option (list Z)) : h5file * outcome unit :=
  match h5_frames f with
  | Some _ => (f, name_exists)                                        (* :242, :245 *)
  | None =>
    let f1 := mkH5 (Some (nd_copy a)) dims (h5_positions f) (h5_stem f) in  (* :247 *)
    match positions with
    | None => (f1, Ok tt)
    | Some l =>
      match h5_positions f with
      | Some _ => (f1, name_exists)
      | None => (mkH5 (h5_frames f1) dims (Some l) (h5_stem f), Ok tt)  (* :250 *)
      end
    end
  end.

(** pybind's conversion of a Python int to uint32_t. *)
Definition is_u32b (z : Z) : bool := (0 <=? z) && (z <? 2 ^ 32).

(** The constructor call of PyReader, io/__init__.py:171 and
    image/__init__.py:112: std::vector<uint32_t> image numbers, pair<uint32_t,
    uint32_t> scan dimensions, uint32_t block size and total. *)
Definition new_pyreader (a : ndarray) (numbers : list Z) (scan : Z * Z) (size total : Z)
  : outcome pyreader :=
  if forallb is_u32b numbers && is_u32b (fst scan) && is_u32b (snd scan) && is_u32b total
  then Ok (py_new a numbers scan size total)
  else Throw "TypeError".

(** get_hdf5_reader, io/__init__.py:151-172. *)
Definition get_hdf5_reader (f : h5file) : outcome pyreader :=
  match h5_frames f with
  | None => Throw "KeyError: frames"
  | Some a =>
    let total := nd_count a in
    let* scan := match h5_dims f with
                 | Some d => Ok d
                 | None => match h5_stem f with                       (* :161-162 *)
                           | Some (_, s1, s2) => Ok (s2, s1)
                           | None => Throw "KeyError: stem/images"
                           end
                 end in
    let numbers := match h5_positions f with
                   | Some l => l
                   | None => zseq total                               (* :169 *)
                   end in
    new_pyreader a numbers scan 32 total
  end.

(** * create_stem_images *)

(** Radii are a number or a list or tuple of numbers, 55-58. *)
Inductive radii := ROne (r : Z) | RMany (l : list Z).
Definition radii_list (r : radii) : list Z :=
  match r with ROne x => [x] | RMany l => l end.

(** The C++ object kept by an electron-counted array, python/image.cpp:31-56. *)
Record counted := mkCounted {
  cd_data : list (list (list Z));
  cd_scan : Z * Z;
  cd_frame : Z * Z
}.

(** Object arrays of events: one array of events per position, or one row of
    frames per position. *)
Inductive event_array := E1 (l : list (list Z)) | E2 (l : list (list (list Z))).

(** The inputs of create_stem_images.  A reader is the list of blocks its
    iterator gives (ReaderModel, PyModel, SectorModel).  A SparseArray may
    carry the C++ object it was made from (attribute _electron_counted_data,
    set by electron_count, 350).  [InCounted]: an object with the attributes
    data, scan_dimensions and frame_dimensions and without the C++ object. *)
Inductive stem_source :=
| InFile (f : h5file)
| InReader (blocks : list block)
| InSparse (sa : sparse) (cxx : option counted)
| InCounted (ev : event_array) (scan frame : Z * Z)
| InEvents (ev : event_array)
| InRaw (a : ndarray)
| InOther.

(** begin() .. end() of a PyReader; one more step of fuel than images. *)
Definition py_blocks (r : pyreader) : outcome (list block) :=
  let* (bs, _) := py_iterate (S (Z.to_nat (py_total r))) r in Ok bs.

(** An argument of type vector<vector<array_t<uint32_t>>>.  A 1-D object array
    converts as well: each event becomes an array of one element (the array of
    events is a sequence, and a NumPy integer converts to a 0-d array). *)
Definition as_frames (ev : event_array) : list (list (list Z)) :=
  match ev with
  | E1 l => map (map (fun e => [e])) l
  | E2 l => l
  end.

(** [input[:, np.newaxis]] for a 1-D array, 98-99. *)
Definition newaxis (ev : event_array) : list (list (list Z)) :=
  match ev with
  | E1 l => map (fun fr => [fr]) l
  | E2 l => l
  end.

(** A 3-D numeric array read as vector<vector<array_t<uint32_t>>>. *)
Definition nd_lists (a : ndarray) : list (list (list Z)) :=
  let '(s0, s1, s2) := nd_strides a in
  map (fun i => map (fun y => map (fun x =>
    zat (nd_buf a) (nd_off a + i * s0 + y * s1 + x * s2)) (zseq (nd_cols a)))
    (zseq (nd_rows a))) (zseq (nd_count a)).

(** A pair of uint32_t from a tuple of any length. *)
Definition as_pair (l : list Z) : outcome (Z * Z) :=
  match l with
  | [x; y] => if is_u32b x && is_u32b y then Ok (x, y) else Throw "TypeError"
  | _ => Throw "TypeError"
  end.

(** 15-125.  [cs] is the schedule of the two pool threads of the dense code
    ([None]: [cs] is not a complete schedule).  The dense C++ function reads
    the blocks while the pool works on earlier ones; no block changes after it
    is read, so here they are read first.  The images come back flat. *)
Definition create_stem_images (input : stem_source) (inner outer : radii)
  (scan center : Z * Z) (frame : option (Z * Z)) (cs : list choice)
  : option (outcome images) :=
  let inner := radii_list inner in
  let outer := radii_list outer in
  let dense (bs : outcome (list block)) :=
    match bs with
    | Ok bs => createSTEMImages bs inner outer scan center cs
    | Throw m => Some (Throw m)
    | UB m => Some (UB m)
    | OutOfFuel => Some OutOfFuel
    end in
  match input with
  | InFile f => dense (let* r := get_hdf5_reader f in py_blocks r)      (* 63-68 *)
  | InReader bs => dense (Ok bs)                                        (* 69-73 *)
  | InSparse _ (Some c) =>                                              (* 74-78 *)
      Some (createSTEMImagesSparse (cd_data c) inner outer (cd_scan c) (cd_frame c) center)
  | InSparse sa None =>                                                 (* 79-82 *)
      Some (let* scan' := as_pair (rev (sp_scan sa)) in
            let* frame' := as_pair (sp_frame sa) in
            createSTEMImagesSparse (sp_data sa) inner outer scan' frame' center)
  | InCounted ev scan' frame' =>                                        (* 83-91 *)
      Some (createSTEMImagesSparse (as_frames ev) inner outer scan' frame' center)
  | InEvents ev =>
      match frame with
      | Some frame' =>                                                  (* 94-101 *)
          Some (createSTEMImagesSparse (newaxis ev) inner outer scan frame' center)
      | None => Some (Throw "not raw data")
      end
  | InRaw a =>
      match frame with
      | Some frame' =>                                                  (* 94-101 *)
          Some (createSTEMImagesSparse (nd_lists a) inner outer scan frame' center)
      | None =>                                                         (* 102-117 *)
        if (fst scan =? 0) && (snd scan =? 0)
        then Some (Throw "scan_dimensions must be provided for np.ndarray raw data input")
        else
          let n := nd_count a in
          dense (let* r := new_pyreader a (zseq n) scan 32 n in py_blocks r)
      end
  | InOther => Some (Throw "Type of input is not known to stempy.image.create_stem_images()")
  end.

(** electron_count's last lines, 329-352: the array and the C++ object. *)
Definition counted_array (c : counted) : outcome stem_source :=
  let* sa := wrap_counted (cd_data c) (cd_scan c) (cd_frame c) in
  Ok (InSparse sa (Some c)).

(** In-place operations on a SparseArray: sparse_array.py bin_scans and
    bin_frames with in_place=True (596-600, 693-697), reshape (367-368).  They
    assign data, scan_shape and frame_shape and nothing else. *)
Inductive in_place := IBinScans (f : Z) | IBinFrames (f : Z) | IReshape (shape : list Z).

Definition in_place_op (o : in_place) (sa : sparse) : outcome sparse :=
  match o with
  | IBinScans f => bin_scans sa f
  | IBinFrames f => bin_frames sa f
  | IReshape s => reshape sa s
  end.

Definition do_in_place (o : in_place) (i : stem_source) : outcome stem_source :=
  match i with
  | InSparse sa cxx => let* sa' := in_place_op o sa in Ok (InSparse sa' cxx)
  | _ => Throw "AttributeError"
  end.
