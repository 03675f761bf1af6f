(** Opening a scan with reader() and going through it with a for loop in Python
    (python/stempy/io/__init__.py:24-60, 177-211, python/io.cpp:67-133). *)
From Coq Require Import String Ascii ZArith List Bool.
From Verif Require Import Base BlockModel StreamModel SectorModel PyModel StemPyModel
  ScanPathModel NameModel.
Import ListNotations.
Open Scope Z_scope.

(** Which files can be opened, and their bytes. *)
Definition file_system := text -> option bytes.

(** The argument path: a string, a list of strings (pybind chooses the second
    constructor), or an open h5py file. *)
Inductive path_arg := OneFile (name : text) | ManyFiles (names : list text) | RawFile (f : h5file).

Definition path_names (p : path_arg) : list text :=
  match p with OneFile n => [n] | ManyFiles l => l | RawFile _ => [] end.

(** SectorStreamReader::openFiles, reader.cpp:531-555, without MPI: the first file
    that cannot be opened or has no valid number ends it. *)
Fixpoint open_files (fs : file_system) (names : list text) : outcome (list (Z * bytes)) :=
  match names with
  | [] => Ok []
  | n :: t =>
      match fs n with
      | None => Throw "Unable to open file"
      | Some b => let* k := extract_sector n in
                  let* r := open_files fs t in Ok ((k, b) :: r)
      end
  end.

(** The constructor of SectorStreamReader, reader.cpp:291-316: the version is
    checked first, then the number of files, then they are opened. *)
Definition new_sector_reader (fs : file_system) (names : list text) (v : Z) : outcome ssr :=
  if negb ((v =? 4) || (v =? 5)) then Throw "Unsupported version"
  else match names with
       | [] => Throw "No files provided to SectorStreamReader!"
       | _ => let* files := open_files fs names in sector_reader files v
       end.

(** The Python objects, io/__init__.py:50-65: Reader, SectorReader, PyReader,
    SectorThreadedReader and SectorThreadedMultiPassReader.  The last two keep
    the base class and the number of threads. *)
Inductive reader_obj :=
| RStream (s : sr)
| RSector (s : ssr)
| RPy (r : pyreader)
| RThreaded (s : ssr) (threads : Z)
| RMultiPass (s : ssr) (threads : Z).

(** pybind's conversions to uint8_t (version) and int (threads). *)
Definition is_u8b (z : Z) : bool := (0 <=? z) && (z <? 256).
Definition is_i32b (z : Z) : bool := (- 2 ^ 31 <=? z) && (z <? 2 ^ 31).

(** The keyword options of the two threaded readers, python/io.cpp:119-129: only
    "threads", 0 if not given.  (Simplification: the values are integers, and a
    keyword is given at most once, as in Python.) *)
Fixpoint threads_option (options : list (text * Z)) : outcome Z :=
  match options with
  | [] => Ok 0
  | (k, n) :: t =>
      if text_eqb k (lit "threads") && is_i32b n
      then let* _ := threads_option t in Ok n
      else Throw "TypeError: incompatible constructor arguments"
  end.

(** reader, io/__init__.py:177-211. *)
Definition py_reader (fs : file_system) (path : path_arg) (version : Z)
    (backend : option text) (options : list (text * Z)) : outcome reader_obj :=
  match path with
  | RawFile f => let* r := get_hdf5_reader f in Ok (RPy r)                  (* :193 *)
  | _ =>
    let names := path_names path in
    if (version =? 4) || (version =? 5) then                                (* :194 *)
      match backend with
      | Some b =>
          if text_eqb b (lit "thread") then                                 (* :195 *)
            let* n := threads_option options in
            let* s := new_sector_reader fs names version in
            Ok (RThreaded s n)
          else if text_eqb b (lit "multi-pass") then                        (* :197 *)
            if negb (version =? 5) then
              Throw "The multi pass threaded reader only support file verison 5"
            else
              let* n := threads_option options in
              let* s := new_sector_reader fs names 5 in
              Ok (RMultiPass s n)
          else Throw "ValueError: Unrecongnized backend"                    (* :206 *)
      | None => let* s := new_sector_reader fs names version in Ok (RSector s)  (* :203 *)
      end
    else if is_u8b version then                                             (* :208 *)
      let* s := stream_reader (map fs names) version in Ok (RStream s)
    else Throw "TypeError: incompatible constructor arguments"
  end.

Definition no_attribute : string := "AttributeError: 'super' object has no attribute 'read'".

(** The method read of the C++ base class, python/io.cpp:71, 84, 97: the classes
    _threaded_reader and _threaded_multi_pass_reader, python/io.cpp:119-133, bind
    none and have no base class in Python. *)
Definition base_read (g : geom) (r : reader_obj) : outcome block * reader_obj :=
  match r with
  | RStream s => let '(b, s') := read_block s in (b, RStream s')
  | RSector s => let '(b, s') := sector_read g s in (b, RSector s')
  | RPy p => match py_read p with
             | Ok (b, p') => (Ok b, RPy p')
             | Throw m => (Throw m, r)
             | UB m => (UB m, r)
             | OutOfFuel => (OutOfFuel, r)
             end
  | RThreaded _ _ | RMultiPass _ _ => (Throw no_attribute, r)
  end.

(** The method reset, python/io.cpp:72, 85, 98. *)
Definition base_reset (r : reader_obj) : outcome reader_obj :=
  match r with
  | RStream s => Ok (RStream (reset s))
  | RSector s => Ok (RSector (sector_reset s))
  | RPy p => Ok (RPy (py_reset p))
  | RThreaded _ _ | RMultiPass _ _ => Throw "AttributeError: no attribute 'reset'"
  end.

(** ReaderMixin.read, io/__init__.py:34-48: None at the end of the data.  (The
    pixels of the block are a view of it, C31.) *)
Definition mixin_read (g : geom) (r : reader_obj) : outcome (option block) * reader_obj :=
  match base_read g r with
  | (Ok b, r') => (Ok (if version (hdr b) =? 0 then None else Some b), r')
  | (Throw m, r') => (Throw m, r')
  | (UB m, r') => (UB m, r')
  | (OutOfFuel, r') => (OutOfFuel, r')
  end.

(** A for loop over the reader, io/__init__.py:25-32: the blocks its body sees,
    how it ends, and the reader afterwards. *)
Fixpoint py_for (g : geom) (fuel : nat) (r : reader_obj)
  : list block * outcome unit * reader_obj :=
  match fuel with
  | O => ([], OutOfFuel, r)
  | S f =>
      match mixin_read g r with
      | (Ok (Some b), r1) => let '(bs, e, r2) := py_for g f r1 in (b :: bs, e, r2)
      | (Ok None, r1) => ([], Ok tt, r1)
      | (Throw m, r1) => ([], Throw m, r1)
      | (UB m, r1) => ([], UB m, r1)
      | (OutOfFuel, r1) => ([], OutOfFuel, r1)
      end
  end.

(** Any other use of a reader before the loop: calls of read() and reset(); an
    exception of either is caught. *)
Fixpoint py_use (g : geom) (calls : list sr_op) (r : reader_obj) : reader_obj :=
  match calls with
  | [] => r
  | OpRead :: t => py_use g t (snd (mixin_read g r))
  | OpReset :: t => py_use g t (match base_reset r with Ok r' => r' | _ => r end)
  end.
