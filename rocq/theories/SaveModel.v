(** One HDF5 file and the functions of the Python package that save to it:
    save_raw_data, save_stem_images, save_electron_counts
    (python/stempy/io/__init__.py:212-292, io/sparse_array.py:251-282), step by
    step: each opens the file in mode 'a', and what was stored before an exception
    stays in the file.  h5py itself is trusted. *)
From Coq Require Import String ZArith List Bool.
From Verif Require Import Base PyModel SparseModel SparseFileModel StemPyModel.
Import ListNotations.
Open Scope Z_scope.

(** The objects and attributes of the file that the package knows. *)
Record store := mkStore {
  s_version : option Z;                 (* attribute version of the file *)
  s_pos : option (list Z);              (* electron_events/scan_positions *)
  s_nx : option Z; s_ny : option Z;     (*   its attributes Nx and Ny *)
  s_frames : option (list (list Z));    (* electron_events/frames *)
  s_fx : option Z; s_fy : option Z;     (*   its attributes Nx and Ny *)
  s_meta : option h5group;              (* metadata *)
  s_raw : option ndarray;               (* frames *)
  s_dims : option (Z * Z);              (*   its attribute scan_dimensions *)
  s_rawpos : option (list Z);           (* scan_positions *)
  s_stem : option (Z * Z * Z * list Z); (* stem/images: shape and values *)
  s_names : option (list string)        (*   its attribute names *)
}.

Definition empty_store : store :=
  mkStore None None None None None None None None None None None None None.

(** A step changes the file and may raise. *)
Definition step := store -> store * outcome unit.

Definition andthen (a b : step) : step := fun s =>
  match a s with
  | (s', Ok _) => b s'
  | (s', e) => (s', e)
  end.

Fixpoint steps (l : list step) : step :=
  match l with
  | [] => fun s => (s, Ok tt)
  | a :: t => andthen a (steps t)
  end.

(** Assignments to the parts of the file. *)
Definition set_version v s := mkStore v (s_pos s) (s_nx s) (s_ny s) (s_frames s) (s_fx s) (s_fy s) (s_meta s) (s_raw s) (s_dims s) (s_rawpos s) (s_stem s) (s_names s).
Definition set_pos v s := mkStore (s_version s) v (s_nx s) (s_ny s) (s_frames s) (s_fx s) (s_fy s) (s_meta s) (s_raw s) (s_dims s) (s_rawpos s) (s_stem s) (s_names s).
Definition set_nx v s := mkStore (s_version s) (s_pos s) v (s_ny s) (s_frames s) (s_fx s) (s_fy s) (s_meta s) (s_raw s) (s_dims s) (s_rawpos s) (s_stem s) (s_names s).
Definition set_ny v s := mkStore (s_version s) (s_pos s) (s_nx s) v (s_frames s) (s_fx s) (s_fy s) (s_meta s) (s_raw s) (s_dims s) (s_rawpos s) (s_stem s) (s_names s).
Definition set_frames v s := mkStore (s_version s) (s_pos s) (s_nx s) (s_ny s) v (s_fx s) (s_fy s) (s_meta s) (s_raw s) (s_dims s) (s_rawpos s) (s_stem s) (s_names s).
Definition set_fx v s := mkStore (s_version s) (s_pos s) (s_nx s) (s_ny s) (s_frames s) v (s_fy s) (s_meta s) (s_raw s) (s_dims s) (s_rawpos s) (s_stem s) (s_names s).
Definition set_fy v s := mkStore (s_version s) (s_pos s) (s_nx s) (s_ny s) (s_frames s) (s_fx s) v (s_meta s) (s_raw s) (s_dims s) (s_rawpos s) (s_stem s) (s_names s).
Definition set_meta v s := mkStore (s_version s) (s_pos s) (s_nx s) (s_ny s) (s_frames s) (s_fx s) (s_fy s) v (s_raw s) (s_dims s) (s_rawpos s) (s_stem s) (s_names s).
Definition set_raw v s := mkStore (s_version s) (s_pos s) (s_nx s) (s_ny s) (s_frames s) (s_fx s) (s_fy s) (s_meta s) v (s_dims s) (s_rawpos s) (s_stem s) (s_names s).
Definition set_dims v s := mkStore (s_version s) (s_pos s) (s_nx s) (s_ny s) (s_frames s) (s_fx s) (s_fy s) (s_meta s) (s_raw s) v (s_rawpos s) (s_stem s) (s_names s).
Definition set_rawpos v s := mkStore (s_version s) (s_pos s) (s_nx s) (s_ny s) (s_frames s) (s_fx s) (s_fy s) (s_meta s) (s_raw s) (s_dims s) v (s_stem s) (s_names s).
Definition set_stem v s := mkStore (s_version s) (s_pos s) (s_nx s) (s_ny s) (s_frames s) (s_fx s) (s_fy s) (s_meta s) (s_raw s) (s_dims s) (s_rawpos s) v (s_names s).
Definition set_names v s := mkStore (s_version s) (s_pos s) (s_nx s) (s_ny s) (s_frames s) (s_fx s) (s_fy s) (s_meta s) (s_raw s) (s_dims s) (s_rawpos s) (s_stem s) v.

(** An attribute is set, replacing the old value. *)
Definition attr {A} (set : option A -> store -> store) (v : A) : step :=
  fun s => (set (Some v) s, Ok tt).

(** create_dataset raises ValueError if the name exists. *)
Definition create {A} (get : store -> option A) (set : option A -> store -> store) (v : A) : step :=
  fun s => match get s with
           | Some _ => (s, Throw "ValueError: name already exists")
           | None => (set (Some v) s, Ok tt)
           end.

(** shape[i] of a tuple. *)
Definition shape_attr (set : option Z -> store -> store) (shape : list Z) (i : nat) : step :=
  fun s => match nth_error shape i with
           | Some v => (set (Some v) s, Ok tt)
           | None => (s, Throw "IndexError")
           end.

(** write_to_hdf5, sparse_array.py:251-282, and save_electron_counts,
    io/__init__.py:253-261.  (A data set is created with its values; h5py fills
    electron_events/frames in a second step, :279, that does not fail.) *)
Definition save_counts (sa : sparse) (metadata : list (Z * meta)) : step := steps
  [ attr set_version 3;                                             (* :261 *)
    create s_pos set_pos (zseq (num_scans sa));                     (* :264 *)
    shape_attr set_nx (sp_scan sa) 1;                               (* :266 *)
    shape_attr set_ny (sp_scan sa) 0;
    create s_frames set_frames (map (map u32) (concat (sp_data sa)));  (* :273, :279 *)
    shape_attr set_fx (sp_frame sa) 0;                              (* :276 *)
    shape_attr set_fy (sp_frame sa) 1;
    fun s => (set_meta (Some (save_dict (MDict metadata)
                (match s_meta s with Some g => g | None => Group [] [] end))) s, Ok tt) ].  (* :282 *)

(** save_raw_data, io/__init__.py:239-251 (compression changes the storage
    only). *)
Definition save_raw (a : ndarray) (dims : option (Z * Z)) (positions : option (list Z)) : step := steps
  [ create s_raw set_raw (nd_copy a);                               (* :242, :245 *)
    match dims with Some d => attr set_dims d | None => steps [] end;      (* :248 *)
    match positions with Some l => create s_rawpos set_rawpos l | None => steps [] end ].  (* :251 *)

(** save_stem_images, io/__init__.py:275-292, for images in one array of the given
    shape: len(images) is its first size. *)
Definition save_stem (shape : Z * Z * Z) (values : list Z) (names : list string) : step := fun s =>
  if negb (fst (fst shape) =? Zlen names)
  then (s, Throw "`images` and `names` must be the same length!")   (* :287 *)
  else steps [ create s_stem set_stem (shape, values); attr set_names names ] s.  (* :291 *)

(** A call of one of the three. *)
Inductive save :=
| SaveCounts (sa : sparse) (metadata : list (Z * meta))
| SaveRaw (a : ndarray) (dims : option (Z * Z)) (positions : option (list Z))
| SaveStem (shape : Z * Z * Z) (values : list Z) (names : list string).

Definition do_save (c : save) : step :=
  match c with
  | SaveCounts sa m => save_counts sa m
  | SaveRaw a d p => save_raw a d p
  | SaveStem sh v n => save_stem sh v n
  end.

(** A history of calls; exceptions are caught by the caller. *)
Fixpoint history (cs : list save) (s : store) : store * list (outcome unit) :=
  match cs with
  | [] => (s, [])
  | c :: t => let '(s1, e) := do_save c s in
              let '(s2, es) := history t s1 in (s2, e :: es)
  end.

Definition key_error {A} : outcome A := Throw "KeyError".

(** load_electron_counts, io/__init__.py:263-273: the objects and attributes
    from_hdf5 reads, sparse_array.py:191-195, then the rest of it. *)
Definition load_counts (s : store) (keep_flyback : bool) (bits : Z) (slicing full : bool)
  : outcome (sparse * list (Z * meta)) :=
  match s_frames s, s_pos s, s_nx s, s_ny s, s_fx s, s_fy s with
  | Some fr, Some pos, Some nx, Some ny, Some fx, Some fy =>
      from_hdf5 (SparseFileModel.mkH5 (s_version s) fr fx fy pos nx ny (s_meta s))
        keep_flyback bits slicing full
  | _, _, _, _, _, _ => key_error
  end.

(** The parts get_hdf5_reader reads (StemPyModel.v). *)
Definition raw_file (s : store) : StemPyModel.h5file :=
  StemPyModel.mkH5 (s_raw s) (s_dims s) (s_rawpos s) (option_map fst (s_stem s)).

Definition raw_reader (s : store) : outcome pyreader := get_hdf5_reader (raw_file s).
