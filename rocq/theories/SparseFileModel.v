(** Model of the electron count files of the Python package: conversion of the
    old formats (python/stempy/io/compatibility.py) and writing and reading of
    HDF5 files (python/stempy/io/sparse_array.py 174-282, 1079-1097).

    An HDF5 file is the record of what the functions below store in it; h5py
    itself is trusted to return what was stored. *)
From Coq Require Import String ZArith List Bool.
From Verif Require Import Base SparseModel.
Import ListNotations.
Open Scope Z_scope.

(** * compatibility.py *)

(** [is_data_v1_format], 97-105. *)
Definition is_data_v1_format (data : list (list Z)) (scan_shape : list Z) : bool :=
  if np_prod scan_shape <? Zlen data then false
  else existsb (fun x => negb (Zlen (np_unique_counts x) =? Zlen x)) data.

(** [convert_data_v1_to_v2], 27-63.  The scan positions are replaced by
    arange(len(data)), line 35. *)
Definition convert_data_v1_to_v2 (data : list (list Z)) (scan_positions scan_shape : list Z)
  : outcome (list (list Z) * list Z) :=
  if negb (is_data_v1_format data scan_shape) then Ok (data, scan_positions) else
  let scan_positions := zseq (Zlen data) in
  let* (ret, (extra_rows, extra_scan_positions)) := split_duplicates data scan_positions in
  match extra_rows with
  | [] => Ok (ret, scan_positions)
  | _ => Ok (ret ++ extra_rows, scan_positions ++ extra_scan_positions)
  end.

(** [convert_data_v2_to_v3], 72-94: the rows of the new data and their length. *)
Definition convert_data_v2_to_v3 (data : list (list Z)) (scan_positions scan_shape : list Z)
  : outcome (list (list (list Z)) * Z) :=
  let num_scans := np_prod scan_shape in
  let* frames_per_scan := np_max (map snd (np_unique_counts scan_positions)) in
  let* rows := place num_scans frames_per_scan data scan_positions in
  Ok (rows, frames_per_scan).

(** [convert_data_v1_to_v3], 66-69. *)
Definition convert_data_v1_to_v3 (data : list (list Z)) (scan_positions scan_shape : list Z)
  : outcome (list (list (list Z)) * Z) :=
  let* (data, scan_positions) := convert_data_v1_to_v2 data scan_positions scan_shape in
  convert_data_v2_to_v3 data scan_positions scan_shape.

(** Electron data as the functions pass it around: flat with scan positions
    (versions 1 and 2) or one row per scan position (version 3). *)
Inductive edata :=
| Flat (data : list (list Z)) (positions : list Z)
| Rows (rows : list (list (list Z))) (F : Z).

Definition not_implemented {A} : outcome A := Throw "NotImplementedError".
Definition type_error {A} : outcome A := Throw "TypeError".

(** [convert_data_format], 4-25.  (Flat data presented as version 3, or rows
    presented as an older version, do not occur in the callers.) *)
Definition convert_data_format (d : edata) (scan_shape : list Z) (from_version to_version : Z)
  : outcome edata :=
  if from_version =? to_version then Ok d else
  match d with
  | Flat data positions =>
      if (from_version =? 1) && (to_version =? 2) then
        let* (a, b) := convert_data_v1_to_v2 data positions scan_shape in Ok (Flat a b)
      else if (from_version =? 1) && (to_version =? 3) then
        let* (a, b) := convert_data_v1_to_v3 data positions scan_shape in Ok (Rows a b)
      else if (from_version =? 2) && (to_version =? 3) then
        let* (a, b) := convert_data_v2_to_v3 data positions scan_shape in Ok (Rows a b)
      else not_implemented
  | Rows _ _ => not_implemented
  end.

(** * Metadata: nested dictionaries, sparse_array.py 1079-1097.
    Keys are names without '/', values are opaque. *)
Inductive meta := MLeaf (v : Z) | MDict (l : list (Z * meta)).
Inductive h5group := Group (attrs : list (Z * Z)) (subs : list (Z * h5group)).

(** Dictionaries, attributes and links: set a key, in place if it exists. *)
Fixpoint assoc {A} (k : Z) (l : list (Z * A)) : option A :=
  match l with
  | [] => None
  | (k', v) :: t => if k =? k' then Some v else assoc k t
  end.
Fixpoint assoc_set {A} (k : Z) (v : A) (l : list (Z * A)) : list (Z * A) :=
  match l with
  | [] => [(k, v)]
  | (k', v') :: t => if k =? k' then (k, v) :: t else (k', v') :: assoc_set k v t
  end.

Definition require_group (g : h5group) (k : Z) : h5group :=
  match g with
  | Group _ subs => match assoc k subs with Some s => s | None => Group [] [] end
  end.

(** [save_dict_to_h5], 1079-1085. *)
Fixpoint save_dict (m : meta) (g : h5group) : h5group :=
  match m with
  | MLeaf _ => g
  | MDict l =>
      (fix go (l : list (Z * meta)) (g : h5group) : h5group :=
         match l with
         | [] => g
         | (k, v) :: t =>
             go t
               (match v with
                | MDict _ =>
                    match g with
                    | Group attrs subs =>
                        Group attrs (assoc_set k (save_dict v (require_group g k)) subs)
                    end
                | MLeaf x =>
                    match g with Group attrs subs => Group (assoc_set k x attrs) subs end
                end)
         end) l g
  end.

(** [load_h5_to_dict], 1088-1097, into an empty dictionary. *)
Fixpoint load_dict (g : h5group) : list (Z * meta) :=
  match g with
  | Group attrs subs =>
      let d := fold_left (fun d a => assoc_set (fst a) (MLeaf (snd a)) d) attrs [] in
      (fix go (subs : list (Z * h5group)) (d : list (Z * meta)) : list (Z * meta) :=
         match subs with
         | [] => d
         | (k, s) :: t => go t (assoc_set k (MDict (load_dict s)) d)
         end) subs d
  end.

(** * The HDF5 file *)
Record h5file := mkH5 {
  h_version : option Z;        (* f.attrs['version'] *)
  h_frames : list (list Z);    (* electron_events/frames *)
  h_frame_Nx : Z; h_frame_Ny : Z;
  h_positions : list Z;        (* electron_events/scan_positions *)
  h_scan_Nx : Z; h_scan_Ny : Z;
  h_meta : option h5group }.

(** [write_to_hdf5], 251-282, to a path; [existing] is the electron file
    already there (its data sets cannot be created again). *)
Definition write_to_hdf5 (existing : option h5file) (sa : sparse) (metadata : list (Z * meta))
  : outcome h5file :=
  match existing with
  | Some _ => value_error
  | None =>
      match sp_scan sa with
      | s0 :: s1 :: _ =>
          match sp_frame sa with
          | f0 :: f1 :: _ =>
              Ok (mkH5 (Some 3) (map (map u32) (concat (sp_data sa))) f0 f1
                    (zseq (num_scans sa)) s1 s0
                    (Some (save_dict (MDict metadata) (Group [] []))))
          | _ => index_error
          end
      | _ => index_error
      end
  end.

(** [l[a:b]] for 0 <= a <= b. *)
Definition np_slice {A} (l : list A) (a b : Z) : list A :=
  firstn (Z.to_nat (b - a)) (skipn (Z.to_nat a) l).

(** [d[a:b] = src] for 0 <= a <= b, [src] an object array. *)
Definition np_set_slice {A} (d : list A) (a b : Z) (src : list A) : outcome (list A) :=
  let n := Zlen (np_slice d a b) in
  if n =? Zlen src then Ok (firstn (Z.to_nat a) d ++ src ++ skipn (Z.to_nat a + Z.to_nat n) d)
  else match src with
       | [x] => Ok (firstn (Z.to_nat a) d ++ repeat x (Z.to_nat n) ++
                    skipn (Z.to_nat a + Z.to_nat n) d)
       | _ => value_error
       end.

(** 202-213: the frames without those of the last scan column ([None] entries
    of the new object array are shown as empty frames). *)
Definition crop_flyback (frames : list (list Z)) (nx ny : Z) : outcome (list (list Z)) :=
  let num := Zlen frames / (nx * ny) in
  let cols := nx - 1 in
  for_loop ny
    (fun ii d =>
       np_set_slice d (ii * cols * num) ((ii + 1) * cols * num)
         (np_slice frames (ii * cols * num + num * ii) ((ii + 1) * cols * num + num * ii)))
    (repeat [] (Z.to_nat (cols * ny * num))).

(** [data.reshape((P, F))] of the flat object array. *)
Definition reshape_rows (data : list (list Z)) (P F : Z) : outcome (list (list (list Z))) :=
  if P * F =? Zlen data
  then Ok (map (fun p => np_slice data (p * F) ((p + 1) * F)) (zseq P))
  else value_error.

(** [from_hdf5], 174-249, for scans with at least one column and row.  [bits],
    [slicing], [full] are the init_kwargs. *)
Definition from_hdf5 (f : h5file) (keep_flyback : bool) (bits : Z) (slicing full : bool)
  : outcome (sparse * list (Z * meta)) :=
  let version := match h_version f with Some v => v | None => 1 end in
  let* (data, (positions, nx)) :=
    if keep_flyback then Ok (h_frames f, (h_positions f, h_scan_Nx f))
    else
      let* d := crop_flyback (h_frames f) (h_scan_Nx f) (h_scan_Ny f) in
      Ok (d, (zseq ((h_scan_Nx f - 1) * h_scan_Ny f), h_scan_Nx f - 1)) in
  let metadata := match h_meta f with Some g => load_dict g | None => [] end in
  let scan_shape := [h_scan_Ny f; nx] in
  let P := np_prod scan_shape in
  let* d :=
    if 3 <=? version then
      let F := Zlen data / P in
      let* rows := reshape_rows data P F in Ok (Rows rows F)
    else Ok (Flat data positions) in
  let* d := if version =? 3 then Ok d else convert_data_format d scan_shape version 3 in
  match d with
  | Rows rows F =>
      let* sa := sparse_init rows F scan_shape [h_frame_Nx f; h_frame_Ny f] bits slicing full in
      Ok (sa, metadata)
  | Flat _ _ => type_error
  end.
