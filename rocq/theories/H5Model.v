(** Model of SectorStreamReader::toHdf5 (stempy/reader.cpp:634-746) and of the
    part of h5cpp it uses (h5cpp/h5readwrite.cpp:197-300). *)
From Coq Require Import String ZArith List Bool.
From Verif Require Import Base BlockModel StreamModel SectorModel.
Import ListNotations.
Open Scope Z_scope.

(** An HDF5 data set of unsigned 16-bit values: dimensions and contents in row
    major order, zero (HDF5's default fill value) where nothing was written.
    Chunking does not change the contents. *)
Record h5ds := mkDS { ds_dims : list Z; ds_data : list Z }.

Definition prod (l : list Z) : Z := fold_right Z.mul 1 l.

Fixpoint flat_index (dims idx : list Z) : Z :=
  match dims, idx with
  | _ :: ds, i :: is => i * prod ds + flat_index ds is
  | _, _ => 0
  end.

Fixpoint unflat (dims : list Z) (k : Z) : list Z :=
  match dims with
  | [] => []
  | _ :: ds => k / prod ds :: unflat ds (k mod prod ds)
  end.

Fixpoint zip_add (a b : list Z) : list Z :=
  match a, b with x :: a', y :: b' => x + y :: zip_add a' b' | _, _ => [] end.

(** createDataSet, h5readwrite.cpp:197-233. *)
Definition h5_create (dims : list Z) : h5ds := mkDS dims (repeat 0 (Z.to_nat (prod dims))).

Fixpoint box_inside (dims start counts : list Z) : bool :=
  match dims, start, counts with
  | d :: ds, s :: ss, c :: cs => (s + c <=? d) && box_inside ds ss cs
  | _, _, _ => true
  end.

(** updateData, h5readwrite.cpp:235-300: writing [prod counts] values, read from
    [data] at [offset] on, to the box at [start].  H5Dwrite fails if the box is
    not inside the data set; the function then returns false (here [None]). *)
Definition h5_update (ds : h5ds) (data : list Z) (offset : Z) (start counts : list Z)
  : outcome (option h5ds) :=
  if box_inside (ds_dims ds) start counts then
    let* d := for_loop (prod counts) (fun k d =>
      let* v := rd data (offset + k) in
      wr d (flat_index (ds_dims ds) (zip_add start (unflat counts k))) v) (ds_data ds) in
    Ok (Some (mkDS (ds_dims ds) d))
  else Ok None.

(** Product of two ints. *)
Definition mul_i32 (a b : Z) : outcome Z :=
  if (a * b <? 2 ^ 31) then Ok (a * b) else UB "signed integer overflow".

(** One block of toHdf5FrameFormat, :640-688.  The attribute and the empty
    "/stem/images" data set are left out. *)
Definition h5_frame_block (g : geom) (st : option h5ds) (b : block) : outcome (option h5ds) :=
  let* ds := match st with
             | Some ds => Ok ds
             | None =>
                 let* n := mul_i32 (i32_of_u32 (fst (scan_dims (hdr b))))
                                   (i32_of_u32 (snd (scan_dims (hdr b)))) in
                 Ok (h5_create [n; g_w g; g_w g])
             end in
  let* d := block_data b in
  let* ds := for_loop (images_in_block (hdr b)) (fun i ds =>
    let* pos := rd (image_numbers (hdr b)) i in
    let offset := u32 (u32 (i * g_w g) * g_h g) in
    let* r := h5_update ds d offset [pos; 0; 0]
                        [1; snd (frame_dims (hdr b)); fst (frame_dims (hdr b))] in
    match r with
    | Some ds' => Ok ds'
    | None => Throw "Unable to update HDF5."
    end) ds in
  Ok (Some ds).

(** One block of toHdf5DataCubeFormat, :695-733 (imageNumbers[0], :720). *)
Definition h5_cube_block (g : geom) (st : option h5ds) (b : block) : outcome (option h5ds) :=
  let ds := match st with
            | Some ds => ds
            | None => h5_create [i32_of_u32 (fst (scan_dims (hdr b)));
                                 i32_of_u32 (snd (scan_dims (hdr b))); g_w g; g_w g]
            end in
  let* d := block_data b in
  let* ds := for_loop (images_in_block (hdr b)) (fun i ds =>
    let* pos := rd (image_numbers (hdr b)) 0 in
    let offset := u32 (u32 (i * g_w g) * g_h g) in
    if fst (scan_dims (hdr b)) =? 0 then UB "division by zero" else
    let x := pos mod fst (scan_dims (hdr b)) in
    let y := pos / fst (scan_dims (hdr b)) in
    let* r := h5_update ds d offset [x; y; 0; 0]
                        [1; 1; snd (frame_dims (hdr b)); fst (frame_dims (hdr b))] in
    match r with
    | Some ds' => Ok ds'
    | None => Throw "Unable to update HDF5."
    end) ds in
  Ok (Some ds).

Inductive h5_format := Frame | DataCube.

(** The loop over the blocks; nothing is created if there is no block. *)
Definition h5_export (g : geom) (fmt : h5_format) (bs : list block) : outcome (option h5ds) :=
  for_each bs (fun b st => match fmt with
                           | Frame => h5_frame_block g st b
                           | DataCube => h5_cube_block g st b
                           end) None.

(** The blocks visited by [for (iter = begin(); iter != end(); ++iter)],
    reader.h:90-148. *)
Fixpoint sector_iterate (g : geom) (fuel : nat) (s : ssr) : outcome (list block) :=
  match fuel with
  | O => OutOfFuel
  | S f =>
      let '(r, s1) := sector_read g s in
      let* b := r in
      match data b with
      | None => Ok []
      | Some _ => let* bs := sector_iterate g f s1 in Ok (b :: bs)
      end
  end.

(** toHdf5, :735-746: reads and writes alternate in the code; a read does not
    depend on what is written, so they are separated here. *)
Definition to_hdf5 (g : geom) (fmt : h5_format) (fuel : nat) (s : ssr) : outcome (option h5ds) :=
  let* bs := sector_iterate g fuel s in h5_export g fmt bs.

(** Element of a data set. *)
Definition h5_at (ds : h5ds) (idx : list Z) : Z := zat (ds_data ds) (flat_index (ds_dims ds) idx).
