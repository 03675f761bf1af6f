(** Model of SectorStreamReader::toHdf5 (stempy/reader.cpp:634-746) as calls of the
    HDF5 wrapper (H5WrapModel.v) over a library whose calls may fail
    (H5LibModel.v).  H5Model.v has the same function over a library that does not
    fail.  Simplifications: the blocks that the iterator delivers are given as a
    list, and whether it throws after them; what the wrapper prints is left out. *)
From Coq Require Import String ZArith List Bool.
From Verif Require Import Base BlockModel StreamModel SectorModel H5Model H5LibModel H5WrapModel.
Import ListNotations.
Open Scope Z_scope.

Definition lift {A} (m : outcome A) : prog A := fun s => let* a := m in Ok (a, s).

(** The first block of toHdf5FrameFormat, :643-671.  The results of createDataSet,
    setAttribute and createGroup are not looked at.  The dimensions. *)
Definition start_frames (g : geom) (b : block) : prog (list Z) :=
  let w := i32_of_u32 (fst (scan_dims (hdr b))) in
  let h := i32_of_u32 (snd (scan_dims (hdr b))) in
  do n <- lift (mul_i32 w h);
  let dims := [n; g_w g; g_w g] in
  do _ <- create_data_set TU16 [] "frames" dims [1; g_w g; g_h g];
  do _ <- set_attribute TI32 ["frames"]%string "scan_dimensions" [ENum w; ENum h];
  do _ <- create_group ["stem"]%string;
  do _ <- create_data_set TU64 ["stem"]%string "images" [0; h; w] [];
  ret dims.

(** The first block of toHdf5DataCubeFormat, :698-712. *)
Definition start_cube (g : geom) (b : block) : prog (list Z) :=
  let dims := [i32_of_u32 (fst (scan_dims (hdr b))); i32_of_u32 (snd (scan_dims (hdr b))); g_w g; g_w g] in
  do _ <- create_data_set TU16 [] "datacube" dims [1; 1; g_w g; g_h g];
  ret dims.

Definition export_path (fmt : h5_format) : path :=
  match fmt with Frame => ["frames"]%string | DataCube => ["datacube"]%string end.

(** The start of the region of one image, :677-679 and :720-725 (imageNumbers[0]). *)
Definition image_start (fmt : h5_format) (b : block) (i : Z) : outcome (list Z) :=
  match fmt with
  | Frame => let* pos := rd (image_numbers (hdr b)) i in Ok [pos; 0; 0]
  | DataCube =>
      let* pos := rd (image_numbers (hdr b)) 0 in
      let w := fst (scan_dims (hdr b)) in
      if w =? 0 then UB "division by zero" else Ok [pos mod w; pos / w; 0; 0]
  end.
Definition image_counts (fmt : h5_format) (b : block) : list Z :=
  let c := [snd (frame_dims (hdr b)); fst (frame_dims (hdr b))] in
  match fmt with Frame => 1 :: c | DataCube => 1 :: 1 :: c end.

(** The images of a block, :673-686 and :714-731; [false]: an exception. *)
Fixpoint write_images (g : geom) (fmt : h5_format) (dims : list Z) (b : block) (i : Z) (n : nat) : prog bool :=
  match n with
  | O => ret true
  | S n' =>
    do st <- lift (image_start fmt b i);
    let offset := u32 (u32 (i * g_w g) * g_h g) in
    do d <- lift (block_data b);
    do ok <- update_data (export_path fmt) dims (map ENum (skipn (Z.to_nat offset) d)) (Some st) (Some (image_counts fmt b));
    if ok then write_images g fmt dims b (i + 1) n' else ret false
  end.

(** The loop over the blocks, :640-688 and :695-733.  [dims] is [None] until the
    first block has come ([created] is false). *)
Fixpoint write_blocks (g : geom) (fmt : h5_format) (dims : option (list Z)) (bs : list block) (reader_throws : bool) : prog bool :=
  match bs with
  | [] => ret (negb reader_throws)
  | b :: bs' =>
    do dims <- (match dims with
                | Some dims => ret dims
                | None => match fmt with Frame => start_frames g b | DataCube => start_cube g b end
                end);
    do ok <- write_images g fmt dims b 0 (Z.to_nat (images_in_block (hdr b)));
    if ok then write_blocks g fmt (Some dims) bs' reader_throws else ret false
  end.

(** toHdf5, :735-746.  The constructor of the writer only warns if the file cannot
    be created; its destructor runs in any case.  [true]: returned, [false]: threw. *)
Definition export_file (g : geom) (fmt : h5_format) (can : bool) (bs : list block) (reader_throws : bool) : prog bool :=
  do _ <- open_file false can;
  do ok <- write_blocks g fmt None bs reader_throws;
  do _ <- clear;
  ret ok.
