(** What C73 says about an exported file. *)
From Coq Require Import String ZArith List Bool.
From Verif Require Import Base H5Model H5LibModel H5DataSpec.
Import ListNotations.
Open Scope Z_scope.

(** Where the data set of a format is, its dimensions (a scan of [sw] columns and
    [sh] rows of frames with [n] * [n] pixels), and where the pixel in row [y] and
    column [x] of the frame of scan position [p] is in it. *)
Definition set_path (fmt : h5_format) : path :=
  match fmt with Frame => ["frames"]%string | DataCube => ["datacube"]%string end.
Definition set_dims (fmt : h5_format) (sw sh n : Z) : list Z :=
  match fmt with Frame => [sw * sh; n; n] | DataCube => [sw; sh; n; n] end.
Definition pixel_index (fmt : h5_format) (sw p y x : Z) : list Z :=
  match fmt with Frame => [p; y; x] | DataCube => [p mod sw; p / sw; y; x] end.

(** The value of pixel [k] of the frame that was given last for position [p], zero
    if there is none; a frame is a position and its pixels. *)
Definition last_given (frames : list (Z * list Z)) (p k : Z) : Z :=
  match find (fun f => fst f =? p) (rev frames) with
  | Some f => nth (Z.to_nat k) (snd f) 0
  | None => 0
  end.

(** The file has the data set, and it holds these frames. *)
Definition file_holds (fmt : h5_format) (sw sh n : Z) (frames : list (Z * list Z)) (s : world) : Prop :=
  exists v, data_at s (set_path fmt) = Some (TU16, set_dims fmt sw sh n, v) /\ Zlen v = prodZ (set_dims fmt sw sh n) /\
    forall p y x, 0 <= p < sw * sh -> 0 <= y < n -> 0 <= x < n ->
      at_index (set_dims fmt sw sh n) v (pixel_index fmt sw p y x) = ENum (last_given frames p (y * n + x)).

Definition in_scan (sw sh : Z) (f : Z * list Z) : Prop := 0 <= fst f < sw * sh.

(** What belongs to the frame format besides the frames. *)
Definition extras (sw sh : Z) (s : world) : Prop :=
  attr_at s ["frames"]%string "scan_dimensions" = Some (mkAttr "scan_dimensions" TI32 [ENum sw; ENum sh]) /\
  is_group (w_tree s) ["stem"]%string = true /\
  data_at s ["stem"; "images"]%string = Some (TU64, [0; sh; sw], []).
