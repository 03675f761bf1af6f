(** Headers and blocks (stempy/reader.h:32-88, stempy/reader.cpp:40-53). *)
From Coq Require Import ZArith List String.
From Verif Require Import Base.
Import ListNotations.
Open Scope Z_scope.

(** struct Header, reader.h:49-68.  [complete] is std::vector<bool>. *)
Record header := mkHeader {
  scan_dims : Z * Z;          (* (width, height) *)
  frame_dims : Z * Z;         (* (width, height) *)
  images_in_block : Z;
  version : Z;
  timestamp : Z;
  frame_number : Z;
  scan_number : Z;
  image_numbers : list Z;
  complete : list bool
}.

Definition empty_header : header :=
  mkHeader (0, 0) (0, 0) 0 0 0 0 0 [] [].

(** struct Block, reader.h:70-88: [None] is a null [data] pointer, which the
    iterators use as end-of-data (reader.h:119-125). *)
Record block := mkBlock {
  hdr : header;
  data : option (list Z)
}.

Definition empty_block : block := mkBlock empty_header None.

(** Dereferencing b.data.get(). *)
Definition block_data (b : block) : outcome (list Z) :=
  match data b with
  | Some d => Ok d
  | None => UB "null block data"
  end.
