(** What a stream file contains, independently of the reader: the records the
    acquisition software writes, their bytes, and the block each stands for. *)
From Coq Require Import ZArith List.
From Verif Require Import Base BlockModel.
Import ListNotations.
Open Scope Z_scope.

(** [k] bytes of [v], least significant first. *)
Fixpoint le_bytes (k : nat) (v : Z) : list Z :=
  match k with
  | O => []
  | S m => v mod 256 :: le_bytes m (v / 256)
  end.

Inductive record :=
| Rec1 (w h ver stamp : Z) (reserved numbers padding pixels : list Z)
| Rec2 (first_number : Z) (pixels : list Z)
| Rec3 (scan frame scan_w scan_h x y : Z) (pixels : list Z).

Definition rec_version (r : record) : Z :=
  match r with Rec1 _ _ _ _ _ _ _ _ => 1 | Rec2 _ _ => 2
             | Rec3 _ _ _ _ _ _ _ => 3 end.

(** The pieces a record consists of, in order: header part(s), then pixels. *)
Definition pieces (r : record) : list (list Z) :=
  match r with
  | Rec1 w h ver stamp reserved numbers padding px =>
      [ flat_map (le_bytes 4)
          ([Zlen numbers; h; w; ver; stamp] ++ reserved ++ numbers ++ padding);
        flat_map (le_bytes 2) px ]
  | Rec2 first px => [ le_bytes 4 first; flat_map (le_bytes 2) px ]
  | Rec3 scan frame sw sh x y px =>
      [ flat_map (le_bytes 4) [scan; frame];
        flat_map (le_bytes 2) [sw; sh; x; y];
        flat_map (le_bytes 2) px ]
  end.

Definition encode (r : record) : list Z := concat (pieces r).

(** Well-formed records: fields fit their widths, the header of version 1 has
    1024 words, and there are as many pixels as the header announces. *)
Definition wf_record (r : record) : Prop :=
  match r with
  | Rec1 w h ver stamp reserved numbers padding px =>
      0 < w /\ 0 < h /\ 0 < Zlen numbers /\
      w * h * Zlen numbers < 2 ^ 32 /\
      is_u32 w /\ is_u32 h /\ is_u32 ver /\ is_u32 stamp /\
      Zlen reserved = 5 /\ Zlen numbers + Zlen padding = 1014 /\
      Forall is_u32 reserved /\
      Forall (fun k => 1 <= k < 2 ^ 32) numbers /\
      Forall is_u32 padding /\
      Zlen px = w * h * Zlen numbers /\ Forall is_u16 px
  | Rec2 first px =>
      is_u32 first /\ Zlen px = 576 * 576 * 1600 /\ Forall is_u16 px
  | Rec3 scan frame sw sh x y px =>
      is_u32 scan /\ is_u32 frame /\ is_u16 sw /\ is_u16 sh /\
      is_u16 x /\ is_u16 y /\
      Zlen px = 576 * 576 /\ Forall is_u16 px
  end.

(** The block a record stands for: image numbers are one-based in version 1;
    version 2 has none and numbers its 1600 images from 0; in version 3 the
    image number is the position in the scan, row by row. *)
Definition block_of (r : record) : block :=
  match r with
  | Rec1 w h ver stamp _ numbers _ px =>
      mkBlock (mkHeader (0, 0) (w, h) (Zlen numbers) ver stamp 0 0
                        (map (fun k => k - 1) numbers) [])
              (Some px)
  | Rec2 _ px =>
      mkBlock (mkHeader (0, 0) (576, 576) 1600 2 0 0 0 (zseq 1600) [])
              (Some px)
  | Rec3 scan frame sw sh x y px =>
      mkBlock (mkHeader (sw, sh) (576, 576) 1 3 0 frame scan
                        [y * sw + x] [])
              (Some px)
  end.

(** Files, given as the pieces each contains, hold the records [recs]: read
    one after the other, they contain the pieces of the records in order.
    A record may continue in the next file after any of its pieces; files may
    be empty. *)
Definition files_hold (fs : list (list (list Z))) (recs : list record) : Prop :=
  concat fs = flat_map pieces recs.

(** Everything a block returned by read() satisfies, whatever the files. *)
Definition full_block (b : block) : Prop :=
  exists px, data b = Some px /\
    Zlen px = (fst (frame_dims (hdr b)) * snd (frame_dims (hdr b)) *
               images_in_block (hdr b)) mod 2 ^ 32 /\
    Zlen (image_numbers (hdr b)) = images_in_block (hdr b).

(** Files of bytes; [None] is a file that cannot be opened. *)
Definition is_byte (b : Z) : Prop := 0 <= b < 256.

Definition byte_files (fs : list (option (list Z))) : Prop :=
  forall b, In (Some b) fs -> Forall is_byte b.
