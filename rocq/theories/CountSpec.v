(** What "each frame is counted exactly once, at its own position" means. *)
From Coq Require Import ZArith List Bool Permutation.
From Verif Require Import Base BlockModel.
Import ListNotations.
Open Scope Z_scope.

(** A delivered frame: its scan position, its dimensions and its pixels. *)
Definition delivered_frame : Type := Z * ((Z * Z) * list Z).

(** The i-th image stored in a buffer of w x h images. *)
Definition image (d : list Z) (w h i : Z) : list Z :=
  firstn (Z.to_nat (w * h)) (skipn (Z.to_nat (i * (w * h))) d).

(** A block whose buffer holds one w x h image per image number. *)
Record block_ok (b : block) : Prop := {
  bk_dims : 0 <= fst (frame_dims (hdr b)) /\ 0 <= snd (frame_dims (hdr b));
  bk_images : images_in_block (hdr b) = Zlen (image_numbers (hdr b));
  bk_data : exists d, data b = Some d /\
    Zlen (image_numbers (hdr b)) * (fst (frame_dims (hdr b)) * snd (frame_dims (hdr b))) <= Zlen d /\
    Zlen (image_numbers (hdr b)) * (fst (frame_dims (hdr b)) * snd (frame_dims (hdr b))) < 2 ^ 32 /\
    Zlen (image_numbers (hdr b)) * fst (frame_dims (hdr b)) < 2 ^ 32
}.

(** The frames of a block, of a delivery, and of one position. *)
Definition frames_of (b : block) : list delivered_frame :=
  match data b with
  | None => []
  | Some d =>
    map (fun i => (zat (image_numbers (hdr b)) i,
                   (frame_dims (hdr b),
                    image d (fst (frame_dims (hdr b))) (snd (frame_dims (hdr b))) i)))
        (zseq (Zlen (image_numbers (hdr b))))
  end.

Definition frames_at (p : Z) (blocks : list block) : list ((Z * Z) * list Z) :=
  map snd (filter (fun f => fst f =? p) (flat_map frames_of blocks)).

(** First completeness flag of a block is set. *)
Definition is_complete (b : block) : bool :=
  match complete (hdr b) with c :: _ => c | [] => false end.

(** Largest number of frames any position below n has. *)
Definition most_frames (n : Z) (blocks : list block) (m : Z) : Prop :=
  (forall p, 0 <= p < n -> Zlen (frames_at p blocks) <= m) /\
  (m = 0 \/ exists p, 0 <= p < n /\ Zlen (frames_at p blocks) = m).

(** Scan size taken from the option, or from a block when the option is unset. *)
Definition scan_in_effect (scan_opt : Z * Z) (b : block) : Z * Z :=
  if (fst scan_opt =? 0) || (snd scan_opt =? 0) then scan_dims (hdr b) else scan_opt.

(** The events reported per position, for frame results given by [count]:
    there are n positions; all hold the same number m of lists, the largest
    number of frames of any position; position p holds, in some order, exactly
    one list for each frame delivered for p, followed by empty lists only. *)
Definition counted_once (count : (Z * Z) -> list Z -> outcome (list Z))
    (n : Z) (blocks : list block) (r : list (list (list Z))) : Prop :=
  Zlen r = n /\
  (forall f, In f (flat_map frames_of blocks) -> 0 <= fst f < n) /\
  exists m, most_frames n blocks m /\
    forall p, 0 <= p < n ->
      exists evs, nth_error r (Z.to_nat p) =
                    Some (evs ++ repeat [] (Z.to_nat (m - Zlen (frames_at p blocks)))) /\
        Permutation (map Ok evs)
                    (map (fun f => count (fst f) (snd f)) (frames_at p blocks)).

(** Number of blocks with a complete first frame. *)
Definition complete_blocks (blocks : list block) : Z := Zlen (filter is_complete blocks).

(** What a well-formed acquisition for the threaded counter is: every block
    holds its images and a completeness flag, every position is inside the scan
    and occurs once. *)
Record delivery_ok (scan_opt : Z * Z) (npos : Z) (blocks : list block) : Prop := {
  dl_block : forall b, In b blocks -> block_ok b;
  dl_flag : forall b, In b blocks -> complete (hdr b) <> [];
  dl_scan : forall b, In b blocks ->
    fst (scan_in_effect scan_opt b) * snd (scan_in_effect scan_opt b) = npos;
  dl_npos : npos < 2 ^ 32;
  dl_pos : forall f, In f (flat_map frames_of blocks) -> 0 <= fst f < npos;
  dl_distinct : NoDup (map fst (flat_map frames_of blocks))
}.

(** The threshold calculation and the frame counter succeed on this delivery. *)
Definition counting_total {Th} (thresholds_of : list block -> outcome Th)
    (count : Th -> (Z * Z) -> list Z -> outcome (list Z)) (n : Z) (blocks : list block) : Prop :=
  forall samples rest, Permutation blocks (samples ++ rest) -> Zlen samples = n ->
    (forall b, In b samples -> is_complete b = true) ->
    exists t, thresholds_of samples = Ok t /\
      forall f, In f (flat_map frames_of blocks) ->
        exists ev, count t (fst (snd f)) (snd (snd f)) = Ok ev.

(** The last frame of a position, if any. *)
Definition last_frame (p : Z) (blocks : list block) : option ((Z * Z) * list Z) :=
  last (map Some (frames_at p blocks)) None.
