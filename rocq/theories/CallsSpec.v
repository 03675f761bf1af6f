(** The same program with a dense array: what each call does to its values. *)
From Coq Require Import ZArith List Bool.
From Verif Require Float32.
From Verif Require Import Base SparseModel SparseSpec CallsModel.
Import ListNotations.
Open Scope Z_scope.

(** A dense array: the two parts of its shape and its values in C order; and the two
    settings of the sparse one. *)
Record dense := mkDense { d_scan : list Z; d_frame : list Z; d_vals : list Z; d_slicing : bool; d_full : bool }.

Definition divides (f : Z) (l : list Z) : bool := (0 <? f) && forallb (fun x => x mod f =? 0) l.

(** The keys for the scan and for the frame. *)
Definition split_keys (scan frame : list Z) (ks : list key) : outcome (list key * list key) :=
  split_slices (mkSparse [] 0 scan frame 0 false false) ks.

(** Value [k] of the binned arrays: the sum of a tile of f x f scan positions, or of
    f x f pixels. *)
Definition scan_tile (N W f : Z) (D : list Z) (k : Z) : Z :=
  tile_sum (fun p => zat D (p * N + k mod N)) W f (k / N / (W / f)) ((k / N) mod (W / f)).
Definition frame_tile (N N' W f : Z) (D : list Z) (k : Z) : Z :=
  tile_sum (fun j => zat D (k / N' * N + j)) W f (k mod N' / (W / f)) ((k mod N') mod (W / f)).

Definition dense_reshape (d : dense) (shape : list Z) : dense :=
  let n := Zlen shape in
  let scan := firstn (Z.to_nat (n - 2)) shape in
  let frame := skipn (Z.to_nat (n - 2)) shape in
  if ((n =? 3) || (n =? 4)) && (np_prod scan =? np_prod (d_scan d)) && (np_prod frame =? np_prod (d_frame d))
  then mkDense scan frame (d_vals d) (d_slicing d) (d_full d) else d.

Definition dense_op (d : dense) (o : op) : dense :=
  match o with
  | OReshape shape => dense_reshape d shape
  | ORavel => dense_reshape d (np_prod (d_scan d) :: d_frame d)
  | OBinScans f =>
      match d_scan d with
      | [H; W] =>
          if divides f [H; W] then
            mkDense [H / f; W / f] (d_frame d)
              (map (scan_tile (np_prod (d_frame d)) W f (d_vals d)) (zseq (H / f * (W / f) * np_prod (d_frame d))))
              (d_slicing d) (d_full d)
          else d
      | _ => d
      end
  | OBinFrames f =>
      match d_frame d with
      | [H; W] =>
          if divides f [H; W] then
            mkDense (d_scan d) [H / f; W / f]
              (map (frame_tile (H * W) (H / f * (W / f)) W f (d_vals d)) (zseq (np_prod (d_scan d) * (H / f * (W / f)))))
              (d_slicing d) (d_full d)
          else d
      | _ => d
      end
  | OSelect ks =>
      if d_slicing d then
        match split_keys (d_scan d) (d_frame d) ks with
        | Ok (sk, fk) =>
            match np_select (d_scan d) sk, np_select (d_frame d) fk with
            | Ok (x :: ss, sl), Ok (y :: fs, fl) =>
                mkDense (x :: ss) (y :: fs) (outer (np_prod (d_frame d)) (d_vals d) sl fl) (d_slicing d) (d_full d)
            | _, _ => d
            end
        | _ => d
        end
      else d
  | OSlicing b => mkDense (d_scan d) (d_frame d) (d_vals d) b (d_full d)
  | OFull b => mkDense (d_scan d) (d_frame d) (d_vals d) (d_slicing d) b
  | ORead _ => d
  end.
Definition run_dense (d : dense) (ops : list op) : dense := fold_left dense_op ops d.

(** The sparse array holds these dense values and settings. *)
Definition holds (sa : sparse) (d : dense) : Prop :=
  wf sa /\ sp_scan sa = d_scan d /\ sp_frame sa = d_frame d /\ sp_slicing sa = d_slicing d /\ sp_full sa = d_full d /\
  to_dense sa = Ok (Dense (d_scan d ++ d_frame d) (d_vals d)).

(** Calls with which the code can be trusted: no negative dimensions; frames to be
    binned are square and not empty; no pixel is selected twice, and there are not more
    keys than dimensions; and the number of frames of a position stays below the range
    of the type. *)
Definition sound_call (sa : sparse) (o : op) : Prop :=
  match o with
  | OReshape shape => forall x, In x shape -> 0 <= x
  | OBinScans f => f * f * sp_F sa < 2 ^ sp_bits sa
  | OBinFrames f => (exists m, 0 < m /\ sp_frame sa = [m; m]) /\
      forall sa', bin_frames sa f = Ok sa' -> sp_F sa' < 2 ^ sp_bits sa
  | OSelect ks => forall sk fk, split_slices sa ks = Ok (sk, fk) ->
      Zlen fk <= Zlen (sp_frame sa) /\ forall fs fl, np_select (sp_frame sa) fk = Ok (fs, fl) -> NoDup fl
  | _ => True
  end.
Fixpoint sound_history (order : list Float32.float32 -> Float32.float32) (sa : sparse) (ops : list op) : Prop :=
  match ops with
  | [] => True
  | o :: t => sound_call sa o /\ sound_history order (do_op order sa o) t
  end.
