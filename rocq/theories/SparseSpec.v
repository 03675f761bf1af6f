(** Specification vocabulary for [SparseArray]: what a dense array is and what
    NumPy's reductions, tilings and selections do to it, in terms of sums over
    positions only.  Nothing here refers to how the code computes.

    A dense array of P positions and N pixels is its flat list [D] of P * N
    values; entry (p, j) is [zat D (p * N + j)]. *)
From Coq Require Import ZArith List Bool Lia.
From Verif Require Import Base SparseModel.
Import ListNotations.
Open Scope Z_scope.

(** How often the value [j] occurs in a list. *)
Definition cnt (l : list Z) (j : Z) : Z := Zlen (filter (Z.eqb j) l).

(** Events recorded at pixel [j] over all frames of one scan position. *)
Definition events (frames : list (list Z)) (j : Z) : Z :=
  zsum (map (fun fr => cnt fr j) frames).

(** A shape of one or two non-negative dimensions. *)
Definition shape_ok (s : list Z) : Prop :=
  (exists n, s = [n] /\ 0 <= n) \/ (exists n m, s = [n; m] /\ 0 <= n /\ 0 <= m).

(** A frame: distinct pixels inside the frame. *)
Definition frame_ok (N : Z) (fr : list Z) : Prop :=
  NoDup fr /\ forall x, In x fr -> 0 <= x < N.

(** A sparse array as the counting code makes it. *)
Record wf (sa : sparse) : Prop := {
  wf_scan : shape_ok (sp_scan sa);
  wf_frame : shape_ok (sp_frame sa);
  wf_len : Zlen (sp_data sa) = np_prod (sp_scan sa);
  wf_rows : forall row, In row (sp_data sa) -> Zlen row = sp_F sa;
  wf_F : 0 <= sp_F sa < 2 ^ sp_bits sa;
  wf_bits : 0 <= sp_bits sa;
  wf_frames : forall row fr, In row (sp_data sa) -> In fr row ->
                frame_ok (np_prod (sp_frame sa)) fr }.

(** The frames recorded at scan position [p]. *)
Definition row_at (sa : sparse) (p : Z) : list (list Z) :=
  nth (Z.to_nat p) (sp_data sa) [].

(** NumPy reductions of a dense array over its scan or its frame axes. *)
Definition along_scan (P N : Z) (D : list Z) (j : Z) : list Z :=
  map (fun p => zat D (p * N + j)) (zseq P).
Definition along_frame (P N : Z) (D : list Z) (p : Z) : list Z :=
  map (fun j => zat D (p * N + j)) (zseq N).

Definition is_max (m : Z) (l : list Z) : Prop := In m l /\ forall x, In x l -> x <= m.
Definition is_min (m : Z) (l : list Z) : Prop := In m l /\ forall x, In x l -> m <= x.

(** NumPy's [D[scan_keys + frame_keys]] when the scan part selects the
    positions [sl] and the frame part the pixels [fl] (in C order). *)
Definition outer (N : Z) (D sl fl : list Z) : list Z :=
  flat_map (fun p => map (fun j => zat D (p * N + j)) fl) sl.

(** Sum of the f x f tile (I, J) of a two-dimensional array of width [w]. *)
Definition tile_sum (v : Z -> Z) (w f I J : Z) : Z :=
  zsum (map (fun a => zsum (map (fun b => v ((I * f + a) * w + (J * f + b))) (zseq f))) (zseq f)).

(** No integer array among the keys names an index of its axis twice (a
    negative index counts from the end). *)
Fixpoint no_repeats (shape : list Z) (ks : list key) : Prop :=
  match shape, ks with
  | n :: shape', k :: ks' =>
      match k with KInts l => NoDup (map (fun i => i mod n) l) | _ => True end /\
      no_repeats shape' ks'
  | _, _ => True
  end.
