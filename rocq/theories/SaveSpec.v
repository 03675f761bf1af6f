(** What a history of saves to one file should leave in it. *)
From Coq Require Import String ZArith List.
From Verif Require Import Base PyModel SparseModel SparseFileModel StemPyModel SaveModel.
Import ListNotations.
Open Scope Z_scope.

(** [c] is the first call of the history with property [P]. *)
Definition first (P : save -> Prop) (cs : list save) (c : save) : Prop :=
  exists before after, cs = before ++ c :: after /\ P c /\ forall x, In x before -> ~ P x.

Definition never (P : save -> Prop) (cs : list save) : Prop := forall x, In x cs -> ~ P x.

Definition is_counts (c : save) : Prop := exists sa m, c = SaveCounts sa m.
Definition is_raw (c : save) : Prop := exists a d p, c = SaveRaw a d p.

(** STEM images with one name for each. *)
Definition is_named_stem (c : save) : Prop :=
  exists n h w v names, c = SaveStem (n, h, w) v names /\ n = Zlen names.

(** Calls whose arguments are in order: counted arrays have scans and frames of two
    dimensions, STEM images as many names as images. *)
Definition in_order (c : save) : Prop :=
  match c with
  | SaveCounts sa _ => (2 <= List.length (sp_scan sa))%nat /\ (2 <= List.length (sp_frame sa))%nat
  | SaveRaw _ _ _ => True
  | SaveStem sh _ names => fst (fst sh) = Zlen names
  end.

(** An earlier call [c'] takes the place of [c] in the file. *)
Definition occupies (c' c : save) : Prop :=
  (is_counts c' /\ is_counts c) \/ (is_raw c' /\ is_raw c) \/ (is_named_stem c' /\ is_named_stem c).
