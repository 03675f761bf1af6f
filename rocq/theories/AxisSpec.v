(** Which axes an argument means, and where SparseArray has a quick way. *)
From Coq Require Import ZArith List Permutation.
From Verif Require Import Base SparseModel AxisModel.
Import ListNotations.
Open Scope Z_scope.

(** The axes meant by the argument: the scan axes come first. *)
Definition axes_meant (sa : sparse) (a : axis_arg) : list Z :=
  match a with
  | AxNone => zseq (Zlen (sp_scan sa) + Zlen (sp_frame sa))
  | AxScan => zseq (Zlen (sp_scan sa))
  | AxFrame => map (fun k => Zlen (sp_scan sa) + k) (zseq (Zlen (sp_frame sa)))
  | AxInt i => [i]
  | AxSeq l => l
  end.

(** All scan axes, or all frame axes, in any order. *)
Definition whole_scan (sa : sparse) (a : axis_arg) : Prop :=
  Permutation (axes_meant sa a) (axes_meant sa AxScan).
Definition whole_frame (sa : sparse) (a : axis_arg) : Prop :=
  Permutation (axes_meant sa a) (axes_meant sa AxFrame).
