(** Specification vocabulary for electron count files. *)
From Coq Require Import ZArith List Bool.
From Verif Require Import Base SparseModel SparseSpec SparseFileModel.
Import ListNotations.
Open Scope Z_scope.

(** Events recorded at pixel [k] of scan position [p] in flat data: the sum
    over the rows [i] whose scan position is [p]. *)
Definition recorded (data : list (list Z)) (positions : list Z) (p k : Z) : Z :=
  zsum (map (fun i => if zat positions i =? p then cnt (nth (Z.to_nat i) data []) k else 0)
            (zseq (Zlen data))).

(** A row without repeated events, and rows without them. *)
Definition duplicate_free (data : list (list Z)) : Prop := forall row, In row data -> NoDup row.

(** What a nested dictionary holds at a path of keys: [Some (Some v)] a value,
    [Some None] a dictionary, [None] nothing. *)
Fixpoint look (path : list Z) (m : meta) : option (option Z) :=
  match path, m with
  | [], MLeaf v => Some (Some v)
  | [], MDict _ => Some None
  | k :: path', MDict l => match assoc k l with Some m' => look path' m' | None => None end
  | _ :: _, MLeaf _ => None
  end.

(** The keys of a dictionary are distinct, at every level. *)
Inductive meta_ok : meta -> Prop :=
| ok_leaf v : meta_ok (MLeaf v)
| ok_dict l : NoDup (map fst l) -> (forall k m, In (k, m) l -> meta_ok m) -> meta_ok (MDict l).
