(** What C71 and C72 say: the calls of the interface, and what identifiers and files have
    to look like. *)
From Coq Require Import String ZArith List Bool.
From Verif Require Import Base H5LibModel H5WrapModel.
Import ListNotations.
Open Scope Z_scope.

(** The open identifiers and their kinds. *)
Definition open_ids (s : world) : list (Z * hkind) := map (fun e => (fst e, hkind_of (snd e))) (w_live s).

(** A state between two calls of the interface: identifiers are distinct and
    positive, the error messages of the library are on, the file identifier of
    the object, if valid, is open. *)
Definition between_calls (s : world) : Prop :=
  NoDup (map fst (open_ids s)) /\ 1 <= w_next s /\
  (forall e, In e (open_ids s) -> 1 <= fst e < w_next s) /\
  m_off s = false /\
  (0 <= m_file s -> lookup s (m_file s) = Some HFile).

(** The interface of H5ReadWrite, h5readwrite.h, as programs without result. *)
Inductive api :=
| Attribute (t : h5type) (p : path) (n : string)
| AttributeString (p : path) (n : string)
| AttributeType (p : path) (n : string)
| HasAttribute (p : path)
| HasAttributeNamed (p : path) (n : string)
| SetAttribute (t : h5type) (p : path) (n : string) (vals : list elem)
| SetAttributeString (p : path) (n : string) (x : string)
| WriteData (t : h5type) (p : path) (n : string) (dims : list Z) (buf : list elem)
| CreateDataSet (t : h5type) (p : path) (n : string) (dims chunk : list Z)
| UpdateData (p : path) (dims : list Z) (buf : list elem) (start counts : option (list Z))
| ReadData (t : h5type) (p : path) (room : Z) (strides start counts : option (list Z))
| ReadVector (t : h5type) (p : path)
| ReadFlat (t : h5type) (p : path)
| GetDimensions (p : path)
| DimensionCount (p : path)
| DataTypeOf (p : path)
| Children (p : path)
| AllDataSets (p : path)
| CreateGroup (p : path)
| IsDataSet (p : path)
| IsGroup (p : path).

Definition drop {A} (m : prog A) : prog unit := do _ <- m; ret tt.
Definition run_api (c : api) : prog unit :=
  match c with
  | Attribute t p n => drop (attribute t p n)
  | AttributeString p n => drop (attribute_string p n)
  | AttributeType p n => drop (attribute_type p n)
  | HasAttribute p => drop (has_attribute p)
  | HasAttributeNamed p n => drop (attribute_exists p n)
  | SetAttribute t p n vals => drop (set_attribute t p n vals)
  | SetAttributeString p n x => drop (set_attribute_string p n x)
  | WriteData t p n dims buf => drop (write_data t p n dims buf)
  | CreateDataSet t p n dims chunk => drop (create_data_set t p n dims chunk)
  | UpdateData p dims buf start counts => drop (update_data p dims buf start counts)
  | ReadData t p room strides start counts => drop (read_data t p room strides start counts)
  | ReadVector t p => drop (read_vector t p)
  | ReadFlat t p => drop (read_flat t p)
  | GetDimensions p => drop (get_dimensions p)
  | DimensionCount p => drop (dimension_count p)
  | DataTypeOf p => drop (data_type p)
  | Children p => drop (children p)
  | AllDataSets p => drop (all_data_sets p)
  | CreateGroup p => drop (create_group p)
  | IsDataSet p => drop (is_data_set p)
  | IsGroup p => drop (is_group_at p)
  end.
Definition is_string_set (c : api) : bool := match c with SetAttributeString _ _ _ => true | _ => false end.

(** A program of the user: a file is opened or created, the interface is called,
    the object is destroyed. *)
Fixpoint run_all (l : list api) : prog unit :=
  match l with [] => ret tt | c :: l' => do _ <- run_api c; run_all l' end.
Definition session (read_only can : bool) (l : list api) : prog unit :=
  do _ <- open_file read_only can; do _ <- run_all l; clear.

(** A state of the library in which nothing is open. *)
Definition nothing_open (t : tree) (fault : Z -> bool) : world := mkW t false [] 1 0 fault 1 (-1) false 0.

(** Errors of the program in handling identifiers. *)
Definition closes_wrongly {A} (r : outcome A) : Prop :=
  r = UB "identifier closed that is not open" \/ r = UB "identifier of another kind closed".
