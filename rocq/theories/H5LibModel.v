(** The HDF5 C library as seen by h5cpp: the environment of H5WrapModel.v, not
    code of this repository.  Written from the HDF5 reference manual:
    identifiers are non-negative, a call that fails returns a negative number
    (or no result) and changes nothing, a call with an identifier that is not
    open or of the wrong kind fails.  In addition any call may fail for reasons
    of its own (disk full, out of memory): the oracle [w_fault] decides.
    Simplifications: one file; paths are lists of names; an identifier is never
    reused; closing an open identifier always releases it; sizes of 2^31 and
    more are refused; a little-endian machine, so that the memory types and the
    file types hold the same values; the values of floating-point types are
    their bit patterns. *)
From Coq Require Import String ZArith List Bool.
From Verif Require Import Base.
Import ListNotations.
Open Scope Z_scope.

Definition path := list string.
Definition path_eqb (p q : path) : bool := if list_eq_dec string_dec p q then true else false.

(** The predefined types named in h5cpp/h5typemaps.h, and the two kinds of
    string types. *)
Inductive h5type := TI8 | TI16 | TI32 | TI64 | TU8 | TU16 | TU32 | TU64 | TF32 | TF64 | TVarStr | TFixStr (size : Z).
Definition h5type_dec (a b : h5type) : {a = b} + {a <> b}.
Proof. decide equality; apply Z.eq_dec. Defined.
Definition type_eqb (a b : h5type) : bool := if h5type_dec a b then true else false.

(** Elements: numbers or texts. *)
Inductive elem := ENum (z : Z) | EStr (s : string).
Definition zero_of (t : h5type) : elem :=
  match t with TVarStr | TFixStr _ => EStr "" | _ => ENum 0 end.

Definition prodZ (l : list Z) : Z := fold_right Z.mul 1 l.

(** Objects of a file: a group or a data set, with attributes. *)
Record attr := mkAttr { a_name : string; a_type : h5type; a_vals : list elem }.
Inductive okind := KGroup | KData (t : h5type) (dims : list Z) (vals : list elem).
Record object := mkObj { o_path : path; o_kind : okind; o_attrs : list attr }.
Definition tree := list object.
Definition find_obj (t : tree) (p : path) : option object := find (fun o => path_eqb (o_path o) p) t.
Definition find_attr (o : object) (n : string) : option attr := find (fun a => String.eqb (a_name a) n) (o_attrs o).
Definition is_group (t : tree) (p : path) : bool :=
  match find_obj t p with Some o => match o_kind o with KGroup => true | _ => false end | None => false end.
Definition is_data (t : tree) (p : path) : bool :=
  match find_obj t p with Some o => match o_kind o with KData _ _ _ => true | _ => false end | None => false end.
Definition map_obj (p : path) (f : object -> object) (t : tree) : tree :=
  map (fun o => if path_eqb (o_path o) p then f o else o) t.

(** A selection of a data space: per dimension start, stride and count. *)
Definition slab := list (Z * Z * Z).

(** What an identifier stands for. *)
Inductive hobj :=
| HFile
| HGroup (p : path)
| HData (p : path)
| HSpace (dims : list Z) (sel : option slab)
| HAttr (p : path) (n : string)
| HType (t : h5type)
| HPlist (chunk : option (list Z)).
Inductive hkind := CFile | CGroup | CData | CSpace | CAttr | CType | CPlist.
Definition hkind_of (o : hobj) : hkind :=
  match o with
  | HFile => CFile | HGroup _ => CGroup | HData _ => CData | HSpace _ _ => CSpace
  | HAttr _ _ => CAttr | HType _ => CType | HPlist _ => CPlist
  end.
Definition hkind_dec (a b : hkind) : {a = b} + {a <> b}.
Proof. decide equality. Defined.

(** The state: the file on disk, whether it was opened read-only, the open
    identifiers, the next identifier, the number of calls so far, the oracle
    and the installed error handler; then the members of H5ReadWriteImpl,
    h5readwrite.cpp:546-552. *)
Record world := mkW {
  w_tree : tree;
  w_ro : bool;
  w_live : list (Z * hobj);
  w_next : Z;
  w_clock : Z;
  w_fault : Z -> bool;
  w_handler : Z;
  m_file : Z;
  m_off : bool;
  m_saved : Z }.

Definition set_tree t s := mkW t (w_ro s) (w_live s) (w_next s) (w_clock s) (w_fault s) (w_handler s) (m_file s) (m_off s) (m_saved s).
Definition set_ro r s := mkW (w_tree s) r (w_live s) (w_next s) (w_clock s) (w_fault s) (w_handler s) (m_file s) (m_off s) (m_saved s).
Definition set_live l s := mkW (w_tree s) (w_ro s) l (w_next s) (w_clock s) (w_fault s) (w_handler s) (m_file s) (m_off s) (m_saved s).
Definition set_next n s := mkW (w_tree s) (w_ro s) (w_live s) n (w_clock s) (w_fault s) (w_handler s) (m_file s) (m_off s) (m_saved s).
Definition set_clock c s := mkW (w_tree s) (w_ro s) (w_live s) (w_next s) c (w_fault s) (w_handler s) (m_file s) (m_off s) (m_saved s).
Definition set_handler h s := mkW (w_tree s) (w_ro s) (w_live s) (w_next s) (w_clock s) (w_fault s) h (m_file s) (m_off s) (m_saved s).
Definition set_file f s := mkW (w_tree s) (w_ro s) (w_live s) (w_next s) (w_clock s) (w_fault s) (w_handler s) f (m_off s) (m_saved s).
Definition set_off b s := mkW (w_tree s) (w_ro s) (w_live s) (w_next s) (w_clock s) (w_fault s) (w_handler s) (m_file s) b (m_saved s).
Definition set_saved h s := mkW (w_tree s) (w_ro s) (w_live s) (w_next s) (w_clock s) (w_fault s) (w_handler s) (m_file s) (m_off s) h.

(** Programs that call the library. *)
Definition prog (A : Type) := world -> outcome (A * world).
Definition ret {A} (a : A) : prog A := fun s => Ok (a, s).
Definition pbind {A B} (m : prog A) (k : A -> prog B) : prog B :=
  fun s => let* (a, s1) := m s in k a s1.
Notation "'do' x <- m ; k" := (pbind m (fun x => k))
  (at level 200, x pattern, m at level 100, k at level 200, right associativity).
Definition get : prog world := fun s => Ok (s, s).
Definition modify (f : world -> world) : prog unit := fun s => Ok (tt, f s).
Definition undefined {A} (why : string) : prog A := fun _ => UB why.

Definition lookup (s : world) (id : Z) : option hobj :=
  match find (fun e => fst e =? id) (w_live s) with Some e => Some (snd e) | None => None end.

(** A call whose result is [f] of the state, unless the oracle makes it fail. *)
Definition call {A} (bad : A) (f : world -> A) : prog A := fun s =>
  let s1 := set_clock (w_clock s + 1) s in
  if w_fault s (w_clock s) then Ok (bad, s1) else Ok (f s, s1).

(** A call that returns a new identifier, or a negative number. *)
Definition open_id (f : world -> option hobj) : prog Z := fun s =>
  let s1 := set_clock (w_clock s + 1) s in
  if w_fault s (w_clock s) then Ok (-1, s1) else
  match f s with
  | None => Ok (-1, s1)
  | Some o => Ok (w_next s, set_next (w_next s + 1) (set_live ((w_next s, o) :: w_live s) s1))
  end.

(** A call that changes the state, or fails with a negative number. *)
Definition change (f : world -> option world) : prog Z := fun s =>
  let s1 := set_clock (w_clock s + 1) s in
  if w_fault s (w_clock s) then Ok (-1, s1) else
  match f s1 with None => Ok (-1, s1) | Some s2 => Ok (0, s2) end.

(** H5?close.  To close what is not open is an error of the program. *)
Definition close_id (k : hkind) (id : Z) : prog unit := fun s =>
  match lookup s id with
  | Some o =>
    if hkind_dec (hkind_of o) k
    then Ok (tt, set_live (filter (fun e => negb (fst e =? id)) (w_live s)) (set_clock (w_clock s + 1) s))
    else UB "identifier of another kind closed"
  | None => UB "identifier closed that is not open"
  end.

Definition file_open (s : world) (id : Z) : bool := match lookup s id with Some HFile => true | _ => false end.
Definition guard {A} (b : bool) (x : option A) : option A := if b then x else None.

(** Files. *)
Definition H5Fopen (readable : bool) : prog Z := fun s =>
  open_id (fun _ => guard readable (Some HFile)) (set_ro true s).
Definition H5Fcreate (writable : bool) : prog Z := fun s =>
  let* (id, s1) := open_id (fun _ => guard writable (Some HFile)) s in
  Ok (id, if 0 <=? id then set_ro false (set_tree [mkObj [] KGroup []] s1) else s1).

(** Objects by name.  H5Oget_info_by_name: the kind and the number of attributes. *)
Definition H5Oget_info_by_name (f : Z) (p : path) : prog (option (bool * Z)) :=
  call None (fun s => guard (file_open s f)
    (match find_obj (w_tree s) p with
     | Some o => Some (match o_kind o with KGroup => false | _ => true end, Zlen (o_attrs o))
     | None => None
     end)).
Definition H5Gopen (f : Z) (p : path) : prog Z :=
  open_id (fun s => guard (file_open s f && is_group (w_tree s) p) (Some (HGroup p))).
Definition H5Dopen (f : Z) (p : path) : prog Z :=
  open_id (fun s => guard (file_open s f && is_data (w_tree s) p) (Some (HData p))).

(** H5Gcreate: the parent exists, the group does not. *)
Definition H5Gcreate (f : Z) (p : path) : prog Z := fun s =>
  let* (id, s1) := open_id (fun s => guard (file_open s f && negb (w_ro s) &&
      match p with [] => false | _ => is_group (w_tree s) (removelast p) end &&
      match find_obj (w_tree s) p with Some _ => false | None => true end) (Some (HGroup p))) s in
  Ok (id, if 0 <=? id then set_tree (w_tree s1 ++ [mkObj p KGroup []]) s1 else s1).

(** The names in a group, and the data sets below it with their relative paths. *)
Definition child_name (g p : path) : option string :=
  if path_eqb (removelast p) g then match rev p with n :: _ => Some n | [] => None end else None.
Definition child_names (t : tree) (g : path) : list string :=
  flat_map (fun o => match child_name g (o_path o) with Some n => [n] | None => [] end) t.
Fixpoint below (g p : path) : option path :=
  match g, p with
  | [], _ => Some p
  | a :: g', b :: p' => if String.eqb a b then below g' p' else None
  | _ :: _, [] => None
  end.
Definition data_below (t : tree) (g : path) : list path :=
  flat_map (fun o => match o_kind o with
                     | KData _ _ _ => match below g (o_path o) with Some q => [q] | None => [] end
                     | KGroup => []
                     end) t.
Definition group_of (s : world) (id : Z) : option path :=
  match lookup s id with Some (HGroup p) => Some p | Some HFile => Some [] | _ => None end.
Definition H5Gget_num_objs (g : Z) : prog (option Z) :=
  call None (fun s => match group_of s g with Some p => Some (Zlen (child_names (w_tree s) p)) | None => None end).
Definition H5Gget_objname_by_idx (g i : Z) : prog (option string) :=
  call None (fun s => match group_of s g with Some p => nth_error (child_names (w_tree s) p) (Z.to_nat i) | None => None end).
Definition H5Ovisit (g : Z) : prog (option (list path)) :=
  call None (fun s => match group_of s g with Some p => Some (data_below (w_tree s) p) | None => None end).

(** Attributes. *)
Definition H5Aexists_by_name (f : Z) (p : path) (n : string) : prog Z :=
  call (-1) (fun s => if file_open s f then
    match find_obj (w_tree s) p with
    | Some o => match find_attr o n with Some _ => 1 | None => 0 end
    | None => -1
    end else -1).
Definition attr_at (s : world) (p : path) (n : string) : option attr :=
  match find_obj (w_tree s) p with Some o => find_attr o n | None => None end.
Definition H5Aopen_by_name (f : Z) (p : path) (n : string) : prog Z :=
  open_id (fun s => guard (file_open s f) (match attr_at s p n with Some _ => Some (HAttr p n) | None => None end)).
Definition H5Aget_type (a : Z) : prog Z :=
  open_id (fun s => match lookup s a with
                    | Some (HAttr p n) => match attr_at s p n with Some x => Some (HType (a_type x)) | None => None end
                    | _ => None
                    end).
(** H5Aread delivers all values of the attribute. *)
Definition H5Aread (a : Z) : prog (option (list elem)) :=
  call None (fun s => match lookup s a with
                      | Some (HAttr p n) => match attr_at s p n with Some x => Some (a_vals x) | None => None end
                      | _ => None
                      end).
Definition parent_of (s : world) (id : Z) : option path :=
  match lookup s id with Some (HGroup p) => Some p | Some (HData p) => Some p | _ => None end.
Definition acreate_ok (parent : Z) (n : string) (space : Z) (s : world) : option (path * list Z) :=
  match parent_of s parent, lookup s space with
  | Some p, Some (HSpace dims _) =>
      guard (negb (w_ro s)) (match find_obj (w_tree s) p with
      | Some o => match find_attr o n with None => Some (p, dims) | Some _ => None end
      | None => None
      end)
  | _, _ => None
  end.
Definition acreate_tree (n : string) (t : h5type) (r : option (path * list Z)) (s : world) : world :=
  match r with
  | Some (p, dims) => set_tree (map_obj p (fun o => mkObj (o_path o) (o_kind o)
      (o_attrs o ++ [mkAttr n t (repeat (zero_of t) (Z.to_nat (prodZ dims)))])) (w_tree s)) s
  | None => s
  end.
Definition H5Acreate2 (parent : Z) (n : string) (t : h5type) (space : Z) : prog Z := fun s =>
  let* (id, s1) := open_id (fun s => match acreate_ok parent n space s with Some (p, _) => Some (HAttr p n) | None => None end) s in
  Ok (id, if 0 <=? id then acreate_tree n t (acreate_ok parent n space s) s1 else s1).
(** H5Awrite reads as many values as the attribute has from the buffer, which
    must hold them; a null pointer is refused ([None]). *)
Definition H5Awrite (a : Z) (buf : option (list elem)) : prog Z := fun s =>
  match lookup s a, buf with
  | Some (HAttr p n), Some l =>
      match attr_at s p n with
      | Some x =>
          if Zlen l <? Zlen (a_vals x) then UB "read past the end of the buffer" else
          change (fun s1 => guard (negb (w_ro s1))
            (Some (set_tree (map_obj p (fun o => mkObj (o_path o) (o_kind o)
               (map (fun y => if String.eqb (a_name y) n then mkAttr n (a_type y) (firstn (List.length (a_vals x)) l) else y)
                  (o_attrs o))) (w_tree s1)) s1))) s
      | None => change (fun _ => None) s
      end
  | _, _ => change (fun _ => None) s
  end.

(** Types. *)
Definition type_of (s : world) (id : Z) : option h5type :=
  match lookup s id with Some (HType t) => Some t | _ => None end.
Definition H5Tequal (id : Z) (t : h5type) : prog Z :=
  call (-1) (fun s => match type_of s id with Some u => if type_eqb u t then 1 else 0 | None => -1 end).
Definition H5Tcopy (t : h5type) : prog Z := open_id (fun _ => Some (HType t)).
(** H5Tset_size(id, H5T_VARIABLE). *)
Definition H5Tset_variable (id : Z) : prog Z :=
  change (fun s => match type_of s id with
                   | Some (TFixStr _) => Some (set_live (map (fun e => if fst e =? id then (id, HType TVarStr) else e) (w_live s)) s)
                   | _ => None
                   end).
Definition H5Tget (id : Z) : prog (option h5type) := call None (fun s => type_of s id).

(** Data spaces. *)
Definition size_ok (d : Z) : bool := (0 <=? d) && (d <? 2 ^ 31).
Definition H5Screate_simple (dims : list Z) : prog Z :=
  open_id (fun _ => guard (forallb size_ok dims) (Some (HSpace dims None))).
Definition space_of (s : world) (id : Z) : option (list Z * option slab) :=
  match lookup s id with Some (HSpace d sel) => Some (d, sel) | _ => None end.
Fixpoint zip3 (a b c : list Z) : slab :=
  match a, b, c with x :: a', y :: b', z :: c' => (x, y, z) :: zip3 a' b' c' | _, _, _ => [] end.
(** H5Sselect_hyperslab reads one value per dimension from the arrays; the data()
    of empty vectors is taken to be null, which is refused. *)
Definition H5Sselect_hyperslab (id : Z) (start stride count : list Z) : prog Z := fun s =>
  match space_of s id, start with
  | Some (d, _), _ :: _ =>
      let r := List.length d in
      if (List.length start <? r)%nat || (List.length stride <? r)%nat || (List.length count <? r)%nat
      then UB "read past the end of the array"
      else change (fun s1 => guard (forallb (fun x => 0 <? x) (firstn r stride))
        (Some (set_live (map (fun e => if fst e =? id
           then (id, HSpace d (Some (zip3 (firstn r start) (firstn r stride) (firstn r count)))) else e) (w_live s1)) s1))) s
  | _, _ => change (fun _ => None) s
  end.
Definition H5Sget_simple_extent_ndims (id : Z) : prog Z :=
  call (-1) (fun s => match space_of s id with Some (d, _) => Zlen d | None => -1 end).
Definition H5Sget_simple_extent_dims (id : Z) : prog (option (list Z)) :=
  call None (fun s => match space_of s id with Some (d, _) => Some d | None => None end).

(** Property lists; H5Pclose of H5P_DEFAULT (0) is allowed and does nothing. *)
Definition H5Pcreate : prog Z := open_id (fun _ => Some (HPlist None)).
Definition H5Pset_chunk (id : Z) (dims : list Z) : prog Z :=
  change (fun s => match lookup s id with
    | Some (HPlist _) => guard (forallb (fun d => 0 <? d) dims)
        (Some (set_live (map (fun e => if fst e =? id then (id, HPlist (Some dims)) else e) (w_live s)) s))
    | _ => None
    end).

(** Data sets. *)
Definition data_at (s : world) (p : path) : option (h5type * list Z * list elem) :=
  match find_obj (w_tree s) p with
  | Some o => match o_kind o with KData t d v => Some (t, d, v) | KGroup => None end
  | None => None
  end.
Definition data_of (s : world) (id : Z) : option (path * (h5type * list Z * list elem)) :=
  match lookup s id with
  | Some (HData p) => match data_at s p with Some x => Some (p, x) | None => None end
  | _ => None
  end.
Definition H5Dget_space (id : Z) : prog Z :=
  open_id (fun s => match data_of s id with Some (_, (_, d, _)) => Some (HSpace d None) | None => None end).
Definition H5Dget_type (id : Z) : prog Z :=
  open_id (fun s => match data_of s id with Some (_, (t, _, _)) => Some (HType t) | None => None end).
Fixpoint chunk_ok (chunk dims : list Z) : bool :=
  match chunk, dims with
  | [], [] => true
  | c :: cs, d :: ds => (c <=? d) && chunk_ok cs ds
  | _, _ => false
  end.
(** Property list 0 is H5P_DEFAULT. *)
Definition plist_ok (s : world) (id : Z) (dims : list Z) : bool :=
  if id =? 0 then true else
  match lookup s id with
  | Some (HPlist None) => true
  | Some (HPlist (Some c)) => chunk_ok c dims
  | _ => false
  end.
Definition dcreate_ok (g : Z) (n : string) (space dcpl : Z) (s : world) : option (path * list Z) :=
  match lookup s g, space_of s space with
  | Some (HGroup p), Some (d, _) =>
      guard (negb (w_ro s) && plist_ok s dcpl d && is_group (w_tree s) p &&
             match find_obj (w_tree s) (p ++ [n]) with Some _ => false | None => true end)
            (Some (p ++ [n], d))
  | _, _ => None
  end.
Definition dcreate_tree (t : h5type) (r : option (path * list Z)) (s : world) : world :=
  match r with
  | Some (q, d) => set_tree (w_tree s ++ [mkObj q (KData t d (repeat (zero_of t) (Z.to_nat (prodZ d)))) []]) s
  | None => s
  end.
Definition H5Dcreate (g : Z) (n : string) (t : h5type) (space dcpl : Z) : prog Z := fun s =>
  let* (id, s1) := open_id (fun s => match dcreate_ok g n space dcpl s with Some (q, _) => Some (HData q) | None => None end) s in
  Ok (id, if 0 <=? id then dcreate_tree t (dcreate_ok g n space dcpl s) s1 else s1).

(** The positions of a selection in row-major order, as offsets. *)
Fixpoint offsets (dims : list Z) (sel : slab) : list Z :=
  match dims, sel with
  | _ :: ds, (b, t, c) :: sel' =>
      flat_map (fun k => map (fun o => (b + k * t) * prodZ ds + o) (offsets ds sel')) (zseq c)
  | _, _ => [0]
  end.
Fixpoint inside (dims : list Z) (sel : slab) : bool :=
  match dims, sel with
  | d :: ds, (b, t, c) :: sel' => (0 <=? b) && ((c <=? 0) || (b + (c - 1) * t <? d)) && inside ds sel'
  | [], [] => true
  | _, _ => false
  end.
Definition sel_size (sel : slab) : Z := prodZ (map (fun x => Z.max 0 (snd x)) sel).

(** What a transfer touches.  [mem = 0] and [file = 0] are H5S_ALL.  The space
    in memory is used whole; the file space is used with its selection. *)
Definition transfer (s : world) (id mem file : Z) : option (path * list Z) :=
  match data_of s id with
  | Some (p, (_, d, _)) =>
    let sel := if file =? 0 then Some None else match space_of s file with Some (_, x) => Some x | None => None end in
    match sel with
    | None => None
    | Some sel =>
      let n := match sel with None => prodZ d | Some x => sel_size x end in
      let msize := if mem =? 0 then Some n else match space_of s mem with Some (m, _) => Some (prodZ m) | None => None end in
      match msize with
      | None => None
      | Some m => guard ((m =? n) && match sel with None => true | Some x => inside d x end)
                    (Some (p, match sel with None => zseq (prodZ d) | Some x => offsets d x end))
      end
    end
  | None => None
  end.
Definition pick (v : list elem) (idx : list Z) : list elem := map (fun i => nth (Z.to_nat i) v (ENum 0)) idx.
Fixpoint put (v : list elem) (idx : list Z) (new : list elem) : list elem :=
  match idx, new with
  | i :: idx', x :: new' => put (upd v (Z.to_nat i) x) idx' new'
  | _, _ => v
  end.
Definition H5Dread (id mem file : Z) : prog (option (list elem)) :=
  call None (fun s => match transfer s id mem file with
                      | Some (p, idx) => match data_at s p with Some (_, _, v) => Some (pick v idx) | None => None end
                      | None => None
                      end).
Definition H5Dwrite (id mem file : Z) (buf : list elem) : prog Z := fun s =>
  match transfer s id mem file with
  | Some (p, idx) =>
      if Zlen buf <? Zlen idx then UB "read past the end of the buffer" else
      change (fun s1 => guard (negb (w_ro s1))
        (Some (set_tree (map_obj p (fun o => match o_kind o with
                 | KData t d v => mkObj (o_path o) (KData t d (put v idx buf)) (o_attrs o)
                 | KGroup => o
                 end) (w_tree s1)) s1))) s
  | None => change (fun _ => None) s
  end.

(** The automatic error handler; these calls are taken not to fail. *)
Definition H5Eget_auto : prog Z := fun s => Ok (w_handler s, s).
Definition H5Eset_auto (h : Z) : prog unit := modify (set_handler h).
