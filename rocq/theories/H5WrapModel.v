(** Model of the HDF5 wrapper h5cpp (h5cpp/h5readwrite.cpp, hidcloser.h,
    h5typemaps.h), over the library of H5LibModel.v.  Line numbers are those of
    h5readwrite.cpp.  Simplifications: messages on standard error are left out;
    paths are lists of names; allocation does not fail. *)
From Coq Require Import String ZArith List Bool.
From Verif Require Import Base H5LibModel.
Import ListNotations.
Open Scope Z_scope.

(** enum class DataType, h5readwrite.h:45-59. *)
Inductive dtype := Int8 | Int16 | Int32 | Int64 | UInt8 | UInt16 | UInt32 | UInt64 | Float | Double | DString | DNone.

(** DataTypeToH5DataType and BasicTypeToH5<T>::dataTypeId, h5typemaps.h:19-88,
    105-116; the C++ types are named by the enumerators.  The memory types of
    :118-129 are the same in this model, see H5LibModel.v. *)
Definition file_type (t : dtype) : option h5type :=
  match t with
  | Int8 => Some TI8 | Int16 => Some TI16 | Int32 => Some TI32 | Int64 => Some TI64
  | UInt8 => Some TU8 | UInt16 => Some TU16 | UInt32 => Some TU32 | UInt64 => Some TU64
  | Float => Some TF32 | Double => Some TF64
  | DString | DNone => None
  end.

(** H5ToDataType, h5typemaps.h:92-103.  A std::map goes through its entries in the
    order of the library's identifiers; here it is the order of the source.  The
    order matters only if H5Tequal fails. *)
Definition h5_to_dtype_map : list (h5type * dtype) :=
  [(TI8, Int8); (TI16, Int16); (TI32, Int32); (TI64, Int64); (TU8, UInt8); (TU16, UInt16);
   (TU32, UInt32); (TU64, UInt64); (TF32, Float); (TF64, Double)].

(** HIDCloser, hidcloser.h: the identifier is closed when the scope of [body] is
    left, if it is valid. *)
Definition with_id {A} (k : hkind) (id : Z) (body : prog A) : prog A :=
  do r <- body;
  do _ <- (if 0 <=? id then close_id k id else ret tt);
  ret r.

(** fileIsValid, :534. *)
Definition file_is_valid : prog bool := do s <- get; ret (0 <=? m_file s).

(** openFile and createFile with the constructor, :60-85.  The arguments: whether
    the library can read (create) the file. *)
Definition open_file (read_only can : bool) : prog bool :=
  do id <- (if read_only then H5Fopen can else H5Fcreate can);
  do _ <- modify (set_file id);
  file_is_valid.

(** clear, :536-542; also the destructor. *)
Definition clear : prog unit :=
  do v <- file_is_valid;
  if v then
    do s <- get;
    do _ <- close_id CFile (m_file s);
    modify (set_file (-1))
  else ret tt.

(** attributeExists, :87-94. *)
Definition attribute_exists (p : path) (n : string) : prog bool :=
  do v <- file_is_valid;
  if v then do s <- get; do r <- H5Aexists_by_name (m_file s) p n; ret (0 <? r) else ret false.

(** getInfoByName, :431-437. *)
Definition get_info (p : path) : prog (option (bool * Z)) :=
  do v <- file_is_valid;
  if v then do s <- get; H5Oget_info_by_name (m_file s) p else ret None.

(** hasAttribute, :96-105. *)
Definition has_attribute (p : path) : prog bool :=
  do i <- get_info p;
  ret (match i with Some (_, n) => 0 <? n | None => false end).

(** turnOffErrors and turnOnErrors, :511-532. *)
Definition turn_off_errors : prog unit :=
  do s <- get;
  if m_off s then ret tt else
  do h <- H5Eget_auto;
  do _ <- modify (set_saved h);
  do _ <- H5Eset_auto 0;
  modify (set_off true).
Definition turn_on_errors : prog unit :=
  do s <- get;
  if m_off s then
    do _ <- H5Eset_auto (m_saved s);
    do _ <- modify (set_saved 0);
    modify (set_off false)
  else ret tt.

(** isDataSet, :439-452, and isGroup, :454-467. *)
Definition is_object (data : bool) (p : path) : prog bool :=
  do _ <- turn_off_errors;
  do i <- get_info p;
  match i with
  | None => do _ <- turn_on_errors; ret false
  | Some (d, _) => do _ <- turn_on_errors; ret (Bool.eqb d data)
  end.
Definition is_data_set := is_object true.
Definition is_group_at := is_object false.

(** The comparison of types, :121-130 and :416-425; H5Tequal is called again to
    tell an error from a difference. *)
Definition same_type (id : Z) (t : h5type) : prog bool :=
  do a <- H5Tequal id t;
  if a =? 0 then ret false else
  do b <- H5Tequal id t;
  if b <? 0 then ret false else ret true.

(** attribute<T>, :107-134 and :598-611, for a T that is not a string: the value and
    *ok.  [None]: the value is indeterminate.  H5Aread stores all values of the
    attribute to a variable that has room for one. *)
Definition attribute (t : h5type) (p : path) (n : string) : prog (option elem * bool) :=
  do e <- attribute_exists p n;
  if e then
    do s <- get;
    do a <- H5Aopen_by_name (m_file s) p n;
    do ty <- H5Aget_type a;
    with_id CAttr a (with_id CType ty (
      do same <- same_type ty t;
      if same then
        do r <- H5Aread a;
        match r with
        | None => ret (None, false)
        | Some [] => ret (None, true)
        | Some [v] => ret (Some v, true)
        | Some _ => undefined "write past the end of the result"
        end
      else ret (None, false)))
  else ret (None, false).

(** attribute<string>, :613-672.  A text of fixed length ends at its first null
    byte, as the texts of this model do.  With several texts H5Aread stores
    several pointers (or texts) to the place of one. *)
Definition attribute_string (p : path) (n : string) : prog (string * bool) :=
  do e <- attribute_exists p n;
  if e then
    do s <- get;
    do a <- H5Aopen_by_name (m_file s) p n;
    do ty <- H5Aget_type a;
    with_id CAttr a (with_id CType ty (
      do c <- H5Tget ty;
      match c with
      | Some TVarStr =>
          do v <- H5Tget ty;
          match v with
          | Some _ =>
              do r <- H5Aread a;
              match r with
              | None => ret (EmptyString, false)
              | Some [EStr x] => ret (x, true)
              | Some [] => undefined "indeterminate pointer"
              | Some _ => undefined "write past the end of the pointer"
              end
          | None => ret (EmptyString, false)
          end
      | Some (TFixStr size) =>
          do v <- H5Tget ty;
          match v with
          | Some _ =>
              if size =? 0 then ret (EmptyString, false) else
              do r <- H5Aread a;
              match r with
              | None => ret (EmptyString, false)
              | Some [EStr x] => ret (x, true)
              | Some [] => undefined "indeterminate text"
              | Some _ => undefined "write past the end of the text"
              end
          | None => ret (EmptyString, false)
          end
      | _ => ret (EmptyString, false)
      end))
  else ret (EmptyString, false).

(** getH5ToDataType, :493-507.  The lambda returns the result of H5Tequal, a
    negative number on failure, as a bool. *)
Fixpoint find_dtype (ty : Z) (l : list (h5type * dtype)) : prog dtype :=
  match l with
  | [] => ret DNone
  | (t, d) :: l' => do r <- H5Tequal ty t; if r =? 0 then find_dtype ty l' else ret d
  end.

(** attributeType, :684-705. *)
Definition attribute_type (p : path) (n : string) : prog dtype :=
  do e <- attribute_exists p n;
  if e then
    do s <- get;
    do a <- H5Aopen_by_name (m_file s) p n;
    do ty <- H5Aget_type a;
    with_id CAttr a (with_id CType ty (
      do c <- H5Tget ty;
      match c with
      | Some TVarStr | Some (TFixStr _) => ret DString
      | _ => find_dtype ty h5_to_dtype_map
      end))
  else ret DNone.

(** The parent of an attribute, :144-154 and :944-954. *)
Definition open_parent (p : path) : prog (Z * hkind) :=
  do d <- is_data_set p;
  do s <- get;
  if d then do id <- H5Dopen (m_file s) p; ret (id, CData)
  else do id <- H5Gopen (m_file s) p; ret (id, CGroup).

(** setAttribute, :136-166, 912-930.  [buf] is [None] for the data() of an empty
    vector, which may be a null pointer. *)
Definition set_attribute (t : h5type) (p : path) (n : string) (vals : list elem) : prog bool :=
  do v <- file_is_valid;
  if v then
    do (parent, k) <- open_parent p;
    with_id k parent (
      do space <- H5Screate_simple [Zlen vals];
      do a <- H5Acreate2 parent n t space;
      with_id CSpace space (with_id CAttr a (
        do r <- H5Awrite a (match vals with [] => None | _ => Some vals end);
        ret (0 <=? r))))
  else ret false.

(** setAttribute for a C string, :932-983.  The copied type is not closed. *)
Definition set_attribute_string (p : path) (n : string) (x : string) : prog bool :=
  do v <- file_is_valid;
  if v then
    do (parent, k) <- open_parent p;
    with_id k parent (
      do space <- H5Screate_simple [1];
      with_id CSpace space (
        do ty <- H5Tcopy (TFixStr 1);
        do st <- H5Tset_variable ty;
        if st <? 0 then ret false else
        do a <- H5Acreate2 parent n TVarStr space;
        if a <? 0 then ret false else
        with_id CAttr a (
          do r <- H5Awrite a (Some [EStr x]);
          ret (0 <=? r))))
  else ret false.

(** writeData, :168-195, 847-877.  static_cast<hsize_t> of an int. *)
Definition write_data (t : h5type) (p : path) (n : string) (dims : list Z) (buf : list elem) : prog bool :=
  do v <- file_is_valid;
  if v then
    do s <- get;
    do g <- H5Gopen (m_file s) p;
    match dims with
    | [] => undefined "first element of an empty vector"
    | _ =>
      do space <- H5Screate_simple (map u64 dims);
      do d <- H5Dcreate g n t space 0;
      with_id CGroup g (with_id CSpace space (with_id CData d (
        do r <- H5Dwrite d 0 0 buf;
        ret (0 <=? r))))
    end
  else ret false.

(** createDataSet, :197-233. *)
Definition create_data_set (t : h5type) (p : path) (n : string) (dims chunk : list Z) : prog bool :=
  do v <- file_is_valid;
  if v then
    do s <- get;
    do g <- H5Gopen (m_file s) p;
    do dcpl <- (match chunk with
                | [] => ret 0                                     (* H5P_DEFAULT *)
                | _ => do id <- H5Pcreate; do _ <- H5Pset_chunk id (map u64 chunk); ret id
                end);
    with_id CPlist (if dcpl =? 0 then -1 else dcpl) (             (* H5Pclose(H5P_DEFAULT) does nothing *)
      match dims with
      | [] => undefined "first element of an empty vector"
      | _ =>
        do space <- H5Screate_simple (map u64 dims);
        do d <- H5Dcreate g n t space dcpl;
        with_id CGroup g (with_id CSpace space (with_id CData d (ret (0 <=? d))))
      end)
  else ret false.

Fixpoint zip_sub (a b : list Z) : list Z :=
  match a, b with x :: a', y :: b' => u64 (x - y) :: zip_sub a' b' | _, _ => [] end.

(** The vectors of a pointer argument, :261-276; reading [nd] values. *)
Definition take_arg (nd : nat) (arg : option (list Z)) (default : list Z) : prog (list Z) :=
  match arg with
  | None => ret default
  | Some l => if (List.length l <? nd)%nat then undefined "read past the end of the array" else ret (firstn nd l)
  end.

(** updateData, :235-300.  [dims] are the dimensions as the caller believes. *)
Definition update_data (p : path) (dims : list Z) (buf : list elem) (start counts : option (list Z)) : prog bool :=
  do v <- file_is_valid;
  if v then
    do s <- get;
    do ds <- H5Dopen (m_file s) p;
    if ds <? 0 then ret false else
    with_id CData ds (
      do space <- H5Dget_space ds;
      if space <? 0 then ret false else
      with_id CSpace space (
        let nd := List.length dims in
        do st <- take_arg nd start (repeat 0 nd);
        do cn <- take_arg nd counts (zip_sub dims st);
        do r <- H5Sselect_hyperslab space st (repeat 1 nd) cn;
        if r <? 0 then ret false else
        do mem <- H5Screate_simple cn;
        if mem <? 0 then ret false else
        with_id CSpace mem (
          do w <- H5Dwrite ds mem space buf;
          ret (0 <=? w))))
  else ret false.

(** getDimensions, :302-345. *)
Definition get_dimensions (p : path) : prog (list Z) :=
  do d <- is_data_set p;
  if d then
    do s <- get;
    do ds <- H5Dopen (m_file s) p;
    if ds <? 0 then ret [] else
    with_id CData ds (
      do space <- H5Dget_space ds;
      if space <? 0 then ret [] else
      with_id CSpace space (
        do n <- H5Sget_simple_extent_ndims space;
        if n <? 1 then ret [] else
        do dims <- H5Sget_simple_extent_dims space;
        match dims with
        | Some l => if Zlen l =? n then ret l else ret []
        | None => ret []
        end))
  else ret [].

(** The quotient of two hsize_t; division by zero is undefined. *)
Fixpoint zip_div (a b : list Z) : prog (list Z) :=
  match a, b with
  | x :: a', y :: b' => if y =? 0 then undefined "division by zero" else do r <- zip_div a' b'; ret (x / y :: r)
  | _, _ => ret []
  end.

(** The end of readData, :413-429.  [room] is the number of elements the buffer
    holds; [None] on failure. *)
Definition finish_read (t : h5type) (ds space room mem : Z) : prog (option (list elem)) :=
  do ty <- H5Dget_type ds;
  with_id CType ty (
    do same <- same_type ty t;
    if same then
      do r <- H5Dread ds mem space;
      match r with
      | Some l => if room <? Zlen l then undefined "write past the end of the buffer" else ret (Some l)
      | None => ret None
      end
    else ret None).

(** The selection of readData, :374-411. *)
Definition select_and_read (t : h5type) (p : path) (ds space room : Z) (strides start counts : option (list Z))
  : prog (option (list elem)) :=
  do dims <- get_dimensions p;
  let nd := List.length dims in
  do sd <- take_arg nd strides (repeat 1 nd);
  do st <- take_arg nd start (repeat 0 nd);
  do cn <- (match counts with
            | Some _ => take_arg nd counts []
            | None => zip_div (zip_sub dims st) (map u64 sd)
            end);
  do _ <- H5Sselect_hyperslab space st (map u64 sd) cn;
  do mem <- H5Screate_simple cn;
  with_id CSpace mem (finish_read t ds space room mem).

(** readData, :353-429. *)
Definition read_data (t : h5type) (p : path) (room : Z) (strides start counts : option (list Z))
  : prog (option (list elem)) :=
  do s <- get;
  do ds <- H5Dopen (m_file s) p;
  if ds <? 0 then ret None else
  with_id CData ds (
    do space <- H5Dget_space ds;
    if space <? 0 then ret None else
    with_id CSpace space (
      match strides, start, counts with
      | None, None, None => finish_read t ds space room 0                (* H5S_ALL *)
      | _, _, _ => select_and_read t p ds space room strides start counts
      end)).

(** accumulate with multiplies<int>, :793-794. *)
Fixpoint int_prod (acc : Z) (l : list Z) : prog Z :=
  match l with
  | [] => ret acc
  | d :: l' => if acc * d <? 2 ^ 31 then int_prod (acc * d) l' else undefined "signed integer overflow"
  end.

(** readData<T>(path, dims), :781-803.  On failure the data are empty. *)
Definition read_vector (t : h5type) (p : path) : prog (list Z * list elem) :=
  do dims <- get_dimensions p;
  match dims with
  | [] => ret ([], [])
  | _ =>
    do size <- int_prod 1 dims;
    do r <- read_data t p size None None None;
    match r with Some l => ret (dims, l) | None => ret (dims, []) end
  end.

(** readData<T>(path), :760-779. *)
Definition read_flat (t : h5type) (p : path) : prog (list elem) :=
  do (dims, l) <- read_vector t p;
  match l with
  | [] => ret []
  | _ => if (List.length dims =? 1)%nat then ret l else ret []
  end.

(** dataType, :722-742. *)
Definition data_type (p : path) : prog dtype :=
  do d <- is_data_set p;
  if d then
    do s <- get;
    do ds <- H5Dopen (m_file s) p;
    if ds <? 0 then ret DNone else
    do ty <- H5Dget_type ds;
    with_id CData ds (with_id CType ty (find_dtype ty h5_to_dtype_map))
  else ret DNone.

(** dimensionCount, :749-757. *)
Definition dimension_count (p : path) : prog Z :=
  do dims <- get_dimensions p;
  match dims with [] => ret (-1) | _ => ret (Zlen dims) end.

(** children, :566-596: the names and *ok.  The loop ignores failures: the buffer
    then still holds the previous name, or nothing. *)
Fixpoint child_loop (g i : Z) (n : nat) (last : option string) : prog (list string) :=
  match n with
  | O => ret []
  | S n' =>
    do r <- H5Gget_objname_by_idx g i;
    let cur := match r with Some x => Some x | None => last end in
    match cur with
    | None => undefined "indeterminate characters"
    | Some x => do l <- child_loop g (i + 1) n' cur; ret (x :: l)
    end
  end.
Definition children (p : path) : prog (list string * bool) :=
  do v <- file_is_valid;
  if v then
    do s <- get;
    do g <- H5Gopen (m_file s) p;
    if g <? 0 then ret ([], false) else
    with_id CGroup g (
      do c <- H5Gget_num_objs g;
      do l <- child_loop g 0 (Z.to_nat (match c with Some n => n | None => 0 end)) None;
      ret (l, true))
  else ret ([], false).

(** allDataSets, :469-491. *)
Definition all_data_sets (p : path) : prog (list path) :=
  do v <- file_is_valid;
  if v then
    do s <- get;
    do (obj, closer) <- (match p with
                         | [] => ret (m_file s, -1)
                         | _ => do g <- H5Gopen (m_file s) p; ret (g, g)
                         end);
    with_id CGroup closer (
      do r <- H5Ovisit obj;
      ret (match r with Some l => l | None => [] end))
  else ret [].

(** createGroup, :994-1012. *)
Definition create_group (p : path) : prog bool :=
  do v <- file_is_valid;
  if v then
    do s <- get;
    do g <- H5Gcreate (m_file s) p;
    if g <? 0 then ret false else
    do _ <- close_id CGroup g; ret true
  else ret false.
