(** Model of the Python class [SparseArray]
    (python/stempy/io/sparse_array.py): construction, expansion, indexing,
    the specialised reductions and the two binnings.

    A NumPy array of shape (n, m) or (n,) is its list of entries in C order
    together with its shape; the object array [data] of shape (scans, F) is a
    list of rows.  NumPy integer array types used for results ([dtype]) are
    unsigned of a given width: stores wrap modulo 2 ^ bits.  Python and NumPy
    exceptions are [Throw]. *)
From Coq Require Import String ZArith List Bool Lia.
From Verif Require Import Base.
Import ListNotations.
Open Scope Z_scope.

(** * NumPy primitives *)

(** Python exceptions met below. *)
Definition index_error {A} : outcome A := Throw "IndexError".
Definition value_error {A} : outcome A := Throw "ValueError".

(** Store into an unsigned array element of [bits] bits. *)
Definition wrapu (bits z : Z) : Z := z mod 2 ^ bits.

(** An integer index into an axis of length [n]: negative counts from the end. *)
Definition np_index (n i : Z) : outcome Z :=
  let i' := if i <? 0 then i + n else i in
  if (0 <=? i') && (i' <? n) then Ok i' else index_error.

Fixpoint mapM {A B} (f : A -> outcome B) (l : list A) : outcome (list B) :=
  match l with
  | [] => Ok []
  | x :: t => let* y := f x in let* t' := mapM f t in Ok (y :: t')
  end.

(** [a[idx]] for an integer array [idx] and a 1-D array [a]. *)
Definition np_take {A} (a : list A) (idx : list Z) : outcome (list A) :=
  mapM (fun i => let* k := np_index (Zlen a) i in rd a k) idx.

(** [a[idx] = vals]: stores one after the other, so the last one wins. *)
Fixpoint np_put {A} (a : list A) (idx : list Z) (vals : list A) : outcome (list A) :=
  match idx, vals with
  | i :: idx', v :: vals' =>
      let* k := np_index (Zlen a) i in
      let* a' := wr a k v in
      np_put a' idx' vals'
  | [], [] => Ok a
  | _, _ => value_error
  end.

(** [a[idx] += 1]: gather, add, scatter (a repeated index is raised once). *)
Definition np_inc (bits : Z) (a idx : list Z) : outcome (list Z) :=
  let* g := np_take a idx in
  np_put a idx (map (fun v => wrapu bits (v + 1)) g).

(** [np.unique(l, return_counts=True)]: increasing values with their counts. *)
Fixpoint uc_add (k : Z) (m : list (Z * Z)) : list (Z * Z) :=
  match m with
  | [] => [(k, 1)]
  | (k', c) :: t =>
      if k <? k' then (k, 1) :: (k', c) :: t
      else if k =? k' then (k', c + 1) :: t
      else (k', c) :: uc_add k t
  end.
Definition np_unique_counts (l : list Z) : list (Z * Z) := fold_right uc_add [] l.

(** [np.concatenate] of a list of arrays: at least one is needed. *)
Definition np_concatenate {A} (ls : list (list A)) : outcome (list A) :=
  match ls with [] => value_error | _ => Ok (concat ls) end.

(** [np.max] / [np.min] of an array: raises on the empty one. *)
Definition np_max (l : list Z) : outcome Z :=
  match l with [] => value_error | x :: t => Ok (fold_left Z.max t x) end.
Definition np_min (l : list Z) : outcome Z :=
  match l with [] => value_error | x :: t => Ok (fold_left Z.min t x) end.

Definition np_prod (l : list Z) : Z := fold_right Z.mul 1 l.

(** * The object: sparse_array.py 88-144.
    [sp_data]: one row per scan position, each a list of frames, each the
    array of the flat indices of its events; [sp_F] is [data.shape[1]].  The
    [metadata] dictionary is not part of this record (see [SparseFile]).
    Boolean flags: [sparse_slicing], [allow_full_expand].  [bits]: [dtype]. *)
Record sparse := mkSparse {
  sp_data : list (list (list Z));
  sp_F : Z;
  sp_scan : list Z;
  sp_frame : list Z;
  sp_bits : Z;
  sp_slicing : bool;
  sp_full : bool }.

(** [__init__] and [_validate], 91-172: the length test.  (Integer frame types
    hold by construction; [validate=False] is not modelled.) *)
Definition sparse_init (data : list (list (list Z))) (F : Z) (scan frame : list Z)
  (bits : Z) (slicing full : bool) : outcome sparse :=
  if Zlen data =? np_prod scan
  then Ok (mkSparse data F scan frame bits slicing full)
  else Throw "The length of the data array must be equal to the number of scans".

(** [num_scans] 725-732, [_frame_shape_flat] and [_scan_shape_flat] 763-769,
    [shape] 307-314. *)
Definition num_scans (sa : sparse) : Z := np_prod (sp_scan sa).
Definition frame_size (sa : sparse) : Z := np_prod (sp_frame sa).
Definition sp_shape (sa : sparse) : list Z := sp_scan sa ++ sp_frame sa.

(** * Indexing keys *)

(** The index objects modelled: an integer, [slice(start, stop, step)] with
    optional parts, a 1-D integer array or sequence, a 1-D boolean array, and a
    2-D array (boolean: [KMask2]; integer: [KInts2], always refused).
    [...], [None] and higher-dimensional arrays are not modelled. *)
Inductive key :=
| KInt (i : Z)
| KSlice (start stop step : option Z)
| KInts (l : list Z)
| KMask (l : list bool)
| KMask2 (rows cols : Z) (l : list bool)
| KInts2 (rows cols : Z) (l : list Z).

Definition key_ndim (k : key) : Z :=
  match k with
  | KInt _ | KSlice _ _ _ => 0
  | KInts _ | KMask _ => 1
  | KMask2 _ _ _ | KInts2 _ _ _ => 2
  end.
(** [isinstance(x, np.ndarray)] (after [np.asarray] of a sequence). *)
Definition key_adv (k : key) : bool := 0 <? key_ndim k.
(** [_is_none_slice], 1067-1068. *)
Definition is_none_slice (k : key) : bool :=
  match k with KSlice None None None => true | _ => false end.

(** Python's [slice.indices]: the positions selected on an axis of length n. *)
Definition slice_count (start stop step : Z) : Z :=
  if 0 <? step then (if start <? stop then (stop - start - 1) / step + 1 else 0)
  else (if stop <? start then (start - stop - 1) / (- step) + 1 else 0).
Definition slice_positions (n : Z) (start stop step : option Z) : outcome (list Z) :=
  let st := match step with Some s => s | None => 1 end in
  if st =? 0 then value_error else
  let lo := if 0 <? st then 0 else -1 in
  let hi := if 0 <? st then n else n - 1 in
  let clip v := let v' := if v <? 0 then v + n else v in Z.max lo (Z.min hi v') in
  let a := match start with Some v => clip v | None => if 0 <? st then 0 else n - 1 end in
  let b := match stop with Some v => clip v | None => if 0 <? st then n else -1 end in
  Ok (map (fun k => a + k * st) (zseq (slice_count a b st))).

(** Positions of the true entries. *)
Definition true_positions (l : list bool) : list Z :=
  filter (fun i => nth (Z.to_nat i) l false) (zseq (Zlen l)).

(** What one key does to one axis. *)
Inductive axis_sel := AInt (i : Z) | ABasic (l : list Z) | AAdv (l : list Z).
Definition axis_select (n : Z) (k : key) : outcome axis_sel :=
  match k with
  | KInt i => let* j := np_index n i in Ok (AInt j)
  | KSlice a b s => let* l := slice_positions n a b s in Ok (ABasic l)
  | KInts l => let* l' := mapM (np_index n) l in Ok (AAdv l')
  | KMask l => if Zlen l =? n then Ok (AAdv (true_positions l)) else index_error
  | KMask2 _ _ _ | KInts2 _ _ _ => index_error
  end.

(** Broadcast two 1-D index arrays against each other. *)
Definition broadcast2 (a b : list Z) : outcome (list (Z * Z)) :=
  if Zlen a =? Zlen b then Ok (combine a b)
  else if Zlen a =? 1 then Ok (map (fun y => (hd 0 a, y)) b)
  else if Zlen b =? 1 then Ok (map (fun x => (x, hd 0 b)) a)
  else index_error.

Definition cross (m : Z) (rows cols : list Z) : list Z :=
  flat_map (fun r => map (fun c => r * m + c) cols) rows.

(** [np.arange(prod(shape)).reshape(shape)[keys]] for a 1-D or 2-D shape: the
    shape of the result and its entries, i.e. the flat positions selected. *)
Definition np_select (shape : list Z) (keys : list key) : outcome (list Z * list Z) :=
  match shape, keys with
  | _, [] => Ok (shape, zseq (np_prod shape))
  | [n], [k] =>
      let* s := axis_select n k in
      match s with
      | AInt i => Ok ([], [i])
      | ABasic l | AAdv l => Ok ([Zlen l], l)
      end
  | [n; m], [KMask2 r c l] =>
      if (r =? n) && (c =? m) && (Zlen l =? n * m)
      then Ok ([Zlen (true_positions l)], true_positions l) else index_error
  | [n; m], [k] =>
      let* s := axis_select n k in
      match s with
      | AInt i => Ok ([m], map (fun c => i * m + c) (zseq m))
      | ABasic l | AAdv l => Ok ([Zlen l; m], cross m l (zseq m))
      end
  | [n; m], [k1; k2] =>
      let* s1 := axis_select n k1 in
      let* s2 := axis_select m k2 in
      match s1, s2 with
      | AInt i, AInt j => Ok ([], [i * m + j])
      | AInt i, ABasic l | AInt i, AAdv l => Ok ([Zlen l], map (fun c => i * m + c) l)
      | ABasic l, AInt j | AAdv l, AInt j => Ok ([Zlen l], map (fun r => r * m + j) l)
      | ABasic a, ABasic b | ABasic a, AAdv b | AAdv a, ABasic b =>
          Ok ([Zlen a; Zlen b], cross m a b)
      | AAdv a, AAdv b =>
          let* ps := broadcast2 a b in
          Ok ([Zlen ps], map (fun p => fst p * m + snd p) ps)
      end
  | _, _ => index_error
  end.

(** [validate_if_advanced_indexing], 789-816. *)
Definition validate_adv (k : key) (max_ndim : Z) : outcome key :=
  if max_ndim <? key_ndim k then index_error else Ok k.

(** The loop over frame slices, 850-856: at most two, the first of at most two
    dimensions, the second of at most one. *)
Fixpoint validate_frame (ks : list key) (max_ndim : Z) : outcome (list key) :=
  match ks with
  | [] => Ok []
  | k :: t =>
      if max_ndim =? 0 then index_error
      else let* k' := validate_adv k max_ndim in
           let* t' := validate_frame t (max_ndim - 1) in Ok (k' :: t')
  end.

(** The final check of 2-D arrays, 868-881: boolean and of the axis' shape. *)
Definition check_2d (k : key) (req : list Z) : outcome unit :=
  match k with
  | KInts2 _ _ _ => index_error
  | KMask2 r c _ => match req with
                    | [a; b] => if (r =? a) && (c =? b) then Ok tt else index_error
                    | _ => index_error
                    end
  | _ => Ok tt
  end.

(** [_split_slices], 781-883.  The key is the tuple of its parts ([a[k]] is
    [k :: nil], [a[()]] is [nil]). *)
Definition split_slices (sa : sparse) (ks : list key) : outcome (list key * list key) :=
  match ks with
  | [] => Ok ([], [])
  | first :: rest =>
      let* first := validate_adv first (Zlen (sp_scan sa)) in
      let two := (1 <? Zlen (sp_scan sa)) && (negb (key_adv first) || (key_ndim first =? 1)) in
      let* (scan_ks, frame_rest) :=
        match two, rest with
        | true, second :: rest' =>
            let* second := validate_adv second 1 in Ok ([first; second], rest')
        | _, _ => Ok ([first], rest)
        end in
      let* frame_ks := validate_frame frame_rest 2 in
      if existsb key_adv scan_ks && existsb key_adv frame_ks then index_error else
      let* _ := check_2d first (sp_scan sa) in
      let* _ := check_2d (hd (KSlice None None None) frame_ks) (sp_frame sa) in
      Ok (scan_ks, frame_ks)
  end.

(** [_expand] of a whole frame, 992-1032, through [_sparse_frames] 885-899
    (the flat position is computed from the unravelled one; only complete scan
    indices reach it from [_slice_dense]). *)
Definition expand (sa : sparse) (p : Z) : outcome (list Z) :=
  let* frames := rd (sp_data sa) p in
  for_each frames (fun fr dp => np_inc (sp_bits sa) dp fr)
    (repeat 0 (Z.to_nat (frame_size sa))).

(** Equality of shape tuples. *)
Definition shape_eqb (a b : list Z) : bool :=
  (Zlen a =? Zlen b) && forallb (fun p => fst p =? snd p) (combine a b).

(** The two kinds of results of [a[...]]. *)
Inductive sliced :=
| Dense (shape : list Z) (vals : list Z)
| Sparse (sa : sparse).

Definition full_denied {A} : outcome A := Throw "FullExpansionDenied".

(** [_slice_dense], 901-929. *)
Definition slice_dense (sa : sparse) (scan_ks frame_ks : list key) : outcome sliced :=
  let* (new_scan, positions) := np_select (sp_scan sa) scan_ks in
  let* (new_frame, pixels) := np_select (sp_frame sa) frame_ks in
  let shape := new_scan ++ new_frame in
  if shape_eqb shape (sp_shape sa) && negb (sp_full sa) then full_denied else
  let* rows := mapM (fun p => let* dp := expand sa p in np_take dp pixels) positions in
  Ok (Dense shape (concat rows)).

(** The loop body 974-977: renumber the events of a frame, dropping the ones
    mapped to -1. *)
Definition renumber (mp : list Z) (fr : list Z) : outcome (list Z) :=
  let* fr' := np_take mp fr in Ok (filter (fun x => 0 <=? x) fr').

(** [_slice_sparse], 931-990. *)
Definition slice_sparse (sa : sparse) (scan_ks frame_ks : list key) : outcome sliced :=
  let scan_mod := existsb (fun k => negb (is_none_slice k)) scan_ks in
  let frame_mod := existsb (fun k => negb (is_none_slice k)) frame_ks in
  let* (new_scan, new_rows) :=
    if scan_mod then
      let* (s, ps) := np_select (sp_scan sa) scan_ks in
      match s with
      | [] => Ok ([], [])
      | _ => let* rows := np_take (sp_data sa) ps in Ok (s, rows)
      end
    else Ok (sp_scan sa, sp_data sa) in
  if match new_scan with [] => true | _ => false end
  then slice_dense sa scan_ks frame_ks
  else
  let* (new_frame, mp) :=
    if frame_mod then
      let* (s, px) := np_select (sp_frame sa) frame_ks in
      let* mp := np_put (repeat (-1) (Z.to_nat (frame_size sa))) px (zseq (Zlen px)) in
      Ok (s, Some mp)
    else Ok (sp_frame sa, None) in
  if match new_frame with [] => true | _ => false end
  then slice_dense sa scan_ks frame_ks
  else
  let* new_data :=
    match mp with
    | Some mp => mapM (fun row => mapM (renumber mp) row) new_rows
    | None => Ok new_rows
    end in
  let* r := sparse_init new_data (sp_F sa) new_scan new_frame
              (sp_bits sa) (sp_slicing sa) (sp_full sa) in
  Ok (Sparse r).

(** [__getitem__], 708-714. *)
Definition getitem (sa : sparse) (ks : list key) : outcome sliced :=
  let* (scan_ks, frame_ks) := split_slices sa ks in
  if sp_slicing sa then slice_sparse sa scan_ks frame_ks
  else slice_dense sa scan_ks frame_ks.

(** [to_dense], 284-305: [self[:]] with both flags switched for the call (and
    restored, also when an exception passes). *)
Definition to_dense (sa : sparse) : outcome sliced :=
  getitem (mkSparse (sp_data sa) (sp_F sa) (sp_scan sa) (sp_frame sa) (sp_bits sa)
             false true) [KSlice None None None].

(** * Reductions over all scan axes or all frame axes; the result is flat and
    has the shape of the other axes. *)

(** 479-517. *)
Definition sum_scan (sa : sparse) (bits : Z) : outcome (list Z) :=
  for_each (sp_data sa)
    (fun scan_frames ret => for_each scan_frames (fun fr ret => np_inc bits ret fr) ret)
    (repeat 0 (Z.to_nat (frame_size sa))).

Definition enumerate {A} (l : list A) : list (Z * A) := combine (zseq (Zlen l)) l.

Definition sum_frame (sa : sparse) (bits : Z) : outcome (list Z) :=
  for_each (enumerate (sp_data sa))
    (fun '(i, scan_frames) ret =>
       for_each scan_frames
         (fun fr ret => let* v := rd ret i in wr ret i (wrapu bits (v + Zlen fr))) ret)
    (repeat 0 (Z.to_nat (num_scans sa))).

(** 385-424. *)
Definition max_scan (sa : sparse) (bits : Z) : outcome (list Z) :=
  for_each (sp_data sa)
    (fun scan_frames ret =>
       let* c := np_concatenate scan_frames in
       let uc := np_unique_counts c in
       let* old := np_take ret (map fst uc) in
       np_put ret (map fst uc)
         (map (fun p => wrapu bits (Z.max (fst p) (snd p))) (combine old (map snd uc))))
    (repeat 0 (Z.to_nat (frame_size sa))).

Definition max_frame (sa : sparse) (bits : Z) : outcome (list Z) :=
  for_each (enumerate (sp_data sa))
    (fun '(i, scan_frames) ret =>
       let* c := np_concatenate scan_frames in
       let* m := np_max (map snd (np_unique_counts c)) in
       wr ret i (wrapu bits m))
    (repeat 0 (Z.to_nat (num_scans sa))).

(** 428-475. *)
Definition min_scan (sa : sparse) (bits : Z) : outcome (list Z) :=
  for_each (sp_data sa)
    (fun scan_frames ret =>
       let* c := np_concatenate scan_frames in
       let uc := np_unique_counts c in
       let* e := np_put (repeat 0 (Z.to_nat (frame_size sa))) (map fst uc)
                   (map (fun p => wrapu bits (snd p)) uc) in
       Ok (map (fun p => Z.min (fst p) (snd p)) (combine ret e)))
    (repeat (2 ^ bits - 1) (Z.to_nat (frame_size sa))).

Definition min_frame (sa : sparse) (bits : Z) : outcome (list Z) :=
  for_each (enumerate (sp_data sa))
    (fun '(i, scan_frames) ret =>
       let* c := np_concatenate scan_frames in
       let counts := map snd (np_unique_counts c) in
       if Zlen counts <? frame_size sa then wr ret i 0
       else let* m := np_min counts in wr ret i (wrapu bits m))
    (repeat (2 ^ bits - 1) (Z.to_nat (num_scans sa))).

(** * Binning *)

(** [bin_scans], 560-609 (a new array; [in_place] gives the same fields).  The
    rows of the tile (i, j) are taken from the scan positions
    (i f + a) W + (j f + b), the entries [i, :, j, :] of the positions reshaped
    to (H / f, f, W / f, f).  A factor that is not positive raises (division
    by zero, or a negative dimension in reshape). *)
Definition bin_scans (sa : sparse) (f : Z) : outcome sparse :=
  if f <=? 0 then value_error else
  if negb (forallb (fun x => x mod f =? 0) (sp_scan sa)) then value_error else
  match sp_scan sa with
  | [h; w] =>
      let h' := h / f in
      let w' := w / f in
      let* new_data :=
        for_loop h' (fun i nd =>
          for_loop w' (fun j nd =>
            let idx := i * w' + j in
            let to_change :=
              flat_map (fun a => map (fun b => (i * f + a) * w + (j * f + b)) (zseq f))
                (zseq f) in
            let* rows := np_take (sp_data sa) to_change in
            let* c := np_concatenate rows in
            wr nd idx c) nd)
          (repeat [] (Z.to_nat (h' * w'))) in
      sparse_init new_data (f * f * sp_F sa) [h'; w'] (sp_frame sa)
        (sp_bits sa) (sp_slicing sa) (sp_full sa)
  | _ => index_error
  end.

(** The [while np.any(counts > 0)] loop, 654-657 and compatibility.py 46-49:
    the frames needed beyond the first for the repeated events of a row. *)
Fixpoint peel (fuel : nat) (uc : list (Z * Z)) : outcome (list (list Z)) :=
  if existsb (fun p => 0 <? snd p) uc then
    match fuel with
    | O => OutOfFuel
    | S fuel' =>
        let* t := peel fuel' (map (fun p => (fst p, snd p - 1)) uc) in
        Ok (map fst (filter (fun p => 0 <? snd p) uc) :: t)
    end
  else Ok [].

(** "Place duplicates in separate frames", 645-657 and compatibility.py 37-49:
    the deduplicated rows and the extra rows with their scan positions. *)
Definition split_duplicates (rows : list (list Z)) (positions : list Z)
  : outcome (list (list Z) * (list (list Z) * list Z)) :=
  for_each (enumerate rows)
    (fun '(i, row) '(ret, (extra, extra_pos)) =>
       let uc := np_unique_counts row in
       let* pos := rd positions i in
       let* ex := peel (List.length row) (map (fun p => (fst p, snd p - 1)) uc) in
       Ok (ret ++ [map fst uc], (extra ++ ex, extra_pos ++ map (fun _ => pos) ex)))
    ([], ([], [])).

(** "Now set all of the data in their new locations", 676-682 and
    compatibility.py 80-86: the first slot of the position that is still None;
    a datum that finds none is dropped. *)
Fixpoint first_free {A} (row : list (option A)) (v : A) : list (option A) :=
  match row with
  | [] => []
  | None :: t => Some v :: t
  | Some x :: t => Some x :: first_free t v
  end.

Definition place (num per_scan : Z) (data : list (list Z)) (positions : list Z)
  : outcome (list (list (list Z))) :=
  let* result :=
    for_each (combine data positions)
      (fun '(datum, pos) result =>
         let* p := np_index num pos in
         let* current := rd result p in
         wr result p (first_free current datum))
      (repeat (repeat None (Z.to_nat per_scan)) (Z.to_nat num)) in
  (* 684-688, compatibility.py 88-92 *)
  Ok (map (map (fun o => match o with Some l => l | None => [] end)) result).

(** [bin_frames], 611-706 (a new array; [in_place] gives the same fields).
    The row of a pixel is computed with frame_shape[0] where the number of
    columns would be needed, 633-637. *)
Definition bin_frames (sa : sparse) (f : Z) : outcome sparse :=
  if f <=? 0 then value_error else
  if negb (forallb (fun x => x mod f =? 0) (sp_frame sa)) then value_error else
  match sp_frame sa with
  | [s0; s1] =>
      let data := concat (sp_data sa) in
      let rows := map (map (fun x => x / s0 / f * (s0 / f) + x mod s1 / f)) data in
      let positions :=
        flat_map (fun p => repeat p (Z.to_nat (sp_F sa))) (zseq (num_scans sa)) in
      let* (ret, (extra, extra_pos)) := split_duplicates rows positions in
      let new_data := ret ++ extra in
      let new_positions := positions ++ extra_pos in
      let* per_scan :=
        match extra with
        | [] => Ok (sp_F sa)
        | _ => np_max (map snd (np_unique_counts new_positions))
        end in
      let* result := place (num_scans sa) per_scan new_data new_positions in
      sparse_init result per_scan (sp_scan sa) [s0 / f; s1 / f]
        (sp_bits sa) (sp_slicing sa) (sp_full sa)
  | _ => index_error
  end.

(** [reshape], 339-370 (in place). *)
Definition reshape (sa : sparse) (shape : list Z) : outcome sparse :=
  let n := Zlen shape in
  if negb ((n =? 3) || (n =? 4)) then value_error else
  let scan := firstn (Z.to_nat (n - 2)) shape in
  let frame := skipn (Z.to_nat (n - 2)) shape in
  if negb (np_prod scan =? np_prod (sp_scan sa)) then value_error else
  if negb (np_prod frame =? np_prod (sp_frame sa)) then value_error else
  Ok (mkSparse (sp_data sa) (sp_F sa) scan frame (sp_bits sa) (sp_slicing sa) (sp_full sa)).

(** [ravel_scans], 372-382. *)
Definition ravel_scans (sa : sparse) : outcome sparse :=
  reshape sa (np_prod (sp_scan sa) :: sp_frame sa).
