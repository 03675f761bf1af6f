(** Model of the helper functions of python/stempy/image/__init__.py that work
    on sparse arrays or on a centre-of-mass map: [calculate_sum_sparse],
    [radial_sum_sparse], [virtual_darkfield], [mask_real_space],
    [filter_bad_sectors] and [_safe_cast].

    NumPy arrays are flat lists in C order with their shape; events are uint32
    arrays; Python integers given by the caller are [Z].  float64 and float32
    are IEEE numbers (Flocq). *)
From Coq Require Import String ZArith List Bool.
From Verif Require Import Base Double Float32 FloatConv SparseModel SparseMeanModel ComModel.
Import ListNotations.
Open Scope Z_scope.

Definition assertion_error {A} : outcome A := Throw "AssertionError".

(** [calculate_sum_sparse], 668-686.  The argument is an object array; iterating
    it gives [ev], iterating [ev] gives [ee].  For a one-dimensional array (one
    event list per position) [ee] is an event and [dp[ee] += 1] raises one
    element; for a two-dimensional one (SparseArray.data) [ee] is the event
    array of a frame and [dp[ee] += 1] is an indexed increment.  The result is
    flat; uint64. *)
Definition calculate_sum_events (counts : list (list Z)) (dims : Z * Z) : outcome (list Z) :=
  for_each counts
    (fun ev dp => for_each ev
       (fun ee dp =>
          let* k := np_index (Zlen dp) ee in
          let* v := rd dp k in
          wr dp k (wrapu 64 (v + 1))) dp)
    (repeat 0 (Z.to_nat (fst dims * snd dims))).
Definition calculate_sum_frames (counts : list (list (list Z))) (dims : Z * Z) : outcome (list Z) :=
  for_each counts
    (fun ev dp => for_each ev (fun ee dp => np_inc 64 dp ee) dp)
    (repeat 0 (Z.to_nat (fst dims * snd dims))).

(** [mask_real_space], 900-920.  [mask]: shape and flat truth values of the mask
    array.  [np.where(mask)] gives one index array per axis of the mask, which
    [np.ravel_multi_index] needs to match the scan axes. *)
Definition mask_real_space (sa : sparse) (mshape : list Z) (mask : list bool) : outcome (list Z) :=
  match sp_scan sa, mshape with
  | s0 :: s1 :: _, m0 :: m1 :: more =>
      if (s0 =? m0) && (s1 =? m1) then
        match more with
        | [] =>
            let mr := true_positions mask in
            let* rows := np_take (sp_data sa) mr in
            for_each rows
              (fun events dp => for_each events (fun ev dp => np_inc (sp_bits sa) dp ev) dp)
              (repeat 0 (Z.to_nat (frame_size sa)))
        | _ => value_error
        end
      else assertion_error
  | s0 :: _, m0 :: _ => if s0 =? m0 then index_error else assertion_error
  | _, _ => index_error
  end.

(** [virtual_darkfield], 803-848: the inner loop over the apertures for one
    event array.  Single numbers have been made tuples of length one; [zip]
    stops at the shortest tuple. *)
Definition vdf_frame (bits fx fy : Z) (apertures : list (Z * (Z * Z))) (ev : list Z) (v : Z) : outcome Z :=
  let ev_rows := map (fun e => e / fx) ev in
  let ev_cols := map (fun e => e mod fy) ev in
  for_each apertures
    (fun '(cc_0, (cc_1, rr)) v =>
       if fits_u32 cc_1 && fits_u32 cc_0 then
         let dist := map (fun p => u_dist (fst p) (snd p) cc_1 cc_0) (combine ev_rows ev_cols) in
         Ok (wrapu bits (v + Zlen (filter (fun d => d_lt d (d_of_Z rr)) dist)))
       else overflow_error) v.

Definition virtual_darkfield (sa : sparse) (centers_x centers_y radii : list Z) : outcome (list Z) :=
  match sp_frame sa, sp_shape sa with
  | [fx; fy], n0 :: n1 :: _ =>
      let* img :=
        for_each (enumerate (sp_data sa))
          (fun '(ii, events) img =>
             for_each events
               (fun ev img =>
                  let* v := rd img ii in
                  let* v' := vdf_frame (sp_bits sa) fx fy (combine centers_x (combine centers_y radii)) ev v in
                  wr img ii v') img)
          (repeat 0 (Z.to_nat (n0 * n1))) in
      if Zlen img =? num_scans sa then Ok img else value_error
  | _, _ => index_error
  end.

(** int64 arithmetic of NumPy (wraps). *)
Definition i64 (z : Z) : Z := (z + 2 ^ 63) mod 2 ^ 64 - 2 ^ 63.

(** [np.histogram(r, bins=range(0, n + 1))]: with explicit edges NumPy counts
    the values below every edge (at most the last edge for the last one) and
    takes differences. *)
Definition np_histogram (r : list double) (n : Z) : list Z :=
  let cum k := if k =? n then Zlen (filter (fun x => d_le x (d_of_Z k)) r)
               else Zlen (filter (fun x => d_lt x (d_of_Z k)) r) in
  map (fun k => cum (k + 1) - cum k) (zseq n).

(** [radial_sum_sparse], 689-717.  [np.unravel_index] raises for an event
    outside the frame and returns int64 arrays.  The rows of the result are
    those of [r_sum]; the final reshape needs a two-dimensional scan. *)
Definition radial_sum_sparse (sa : sparse) (center : Z * Z) : outcome (list (list Z)) :=
  match sp_frame sa with
  | [fx; fy] =>
      let num_bins := Z.max fx fy / 2 in
      let* r_sum :=
        for_each (enumerate (sp_data sa))
          (fun '(ii, frames) r_sum =>
             for_each frames
               (fun events r_sum =>
                  if forallb (fun e => (0 <=? e) && (e <? fx * fy)) events then
                    let r := map (fun e =>
                               let dx := i64 (e / fy - fst center) in
                               let dy := i64 (e mod fy - snd center) in
                               d_sqrt (d_of_Z (i64 (i64 (dx * dx) + i64 (dy * dy))))) events in
                    let hh := np_histogram r num_bins in
                    let* row := rd r_sum ii in
                    wr r_sum ii (map (fun p => fst p + snd p) (combine row hh))
                  else value_error) r_sum)
          (repeat (repeat 0 (Z.to_nat num_bins)) (Z.to_nat (num_scans sa))) in
      match sp_scan sa with
      | [_; _] => Ok r_sum
      | _ => index_error
      end
  | _ => value_error
  end.

(** [a > b] and [a < b] of float32 values (false for NaN). *)
Definition f_lt (x y : float32) : bool :=
  match Binary.Bcompare 24 128 x y with Some Lt => true | _ => false end.

(** [np.nanmedian] of an array of float32: drops the NaNs, sorts, takes the
    middle value or the mean of the two middle values; NaN for no value. *)
Fixpoint f_insert (x : float32) (l : list float32) : list float32 :=
  match l with
  | [] => [x]
  | y :: t => if f_le x y then x :: y :: t else y :: f_insert x t
  end.
Definition f_sort (l : list float32) : list float32 := fold_right f_insert [] l.
Definition np_nanmedian (l : list float32) : float32 :=
  let s := f_sort (filter (fun x => negb (f_nan x)) l) in
  let n := Zlen s in
  if n =? 0 then f_NaN
  else if n mod 2 =? 1 then nth (Z.to_nat (n / 2)) s f_NaN
  else f_div (f_add (nth (Z.to_nat (n / 2 - 1)) s f_NaN) (nth (Z.to_nat (n / 2)) s f_NaN)) (f_of_Z 2).

(** [a[lo:hi]] on an axis of length n: a negative start counts from the end. *)
Definition py_slice (n lo hi : Z) : list Z :=
  let lo := Z.min n (if lo <? 0 then Z.max 0 (lo + n) else lo) in
  let hi := Z.min n (if hi <? 0 then Z.max 0 (hi + n) else hi) in
  map (fun k => lo + k) (zseq (hi - lo)).

(** [com[k, ii - 1:ii + 2, jj - 1:jj + 2]] of a component of shape (m, n). *)
Definition window (m n : Z) (c : list float32) (ii jj : Z) : list float32 :=
  flat_map (fun a => map (fun b => nth (Z.to_nat (a * n + b)) c f_NaN) (py_slice n (jj - 1) (jj + 2)))
    (py_slice m (ii - 1) (ii + 2)).

(** [filter_bad_sectors], 619-642: the two components, flat, of shape (m, n).
    (The code also changes its argument; the result is that argument.) *)
Definition filter_bad_sectors (m n : Z) (com0 com1 : list float32) (cut0 cut1 : float32)
  : outcome (list float32 * list float32) :=
  let bad := map (fun v => f_lt cut1 v || f_lt v cut0) com1 in
  let blank (c : list float32) := map (fun p => if fst p : bool then f_NaN else snd p) (combine bad c) in
  for_each (true_positions bad)
    (fun p '(c0, c1) =>
       let ii := p / n in
       let jj := p mod n in
       let* c0 := wr c0 p (np_nanmedian (window m n c0 ii jj)) in
       let* c1 := wr c1 p (np_nanmedian (window m n c1 ii jj)) in
       Ok (c0, c1))
    (blank com0, blank com1).

(** [_safe_cast] of a float64 array to float32, 720-731: the cast array, or
    ValueError if casting back changes a value (NaN differs from itself). *)
Definition safe_cast (a : list double) : outcome (list float32) :=
  let a' := map f_of_d a in
  if existsb (fun p => negb (d_eq (d_of_f (fst p)) (snd p))) (combine a' a) then value_error
  else Ok a'.

(** The gain argument of [electron_count], 241-244: [np.power(gain, -1)] of a
    float64 array, then [_safe_cast]. *)
Definition prepare_gain (gain : list double) : outcome (list float32) :=
  safe_cast (map (fun g => d_div (d_of_Z 1) g) gain).
