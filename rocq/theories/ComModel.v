(** Model of the centre of mass functions of python/stempy/image/__init__.py:
    [com_sparse] with its two versions (402-616) and [com_dense] (644-665).

    float32 and float64 arithmetic is IEEE 754 (Flocq).  Event arrays are
    uint32.  Centres and crop radii are Python integers.  NumPy's rules for
    mixing arrays and Python scalars are those of NumPy 2 (a Python integer
    takes the type of the array and raises OverflowError if it does not fit).
    A frame dimension 0 is not modelled (the integer division and the shift
    then only warn or raise). *)
From Coq Require Import String ZArith List Bool.
From Flocq Require Import IEEE754.BinarySingleNaN IEEE754.Binary IEEE754.Bits.
From Verif Require Import Base Double Float32 FloatConv SparseMeanModel SparseModel.
Import ListNotations.
Open Scope Z_scope.

Definition overflow_error {A} : outcome A := Throw "OverflowError".

(** [a[mask]] for a boolean array of the same length. *)
Definition np_mask {A} (mask : list bool) (a : list A) : list A :=
  map snd (filter fst (combine mask a)).

(** [np.bincount(idx, weights, minlength=n)] with float64 accumulators, and
    without weights.  (An index that is not below n would make the result
    longer; the callers pass scan positions.) *)
Definition bincount_w (idx : list Z) (w : list double) (n : Z) : outcome (list double) :=
  for_each (combine idx w)
    (fun '(p, v) acc => let* a := rd acc p in wr acc p (d_add a v))
    (repeat (d_of_Z 0) (Z.to_nat n)).
Definition bincount (idx : list Z) (n : Z) : outcome (list Z) :=
  for_each idx (fun p acc => let* a := rd acc p in wr acc p (a + 1)) (repeat 0 (Z.to_nat n)).

(** [com[i, valid] = sum[valid] / counts[valid]] on a row full of NaN,
    467-468; the same with zeros for the other entries, 445-449. *)
Definition quotients (other : float32) (s : list double) (c : list Z) : list float32 :=
  map (fun p => if 0 <? snd p then f_of_d (d_div (fst p) (d_of_Z (snd p))) else other)
    (combine s c).

(** Decoding the coordinates, 425-436. *)
Definition decode_x (fx : Z) (ev : list Z) : list float32 :=
  if Z.land fx (fx - 1) =? 0 then map (fun e => f_of_Z (Z.shiftr e (Z.log2 fx))) ev
  else map (fun e => f_of_Z (e / fx)) ev.
Definition decode_y (fy : Z) (ev : list Z) : list float32 :=
  if Z.land fy (fy - 1) =? 0 then map (fun e => f_of_Z (Z.land e (fy - 1))) ev
  else map (fun e => f_of_Z (e mod fy)) ev.

(** [np.sqrt((x - cx)**2 + (y - cy)**2)] of float32 arrays, 441 and 453. *)
Definition f_dist (x y cx cy : float32) : float32 :=
  let dx := f_sub x cx in
  let dy := f_sub y cy in
  f_sqrt (f_add (f_mul dx dx) (f_mul dy dy)).

(** Replacing the NaNs of one component, 472-476 and 571-574.  [nanmean] is
    whatever [np.nanmean] returns (its order of summation is not specified). *)
Definition fill_nans (nanmean : list float32 -> float32) (l : list float32) : list float32 :=
  map (fun v => if f_nan v then nanmean l else v) l.
Definition replace_nans_if (nanmean : option (list float32 -> float32))
  (c : list float32 * list float32) : list float32 * list float32 :=
  match nanmean with
  | None => c
  | Some nm => (fill_nans nm (fst c), fill_nans nm (snd c))
  end.

(** [com_v1_kernel], 402-477.  The result is com[0] and com[1], flat.
    [nanmean = None]: replace_nans=False. *)
Definition com_v1_kernel (events positions scan_shape frame_shape : list Z)
  (crop_to : option Z) (init_center : option (Z * Z))
  (nanmean : option (list float32 -> float32)) : outcome (list float32 * list float32) :=
  match scan_shape, frame_shape with
  | [s0; s1], [frame_x; frame_y] =>
      let num_scans := s0 * s1 in
      let nans := repeat f_NaN (Z.to_nat num_scans) in
      if Zlen events =? 0 then Ok (nans, nans) else
      let x := decode_x frame_x events in
      let y := decode_y frame_y events in
      let* (positions, (x, y)) :=
        match crop_to with
        | None => Ok (positions, (x, y))
        | Some c =>
            match init_center with
            | Some (c0, c1) =>
                let mask := map (fun p => f_le (f_dist (fst p) (snd p) (f_of_Z c0) (f_of_Z c1)) (f_of_Z c))
                              (combine x y) in
                Ok (np_mask mask positions, (np_mask mask x, np_mask mask y))
            | None =>
                let* sx := bincount_w positions (map d_of_f x) num_scans in
                let* sy := bincount_w positions (map d_of_f y) num_scans in
                let* n := bincount positions num_scans in
                let centers_x := quotients (f_of_Z 0) sx n in
                let centers_y := quotients (f_of_Z 0) sy n in
                let* ecx := np_take centers_x positions in
                let* ecy := np_take centers_y positions in
                let mask := map (fun '((x, y), (cx, cy)) => f_le (f_dist x y cx cy) (f_of_Z c))
                              (combine (combine x y) (combine ecx ecy)) in
                Ok (np_mask mask positions, (np_mask mask x, np_mask mask y))
            end
        end in
      let* com :=
        if 0 <? Zlen positions then
          let* sx := bincount_w positions (map d_of_f x) num_scans in
          let* sy := bincount_w positions (map d_of_f y) num_scans in
          let* n := bincount positions num_scans in
          Ok (quotients f_NaN sy n, quotients f_NaN sx n)
        else Ok (nans, nans) in
      Ok (replace_nans_if nanmean com)
  | _, _ => value_error
  end.

(** [np.array(l, dtype=np.int32)]. *)
Definition np_i32 (l : list Z) : outcome (list Z) :=
  if forallb (fun p => p <? 2 ^ 31) l then Ok l else overflow_error.

(** [_com_sparse_v1], 480-521. *)
Definition com_sparse_v1 (sa : sparse) (crop_to : option Z) (init_center : option (Z * Z))
  (nanmean : option (list float32 -> float32)) : outcome (list float32 * list float32) :=
  let* (counts, (valid, frames)) :=
    for_each (enumerate (sp_data sa))
      (fun '(p, frames) '(counts, (valid, evs)) =>
         if 0 <? Zlen frames then
           let* ev := np_concatenate frames in
           if 0 <? Zlen ev then Ok (counts ++ [Zlen ev], (valid ++ [p], evs ++ [ev]))
           else Ok (counts, (valid, evs))
         else Ok (counts, (valid, evs)))
      ([], ([], [])) in
  match counts with
  | [] => com_v1_kernel [] [] (sp_scan sa) (sp_frame sa) crop_to init_center nanmean
  | _ =>
      let* valid := np_i32 valid in
      let positions := flat_map (fun p => repeat (fst p) (Z.to_nat (snd p))) (combine valid counts) in
      let* events := np_concatenate frames in
      com_v1_kernel events positions (sp_scan sa) (sp_frame sa) crop_to init_center nanmean
  end.

(** [np.sum(l) / n] of a uint32 array: the sum is uint64, both are converted to
    float64; the quotient is then stored in a float32 array. *)
Definition mean64 (l : list Z) (n : Z) : double := d_div (d_of_Z (u64 (zsum l))) (d_of_Z n).

(** [np.sqrt((x - cx)**2 + (y - cy)**2)] in uint32 (Python integer centre) and
    in float64 (centre computed by [mean64]), 549. *)
Definition u_dist (x y cx cy : Z) : double :=
  let dx := u32 (x - cx) in
  let dy := u32 (y - cy) in
  d_sqrt (d_of_Z (u32 (u32 (dx * dx) + u32 (dy * dy)))).
Definition d_dist (x y : Z) (cx cy : double) : double :=
  let dx := d_sub (d_of_Z x) cx in
  let dy := d_sub (d_of_Z y) cy in
  d_sqrt (d_add (d_mul dx dx) (d_mul dy dy)).

Definition fits_u32 (c : Z) : bool := (0 <=? c) && (c <? 2 ^ 32).

(** One position of [_com_sparse_v0], 526-568. *)
Definition com_v0_position (fx fy : Z) (crop_to : option Z) (init_center : option (Z * Z))
  (frames : list (list Z)) : outcome (float32 * float32) :=
  let* ev := np_concatenate frames in
  if 0 <? Zlen ev then
    let x := map (fun e => e / fx) ev in
    let y := map (fun e => e mod fy) ev in
    match crop_to with
    | None => Ok (f_of_d (mean64 y (Zlen ev)), f_of_d (mean64 x (Zlen ev)))
    | Some c =>
        let* keep :=
          match init_center with
          | Some (c0, c1) =>
              if fits_u32 c0 && fits_u32 c1 then
                Ok (map (fun p => d_le (u_dist (fst p) (snd p) c0 c1) (d_of_Z c)) (combine x y))
              else overflow_error
          | None =>
              let cx := mean64 x (Zlen ev) in
              let cy := mean64 y (Zlen ev) in
              Ok (map (fun p => d_le (d_dist (fst p) (snd p) cx cy) (d_of_Z c)) (combine x y))
          end in
        let x := np_mask keep x in
        let y := np_mask keep y in
        if 0 <? Zlen x then Ok (f_of_d (mean64 y (Zlen x)), f_of_d (mean64 x (Zlen x)))
        else Ok (f_NaN, f_NaN)
    end
  else Ok (f_NaN, f_NaN).

(** [_com_sparse_v0], 524-575. *)
Definition com_sparse_v0 (sa : sparse) (crop_to : option Z) (init_center : option (Z * Z))
  (nanmean : option (list float32 -> float32)) : outcome (list float32 * list float32) :=
  match sp_frame sa with
  | [fx; fy] =>
      let* l := mapM (com_v0_position fx fy crop_to init_center) (sp_data sa) in
      Ok (replace_nans_if nanmean (map fst l, map snd l))
  | _ => index_error
  end.

(** [com_sparse], 578-616: dispatch on the version (a tuple [crop_to] has been
    replaced by its maximum). *)
Definition com_sparse (sa : sparse) (crop_to : option Z) (init_center : option (Z * Z))
  (nanmean : option (list float32 -> float32)) (version : Z) : outcome (list float32 * list float32) :=
  if version =? 1 then com_sparse_v1 sa crop_to init_center nanmean
  else if version =? 0 then com_sparse_v0 sa crop_to init_center nanmean
  else value_error.

(** [com_dense], 644-665, of one frame of [w] columns given as the list of its
    integer pixels: (com_x, com_y) in float64. *)
Definition com_dense_frame (w : Z) (dp : list Z) : double * double :=
  let mm := zsum dp in
  let com_x := zsum (map (fun p => fst p mod w * snd p) (enumerate dp)) in
  let com_y := zsum (map (fun p => fst p / w * snd p) (enumerate dp)) in
  (d_div (d_of_Z com_x) (d_of_Z mm), d_div (d_of_Z com_y) (d_of_Z mm)).
