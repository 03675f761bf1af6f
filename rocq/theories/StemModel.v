(** STEM images: stempy/mask.cpp, stempy/image.cpp (non-VTKm build). *)
From Coq Require Import ZArith List String Bool.
From Verif Require Import Base BlockModel PoolModel.
Import ListNotations.
Open Scope Z_scope.

(** static_cast<int>(double) of an integral value. *)
Definition to_int (z : Z) : outcome Z :=
  if (- 2 ^ 31 <=? z) && (z <? 2 ^ 31) then Ok z else UB "double to int overflow".

(** static_cast<int>(round(n / 2.0)) for an unsigned n (mask.cpp:16,19;
    image.cpp:505,508): std::round rounds half away from zero, n / 2.0 is exact. *)
Definition round_half (n : Z) : outcome Z := to_int ((n + 1) / 2).

(** The default applied to each negative centre coordinate (mask.cpp:15-19,
    image.cpp:504-508). *)
Definition default_center (dims center : Z * Z) : outcome (Z * Z) :=
  let* cx := (if fst center <? 0 then round_half (fst dims) else Ok (fst center)) in
  let* cy := (if snd center <? 0 then round_half (snd dims) else Ok (snd center)) in
  Ok (cx, cy).

(** createAnnularMask, mask.cpp:9-34.
    Simplification: [d] is a sum of two squares computed in double; it is
    modelled exactly.  Both sides of each comparison are non-negative and the
    right-hand side is below 2^31, so rounding of squares above 2^53 cannot
    change the comparison. *)
Definition createAnnularMask (dims : Z * Z) (innerRadius outerRadius : Z)
    (center : Z * Z) : outcome (list Z) :=
  let numberOfElements := u32 (fst dims * snd dims) in          (* :12 *)
  let* c := default_center dims center in                       (* :15-19 *)
  let* inner := to_int (innerRadius ^ 2) in                     (* :21 *)
  let* outer := to_int (outerRadius ^ 2) in                     (* :22 *)
  for_loop numberOfElements (fun i mask =>                      (* :24 *)
    let x := i32_of_u32 (i mod fst dims) in                     (* :26 *)
    let y := i32_of_u32 (i / fst dims) in                       (* :27 *)
    let d := (x - fst c) ^ 2 + (y - snd c) ^ 2 in               (* :29 *)
    wr mask i (if (inner <=? d) && (d <? outer) then 65535 else 0)) (* :30 *)
    (repeat 0 (Z.to_nat numberOfElements)).                     (* :13 *)

(** calculateSTEMValues, image.cpp:40-52 (the .data component). *)
Definition calculateSTEMValues (dat : list Z) (offset numberOfPixels : Z)
    (mask : list Z) : outcome Z :=
  for_loop numberOfPixels (fun i acc =>
    let* value := rd dat (offset + i) in
    let* m := rd mask i in
    Ok (u64 (acc + Z.land value m))) 0.

(** The shared memory of the workers: one image per mask. *)
Definition images := list (list Z).

(** One iteration of the loop of _runCalculateSTEMValues, image.cpp:142-158:
    image [i] of block [b] is reduced with mask [k] and stored. *)
Record stem_op := mkStemOp { op_mask : nat; op_block : block; op_index : Z }.

Definition stem_exec (masks : list (list Z)) (numberOfPixels : Z)
    (o : stem_op) (imgs : images) : outcome images :=
  let* d := block_data (op_block o) in
  let* mask := rd masks (Z.of_nat (op_mask o)) in
  let offset := u64 (op_index o * numberOfPixels) in            (* :144 *)
  let* v := calculateSTEMValues d offset numberOfPixels mask in (* :153 *)
  let* img := rd imgs (Z.of_nat (op_mask o)) in
  let* pos := rd (image_numbers (hdr (op_block o))) (op_index o) in
  let* img' := wr img pos v in                                  (* :157 *)
  wr imgs (Z.of_nat (op_mask o)) img'.

(** _runCalculateSTEMValues as the task of one (block, mask), image.cpp:131-159. *)
Definition stem_task (b : block) (k : nat) : list stem_op :=
  map (mkStemOp k b) (zseq (Zlen (image_numbers (hdr b)))).

(** The tasks in the order the main thread enqueues them, image.cpp:234-267. *)
Definition stem_tasks (blocks : list block) (nmasks : nat) : list (list stem_op) :=
  flat_map (fun b => map (stem_task b) (seq 0 nmasks)) blocks.

(** Masks for all detectors, image.cpp:215-223. *)
Fixpoint create_masks (dims : Z * Z) (inner outer : list Z) (center : Z * Z)
  : outcome (list (list Z)) :=
  match inner, outer with
  | i :: it, o :: ot =>
    let* m := createAnnularMask dims i o center in
    let* r := create_masks dims it ot center in
    Ok (m :: r)
  | _, _ => Ok []
  end.

(** Everything createSTEMImages does before starting the pool,
    image.cpp:169-223: validation, zeroed images, masks.  Result: number of
    pixels per frame, masks, initial images. *)
Definition stem_setup (blocks : list block) (inner outer : list Z)
    (scanDims : Z * Z) (center : Z * Z) : outcome (Z * list (list Z) * images) :=
  match blocks with
  | [] => Throw "No blocks to read!"                                (* :169 *)
  | b0 :: _ =>
    if (match inner with [] => true | _ => false end)
       || (match outer with [] => true | _ => false end)
    then Throw "innerRadii or outerRadii are empty!"                (* :175 *)
    else if negb (Zlen inner =? Zlen outer)
    then Throw "innerRadii and outerRadii are not the same size!"   (* :181 *)
    else
      let sd := if (fst scanDims =? 0) || (snd scanDims =? 0)
                then scan_dims (hdr b0) else scanDims in             (* :188 *)
      if (fst sd <=? 0) || (snd sd <=? 0)
      then Throw "No scan image size provided."                     (* :193 *)
      else
        let img := repeat 0 (Z.to_nat (u32 (fst sd * snd sd))) in   (* :199-203 *)
        let fd := frame_dims (hdr b0) in
        let npix := u32 (fst fd * snd fd) in                        (* :206 *)
        let* masks := create_masks fd inner outer center in         (* :215 *)
        Ok (npix, masks, repeat img (List.length inner))
  end.

(** createSTEMImages (dense), image.cpp:162-277, run under the schedule [cs].
    [None]: the schedule is not an execution of the pool (a blocked thread was
    chosen) or does not run to completion.  Two worker threads (image.cpp:229). *)
Definition pool_finished {op mem} (p : pool op mem) : bool :=
  match pending p, queue p with
  | [], [] => forallb (fun w => match w with [] => true | _ => false end) (workers p)
  | _, _ => false
  end.

Definition createSTEMImages (blocks : list block) (inner outer : list Z)
    (scanDims center : Z * Z) (cs : list choice) : option (outcome images) :=
  match stem_setup blocks inner outer scanDims center with
  | Ok (npix, masks, imgs) =>
    match pool_run (stem_exec masks npix) cs
            (pool_init 2 (stem_tasks blocks (List.length masks)) imgs) with
    | Some p => if pool_finished p then Some (memory p) else None
    | None => None
    end
  | Throw s => Some (Throw s)
  | UB s => Some (UB s)
  | OutOfFuel => Some OutOfFuel
  end.

(** calculateSTEMValuesSparse, image.h:58-74: [sparse] is indexed by position,
    then by frame at that position. *)
Definition calculateSTEMValuesSparse (sparse : list (list (list Z)))
    (mask image : list Z) : outcome (list Z) :=
  for_loop (Zlen sparse) (fun i image =>
    let* frames := rd sparse i in
    for_each frames (fun events image =>
      let* values := for_each events (fun pos acc =>
        let* m := rd mask pos in Ok (u64 (acc + m))) 0 in
      let* old := rd image i in
      wr image i (u64 (old + values))) image) image.

Fixpoint sparse_images (sparse : list (list (list Z))) (masks : list (list Z))
    (image0 : list Z) : outcome images :=
  match masks with
  | [] => Ok []
  | m :: r =>
    let* im := calculateSTEMValuesSparse sparse m image0 in
    let* rest := sparse_images sparse r image0 in
    Ok (im :: rest)
  end.

(** createSTEMImages (sparse), image.h:76-110. *)
Definition createSTEMImagesSparse (sparse : list (list (list Z)))
    (inner outer : list Z) (scanDims frameDims center : Z * Z) : outcome images :=
  if (match inner with [] => true | _ => false end)
     || (match outer with [] => true | _ => false end)
  then Throw "innerRadii or outerRadii are empty!"                  (* :83 *)
  else if negb (Zlen inner =? Zlen outer)
  then Throw "innerRadii and outerRadii are not the same size!"     (* :89 *)
  else
    let image0 := repeat 0 (Z.to_nat (u32 (fst scanDims * snd scanDims))) in
    let* masks := create_masks frameDims inner outer center in      (* :97-101 *)
    sparse_images sparse masks image0.                              (* :103 *)
