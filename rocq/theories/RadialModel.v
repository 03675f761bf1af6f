(** Radial sums: stempy/image.cpp:54-61, 374-395, 461-581 (non-VTKm build). *)
From Coq Require Import String ZArith List Bool.
From Verif Require Import Base BlockModel PoolModel StemModel.
Import ListNotations.
Open Scope Z_scope.

(** Subtraction of two ints (image.cpp:375). *)
Definition int_sub (a b : Z) : outcome Z :=
  let d := a - b in
  if (- 2 ^ 31 <=? d) && (d <? 2 ^ 31) then Ok d else UB "signed overflow".

(** distance, image.cpp:374-376, without the square root: the sum of squares.
    Simplification: exact; RadialFloat.v proves that rounding to binary64 after
    each multiplication and addition changes nothing for |dx|, |dy| <= 2^24
    (assuming pow(x, 2.0) is x*x correctly rounded). *)
Definition distance_sq (x1 y1 x2 y2 : Z) : outcome Z :=
  let* dx := int_sub x1 x2 in
  let* dy := int_sub y1 y2 in
  Ok (dx * dx + dy * dy).

(** std::ceil(sqrt(n)).  Simplification: exact; RadialFloat.v proves that the
    binary64 computation gives this value for 0 <= n < 2^50. *)
Definition ceil_sqrt (n : Z) : Z :=
  let s := Z.sqrt n in if s * s =? n then s else s + 1.

(** The largest corner distance (squared), image.cpp:512-523.  The comparison of
    the square roots is the comparison of the squares. *)
Definition max_corner_sq (dims center : Z * Z) : outcome Z :=
  for_loop 2 (fun x max =>
    for_loop 2 (fun y max =>
      let* d := distance_sq (i32_of_u32 (u32 (x * fst dims))) (i32_of_u32 (u32 (y * snd dims)))
                            (fst center) (snd center) in
      Ok (if max <? d then d else max)) max) 0.

(** One iteration of the pixel loop of radialSumFrame, image.cpp:383-394:
    pixel [rs_pixel] of image [rs_image] of block [rs_block] is added atomically. *)
Record radial_op := mkRadialOp { rs_block : block; rs_image : Z; rs_pixel : Z }.

Definition radial_exec (dims center scan : Z * Z) (npix : Z) (o : radial_op) (mem : list Z)
  : outcome (list Z) :=
  let* d := block_data (rs_block o) in
  let* imageNumber := rd (image_numbers (hdr (rs_block o))) (rs_image o) in    (* :469 *)
  let offset := u64 (rs_image o * npix) in                                     (* :468 *)
  let x := i32_of_u32 (rs_pixel o mod fst dims) in                             (* :384 *)
  let y := i32_of_u32 (rs_pixel o / fst dims) in                               (* :385 *)
  let* dsq := distance_sq x y (fst center) (snd center) in
  let* radius := to_int (ceil_sqrt dsq) in                                     (* :387 *)
  let address := u32 (u32 (radius * fst scan) * snd scan)
                 + i32_of_u32 imageNumber in                                   (* :389-392 *)
  let* value := rd d (offset + rs_pixel o) in
  let* old := rd mem address in
  wr mem address (u64 (old + value)).                                          (* :393 *)

(** radialSumFrames as the task of one block, image.cpp:461-473, 564-571. *)
Definition radial_task (npix : Z) (b : block) : list radial_op :=
  flat_map (fun i => map (mkRadialOp b i) (zseq npix)) (zseq (Zlen (image_numbers (hdr b)))).

(** Everything radialSum does before starting the pool, image.cpp:477-533.
    Result: frame size, centre, scan size, pixels per frame, number of radii,
    zeroed buffer (RadialSum ctor, image.cpp:54-61). *)
Definition radial_setup (blocks : list block) (scanDims center : Z * Z)
  : outcome (Z * Z * (Z * Z) * (Z * Z) * Z * Z * list Z) :=
  match blocks with
  | [] => Throw "No blocks to read!"                                           (* :480 *)
  | b0 :: _ =>
    let sd := if (fst scanDims =? 0) || (snd scanDims =? 0)
              then scan_dims (hdr b0) else scanDims in                         (* :487 *)
    if (fst sd <=? 0) || (snd sd <=? 0)
    then Throw "No scan image size provided."                                  (* :492 *)
    else
      let fd := frame_dims (hdr b0) in
      let npix := u32 (fst fd * snd fd) in                                     (* :500 *)
      let* c := default_center fd center in                                    (* :503-507 *)
      let* m := max_corner_sq fd c in                                          (* :511-522 *)
      let* maxRadius := to_int (ceil_sqrt m) in                                (* :524 *)
      let radii := maxRadius + 1 in                                            (* :533 *)
      Ok (fd, c, sd, npix, radii,
          repeat 0 (Z.to_nat (u32 (u32 (fst sd * snd sd) * radii))))
  end.

(** radialSum under the schedule [cs] (two pool threads, image.cpp:531). *)
Definition radialSum (blocks : list block) (scanDims center : Z * Z) (cs : list choice)
  : option (outcome (Z * list Z)) :=
  match radial_setup blocks scanDims center with
  | Ok (fd, c, sd, npix, radii, mem) =>
    match pool_run (radial_exec fd c sd npix) cs
            (pool_init 2 (map (radial_task npix) blocks) mem) with
    | Some p => if pool_finished p
                then Some (let* m := memory p in Ok (radii, m)) else None
    | None => None
    end
  | Throw s => Some (Throw s)
  | UB s => Some (UB s)
  | OutOfFuel => Some OutOfFuel
  end.
