(** Histograms, average and maximum images: stempy/image.cpp:279-333, 343-372,
    583-626. *)
From Coq Require Import String ZArith List Bool.
From Verif Require Import Base BlockModel Double.
Import ListNotations.
Open Scope Z_scope.

(** std::minmax_element over n > 0 elements (image.cpp:285-289): the two
    values.  On an empty range the code dereferences the end pointer. *)
Definition min_max (pixels : list Z) (n : Z) : outcome (Z * Z) :=
  if n =? 0 then UB "minmax of an empty image"
  else
    let* v0 := rd pixels 0 in
    for_loop n (fun i mm =>
      let* v := rd pixels i in
      Ok (Z.min (fst mm) v, Z.max (snd mm) v)) (v0, v0).

(** getContainer, image.cpp:280-302: the numBins + 1 bin edges. *)
Definition getContainer (dims : Z * Z) (pixels : list Z) (numBins : Z) : outcome (list double) :=
  let* mm := min_max pixels (u32 (fst dims * snd dims)) in
  let min := d_of_Z (fst mm) in
  let max := d_of_Z (snd mm) in
  let length := d_div (d_sub max min) (d_of_Z numBins) in                       (* :293 *)
  Ok (map (fun i => d_add min (d_mul (d_of_Z i) length)) (zseq (numBins + 1))).  (* :297-299 *)

(** ++frequencies[k] on ints. *)
Definition bump (freq : list Z) (k : Z) : outcome (list Z) :=
  let* f := rd freq k in
  if f + 1 <? 2 ^ 31 then wr freq k (f + 1) else UB "signed overflow".

(** createSTEMHistogram, image.cpp:306-333.  A negative bin count makes the
    vector constructor throw (:311). *)
Definition createSTEMHistogram (dims : Z * Z) (pixels : list Z) (numBins : Z) (bins : list double)
  : outcome (list Z) :=
  if numBins <? 0 then Throw "length_error"
  else
    for_loop (u32 (fst dims * snd dims)) (fun i freq =>
      let* v := rd pixels i in
      let value := d_of_Z v in
      let* freq := for_loop numBins (fun j freq =>
        let* lo := rd bins j in
        if d_le lo value then
          let* hi := rd bins (j + 1) in
          if d_lt value hi then bump freq j else Ok freq
        else Ok freq) freq in
      let* last := rd bins numBins in
      if d_eq value last then bump freq (numBins - 1) else Ok freq)             (* :327-329 *)
      (repeat 0 (Z.to_nat numBins)).

(** Dimensions used by calculateAverage and maximumDiffractionPattern: those of
    the first block (:346, :587).  A reader's begin() on exhausted data holds an
    empty block, so an empty sequence behaves as 0 x 0 (with
    vector<Block>::iterator it would be undefined). *)
Definition first_dims (blocks : list block) : Z * Z :=
  match blocks with b :: _ => frame_dims (hdr b) | [] => (0, 0) end.

(** calculateAverage, image.cpp:343-372. *)
Definition calculateAverage (blocks : list block) : outcome ((Z * Z) * list double) :=
  let fd := first_dims blocks in
  let numDetectorPixels := u32 (fst fd * snd fd) in
  let* s := for_each blocks (fun b s =>
    let npix := u32 (fst (frame_dims (hdr b)) * snd (frame_dims (hdr b))) in
    let* img := for_loop (images_in_block (hdr b)) (fun i img =>
      for_loop npix (fun j img =>
        let* d := block_data b in
        let* v := rd d (u32 (u32 (i * npix) + j)) in
        let* o := rd img j in
        wr img j (d_add o (d_of_Z v))) img) (fst s) in
    Ok (img, u64 (snd s + images_in_block (hdr b))))
    (repeat (d_of_Z 0) (Z.to_nat numDetectorPixels), 0) in
  let* img := for_loop numDetectorPixels (fun i img =>
    let* o := rd img i in wr img i (d_div o (d_of_Z (snd s)))) (fst s) in       (* :366-369 *)
  Ok (fd, img).

(** maximumDiffractionPattern, image.cpp:583-617.  [dark] is the dark reference's
    dimensions and pixels; its floats are given as the doubles they convert to
    (exact). *)
Definition maximumDiffractionPattern (blocks : list block) (dark : (Z * Z) * list double)
  : outcome ((Z * Z) * list double) :=
  let fd := first_dims blocks in
  let numDetectorPixels := u32 (fst fd * snd fd) in
  let* img := for_each blocks (fun b img =>
    let npix := u32 (fst (frame_dims (hdr b)) * snd (frame_dims (hdr b))) in
    for_loop (images_in_block (hdr b)) (fun i img =>
      for_loop npix (fun j img =>
        let* d := block_data b in
        let* v := rd d (u32 (u32 (i * npix) + j)) in
        let* o := rd img j in
        if d_lt o (d_of_Z v) then wr img j (d_of_Z v) else Ok img) img) img)
    (repeat (d_of_Z 0) (Z.to_nat numDetectorPixels)) in
  let* img :=
    (if 0 <? fst (fst dark) then
       for_loop numDetectorPixels (fun i img =>
         let* o := rd img i in
         let* k := rd (snd dark) i in
         wr img i (d_sub o k)) img
     else Ok img) in                                                            (* :610-614 *)
  Ok (fd, img).

(** maximumDiffractionPattern without a dark reference, image.cpp:619-626. *)
Definition maximumDiffractionPattern_nodark (blocks : list block) :=
  maximumDiffractionPattern blocks ((0, 0), []).
