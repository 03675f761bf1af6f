(** Electron finding in one frame: stempy/electron.cpp:239-561 (non-VTKm build).
    The code is a template over the pixel type (uint16_t or float).  The model is
    generic too: [frame_ops] lists the primitive operations of the pixel type
    [T], of the [float] references [F] and of the [double] thresholds [D].  A
    theorem about an arbitrary [frame_ops] holds for IEEE arithmetic with
    whatever rounding; conversions that C++ leaves undefined are [UB]. *)
From Coq Require Import ZArith List String Bool QArith Qround.
From Verif Require Import Base BlockModel.
Import ListNotations.
Open Scope Z_scope.

Record frame_ops (T F D : Type) := mkFrameOps {
  op_integral : bool;                    (* std::is_integral<FrameType>::value *)
  op_of_u16 : Z -> T;                    (* copying raw uint16 data into the frame *)
  op_sub_cast : T -> F -> outcome T;     (* x -= static_cast<FrameType>(d) *)
  op_sub : T -> F -> outcome T;          (* x -= d, converting the float result *)
  op_mul : T -> F -> outcome T;          (* x *= g, converting the float result *)
  op_zero : T;
  op_le : T -> D -> bool;                (* x <= threshold *)
  op_ge : T -> D -> bool;                (* x >= threshold *)
  op_gt : T -> T -> bool;                (* x > y *)
  op_mean : list T -> F;                 (* accumulate / size *)
  op_median : list T -> outcome F;       (* nth_element based median *)
  op_ratio : F -> F -> outcome F         (* optimizedMean / stat *)
}.
Arguments mkFrameOps {T F D}.
Arguments op_integral {T F D}. Arguments op_of_u16 {T F D}.
Arguments op_sub_cast {T F D}. Arguments op_sub {T F D}. Arguments op_mul {T F D}.
Arguments op_zero {T F D}. Arguments op_le {T F D}. Arguments op_ge {T F D}.
Arguments op_gt {T F D}. Arguments op_mean {T F D}. Arguments op_median {T F D}.
Arguments op_ratio {T F D}.

(** mod, electron.cpp:332-335, arguments converted to uint16_t. *)
Definition mod16 (x y : Z) : outcome Z :=
  let x := u16 x in
  let y := u16 y in
  if y =? 0 then UB "modulo by zero"
  else Ok (u16 ((x mod y + y) mod y)).

(** [event && cond] where cond reads memory only if event still holds. *)
Definition and_then (event : bool) (cond : outcome bool) : outcome bool :=
  if event then cond else Ok false.

(** [guard || pixelValue > frame[idx]] *)
Definition or_greater {T} (gt : T -> T -> bool) (guard : bool) (v : T)
    (frame : list T) (idx : Z) : outcome bool :=
  if guard then Ok true else let* n := rd frame idx in Ok (gt v n).

(** The test performed for pixel [i], electron.cpp:349-398. *)
Definition is_maximal {T} (gt : T -> T -> bool) (frame : list T)
    (width height i : Z) : outcome bool :=
  let row := i / width in                                            (* :349 *)
  let column := i mod width in                                       (* :350 *)
  let* rightc := mod16 (u32 (column + 1)) width in                    (* :351 *)
  let* leftc := mod16 (u32 (column - 1)) width in                     (* :352 *)
  let* top := mod16 (u32 (row - 1)) height in                        (* :353 *)
  let* bottom := mod16 (u32 (row + 1)) height in                     (* :354 *)
  let* v := rd frame i in                                            (* :355 *)
  let bottomIndex := u32 (bottom * width) in                         (* :356 *)
  let topIndex := u32 (top * width) in                               (* :357 *)
  let rowIndex := u32 (row * width) in                               (* :358 *)
  let first := column =? 0 in
  let last := column =? u32 (width - 1) in
  let* event :=                                                      (* :363-375 *)
    (if negb (row =? 0) then
       let* e := or_greater gt false v frame (u32 (topIndex + column)) in
       let* e := and_then e (or_greater gt first v frame (u32 (topIndex + leftc))) in
       and_then e (or_greater gt last v frame (u32 (topIndex + rightc)))
     else Ok true) in
  let* event :=                                                      (* :378-391 *)
    (if event && negb (row =? u32 (height - 1)) then
       let* e := or_greater gt false v frame (u32 (bottomIndex + column)) in
       let* e := and_then e (or_greater gt first v frame (u32 (bottomIndex + leftc))) in
       and_then e (or_greater gt last v frame (u32 (bottomIndex + rightc)))
     else Ok event) in
  let* event := and_then event (or_greater gt first v frame (u32 (rowIndex + leftc))) in
  and_then event (or_greater gt last v frame (u32 (rowIndex + rightc))). (* :394-398 *)

(** maximalPoints, electron.cpp:339-406. *)
Definition maximalPoints {T} (gt : T -> T -> bool) (frame : list T)
    (dims : Z * Z) : outcome (list Z) :=
  let width := fst dims in
  let height := snd dims in
  let numberOfPixels := u32 (height * width) in
  for_loop numberOfPixels (fun i events =>
    let* e := is_maximal gt frame width height i in
    Ok (if e then events ++ [i] else events)) [].

(** A possibly null float array. *)
Definition deref {F} (p : option (list F)) (j : Z) : outcome F :=
  match p with
  | None => UB "null array"
  | Some a => rd a j
  end.

Section Preprocess.
Context {T F D : Type}.
Variable ops : frame_ops T F D.

(** The thresholding shared by all paths, electron.cpp:299-301, 487-489, 553-555. *)
Definition threshold_pixel (bg xray : D) (v : T) : T :=
  if op_le ops v bg || op_ge ops v xray then op_zero ops else v.

(** Standard pre-processing of pixel j in the threaded path, electron.cpp:541-556.
    [dark] is the template argument, [gain] is dereferenced only for float frames. *)
Definition preprocess_pixel (dark : bool) (darkRef gain : option (list F))
    (bg xray : D) (j : Z) (frame : list T) : outcome (list T) :=
  let* v := rd frame j in
  let* v := (if dark then let* d := deref darkRef j in op_sub_cast ops v d else Ok v) in
  let* v := (if op_integral ops then Ok v
             else let* g := deref gain j in op_mul ops v g) in
  wr frame j (threshold_pixel bg xray v).

Definition preprocess (dark : bool) (darkRef gain : option (list F)) (bg xray : D)
    (dims : Z * Z) (frame : list T) : outcome (list T) :=
  for_loop (u32 (fst dims * snd dims))
    (preprocess_pixel dark darkRef gain bg xray) frame.

(** Pre-processing in the classic path, electron.cpp:475-491: the dark reference
    is used unconditionally. *)
Definition preprocess_classic_pixel (darkRef gain : option (list F))
    (bg xray : D) (j : Z) (frame : list T) : outcome (list T) :=
  let* v := rd frame j in
  let* d := deref darkRef j in
  let* v := op_sub ops v d in
  let* v := (if op_integral ops then Ok v
             else let* g := deref gain j in op_mul ops v g) in
  wr frame j (threshold_pixel bg xray v).

Definition preprocess_classic (darkRef gain : option (list F)) (bg xray : D)
    (dims : Z * Z) (frame : list T) : outcome (list T) :=
  for_loop (u32 (fst dims * snd dims))
    (preprocess_classic_pixel darkRef gain bg xray) frame.

(** frame.begin() + start .. frame.begin() + stop *)
Definition slice (frame : list T) (start stop : Z) : outcome (list T) :=
  if (0 <=? start) && (start <=? stop) && (stop <=? Zlen frame)
  then Ok (firstn (Z.to_nat (stop - start)) (skipn (Z.to_nat start) frame))
  else UB "iterator range outside the frame".

(** The inner loop body of applyRowDark, electron.cpp:285-302. *)
Definition rowdark_pixel (optimizedMean stat : F) (globalDark gain : option (list F))
    (bg xray : D) (i : Z) (frame : list T) : outcome (list T) :=
  let* v := rd frame i in
  let* v := (match globalDark with
             | Some a => let* d := rd a i in op_sub ops v d
             | None => Ok v
             end) in                                                  (* :287 *)
  let* r := op_ratio ops optimizedMean stat in
  let* v := op_mul ops v r in                                         (* :290 *)
  let* v := (if op_integral ops then Ok v
             else let* g := deref gain i in op_mul ops v g) in        (* :294 *)
  wr frame i (threshold_pixel bg xray v).                             (* :299 *)

(** The lambda [apply], electron.cpp:282-303. *)
Definition rowdark_apply (useMean : bool) (optimizedMean : F)
    (globalDark gain : option (list F)) (bg xray : D)
    (start stop : Z) (frame : list T) : outcome (list T) :=
  let* s := slice frame start stop in
  let* stat := (if useMean then Ok (op_mean ops s) else op_median ops s) in
  for_from (Z.to_nat (stop - start)) start
    (rowdark_pixel optimizedMean stat globalDark gain bg xray) frame.

(** applyRowDark, electron.cpp:239-329.  Note height = frameDimensions.first and
    width = frameDimensions.second, as in the code (the convention elsewhere is
    (width, height)). *)
Definition applyRowDark (useMean : bool) (optimizedMean : F)
    (globalDark gain : option (list F)) (bg xray : D) (dims : Z * Z)
    (frame : list T) : outcome (list T) :=
  let height := fst dims in                                           (* :245 *)
  let width := snd dims in                                            (* :246 *)
  let leftSize := width / 2 in                                        (* :249 *)
  let rightSize := u32 (width - leftSize) in                          (* :250 *)
  for_loop height (fun row frame =>                                   (* :307 *)
    let i := u32 (row * width) in
    let* frame := rowdark_apply useMean optimizedMean globalDark gain bg xray
                    i (u32 (i + leftSize)) frame in
    rowdark_apply useMean optimizedMean globalDark gain bg xray
                  (u32 (i + leftSize)) (u32 (u32 (i + leftSize) + rightSize)) frame)
    frame.

(** electronCount of one frame (threaded path), electron.cpp:527-561. *)
Definition electronCountFrame (dark : bool) (darkRef gain : option (list F))
    (bg xray : D) (applyRowDarkSubtraction : bool) (optimizedMean : F)
    (useMean : bool) (dims : Z * Z) (frame : list T) : outcome (list Z) :=
  let* frame := (if applyRowDarkSubtraction
                 then applyRowDark useMean optimizedMean darkRef gain bg xray dims frame
                 else preprocess dark darkRef gain bg xray dims frame) in
  maximalPoints (op_gt ops) frame dims.

(** Frame i of a block, electron.cpp:455-459, 623-627, 766-770 (pointer
    arithmetic in uint32). *)
Definition block_frame (d : list Z) (dims : Z * Z) (i : Z) : outcome (list T) :=
  let n := u32 (fst dims * snd dims) in
  let start := u32 (i * fst dims * snd dims) in
  if start + n <=? Zlen d
  then Ok (map (op_of_u16 ops) (firstn (Z.to_nat n) (skipn (Z.to_nat start) d)))
  else UB "frame outside the block data".

End Preprocess.

(** The uint16_t instance.  Dark and gain references and thresholds are finite
    floats, i.e. rationals.  Float subtraction/multiplication in the row-dark
    path is taken exact before truncation (simplification). *)
Definition qtrunc (q : Q) : Z := Z.quot (Qnum q) (Zpos (Qden q)).

(** Conversion float -> uint16_t: truncation, undefined when out of range. *)
Definition to_u16 (q : Q) : outcome Z :=
  let t := qtrunc q in
  if (0 <=? t) && (t <? 2 ^ 16) then Ok t else UB "float to uint16 out of range".

Definition qsum (l : list Q) : Q := fold_left Qplus l 0%Q.

Fixpoint insert_sorted (x : Z) (l : list Z) : list Z :=
  match l with
  | [] => [x]
  | y :: t => if x <=? y then x :: l else y :: insert_sorted x t
  end.
Definition sort_z (l : list Z) : list Z := fold_right insert_sorted [] l.

(** median, electron.cpp:260-273: after nth_element, v[n] is the n-th smallest and
    the maximum of the first n elements is the (n-1)-th smallest. *)
Definition median_u16 (l : list Z) : outcome Q :=
  let s := sort_z l in
  let n := Zlen l / 2 in
  if Z.odd (Zlen l) then let* m := rd s n in Ok (inject_Z m)
  else let* a := rd s (n - 1) in
       let* m := rd s n in Ok ((inject_Z (a + m)) / 2)%Q.

Definition u16_ops : frame_ops Z Q Q := {|
  op_integral := true;
  op_of_u16 := fun v => v;
  op_sub_cast := fun x d => let* k := to_u16 d in Ok (u16 (x - k));
  op_sub := fun x d => to_u16 (inject_Z x - d)%Q;
  op_mul := fun x g => to_u16 (inject_Z x * g)%Q;
  op_zero := 0;
  op_le := fun x t => Qle_bool (inject_Z x) t;
  op_ge := fun x t => Qle_bool t (inject_Z x);
  op_gt := fun x y => y <? x;
  op_mean := fun l => (inject_Z (zsum l) / inject_Z (Zlen l))%Q;
  op_median := median_u16;
  (* a/0 is an infinity or NaN; converting its product to uint16_t is undefined *)
  op_ratio := fun a b => if Qeq_bool b 0 then UB "float to uint16 out of range"
                         else Ok (a / b)%Q
|}.
