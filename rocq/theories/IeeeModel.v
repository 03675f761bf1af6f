(** The pixel arithmetic of stempy/electron.cpp in IEEE 754: the two instances of
    [frame_ops] (ElectronModel.v) that the code uses, with [float] references and
    [double] thresholds.  FrameType is uint16_t without a gain and float with one
    (electron.cpp:508-525, 563-590). *)
From Coq Require Import String ZArith List Bool.
From Flocq Require Import IEEE754.BinarySingleNaN IEEE754.Binary IEEE754.Bits.
From Verif Require Import Base BlockModel ElectronModel Double Float32 FloatConv ThresholdModel.
Import ListNotations.
Open Scope Z_scope.

Definition f_add : float32 -> float32 -> float32 := b32_plus mode_NE.
Definition f_lt (x y : float32) : bool :=
  match b32_compare x y with Some Lt => true | _ => false end.

(** A float compared with a double is converted to double. *)
Definition f_le_d (x : float32) (t : double) : bool := d_le (d_of_f x) t.
Definition f_ge_d (x : float32) (t : double) : bool := d_le t (d_of_f x).

(** mean, electron.cpp:254-257: std::accumulate with a float accumulator. *)
Definition f_mean (l : list float32) : float32 :=
  f_div (fold_left f_add l (f_of_Z 0)) (f_of_Z (Zlen l)).

(** median, electron.cpp:260-273, of uint16 values: the sum of two of them is an int. *)
Definition median_u16_f (l : list Z) : outcome float32 :=
  let s := sort_z l in
  let n := Zlen l / 2 in
  if Z.odd (Zlen l) then let* m := rd s n in Ok (f_of_Z m)
  else let* a := rd s (n - 1) in
       let* m := rd s n in Ok (f_div (f_of_Z (a + m)) (f_of_Z 2)).

(** The same of floats.  Simplification: without NaNs, for which std::nth_element
    may give any order. *)
Fixpoint insert_f (x : float32) (l : list float32) : list float32 :=
  match l with
  | [] => [x]
  | y :: t => if f_le x y then x :: l else y :: insert_f x t
  end.
Definition sort_f (l : list float32) : list float32 := fold_right insert_f [] l.
Definition median_f32 (l : list float32) : outcome float32 :=
  let s := sort_f l in
  let n := Zlen l / 2 in
  if Z.odd (Zlen l) then rd s n
  else let* a := rd s (n - 1) in
       let* m := rd s n in Ok (f_div (f_add a m) (f_of_Z 2)).

(** FrameType = uint16_t.  [x -= d]: the uint16 becomes a float, the difference is
    rounded and converted back, which is undefined out of range. *)
Definition u16_ieee : frame_ops Z float32 double := {|
  op_integral := true;
  op_of_u16 := fun v => v;
  op_sub_cast := fun x d => let* k := f_to_u16 d in Ok (u16 (x - k));
  op_sub := fun x d => f_to_u16 (f_sub (f_of_Z x) d);
  op_mul := fun x g => f_to_u16 (f_mul (f_of_Z x) g);
  op_zero := 0;
  op_le := fun x t => d_le (d_of_Z x) t;
  op_ge := fun x t => d_le t (d_of_Z x);
  op_gt := fun x y => y <? x;
  op_mean := fun l => f_mean (map f_of_Z l);
  op_median := median_u16_f;
  op_ratio := fun a b => Ok (f_div a b)
|}.

(** FrameType = float. *)
Definition f32_ieee : frame_ops float32 float32 double := {|
  op_integral := false;
  op_of_u16 := f_of_Z;
  op_sub_cast := fun x d => Ok (f_sub x d);
  op_sub := fun x d => Ok (f_sub x d);
  op_mul := fun x g => Ok (f_mul x g);
  op_zero := f_of_Z 0;
  op_le := f_le_d;
  op_ge := f_ge_d;
  op_gt := fun x y => f_lt y x;
  op_mean := f_mean;
  op_median := median_f32;
  op_ratio := fun a b => Ok (f_div a b)
|}.
