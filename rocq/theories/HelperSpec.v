(** What the image helpers should compute, in terms of the dense array: a flat
    list [D] whose entry (p, j) of P positions and N pixels is
    [zat D (p * N + j)]. *)
From Coq Require Import ZArith List Bool Reals Sorting.Permutation.
From Verif Require Import Base Double Float32 FloatConv.
Import ListNotations.
Open Scope Z_scope.

(** Pixel [j] summed over the scan positions the mask selects. *)
Definition masked_sum (P N : Z) (D : list Z) (mask : list bool) (j : Z) : Z :=
  zsum (map (fun p => if nth (Z.to_nat p) mask false then zat D (p * N + j) else 0) (zseq P)).

(** Squared distance of pixel (row, col) from (r0, c0). *)
Definition sqdist (r0 c0 row col : Z) : Z := (row - r0) * (row - r0) + (col - c0) * (col - c0).

(** Sum of the pixels of the h x w frame of position [p] with property [Q row col]. *)
Definition region_sum (h w : Z) (D : list Z) (p : Z) (Q : Z -> Z -> bool) : Z :=
  zsum (map (fun row => zsum (map (fun col =>
    if Q row col then zat D (p * (h * w) + (row * w + col)) else 0) (zseq w))) (zseq h)).

(** The open disc of radius r around row r0, column c0. *)
Definition disc (r0 c0 r row col : Z) : bool := sqdist r0 c0 row col <? r * r.

(** Bin k of n bins of width one: distances in [k, k + 1), the last bin [n - 1, n]. *)
Definition ring (n k r0 c0 row col : Z) : bool :=
  let d := sqdist r0 c0 row col in
  (k * k <=? d) && (if k =? n - 1 then d <=? n * n else d <? (k + 1) * (k + 1)).

(** [v] is the median of the numbers of [l] (NaNs ignored): the numbers in
    increasing order are [s]; [v] is the middle one or the rounded mean of the
    two middle ones. *)
Definition is_nanmedian (l : list float32) (v : float32) : Prop :=
  exists s, Permutation s (filter (fun x => negb (f_nan x)) l) /\
    (forall i k x y, (i < k)%nat -> nth_error s i = Some x -> nth_error s k = Some y ->
       exists a b, fval x a /\ fval y b /\ (a <= b)%R) /\
    match Zlen s with
    | 0 => f_nan v = true
    | n =>
        (n mod 2 = 1 -> nth_error s (Z.to_nat (n / 2)) = Some v) /\
        (n mod 2 = 0 -> exists x y a b,
           nth_error s (Z.to_nat (n / 2 - 1)) = Some x /\ nth_error s (Z.to_nat (n / 2)) = Some y /\
           fval x a /\ fval y b /\ fval v (f_rnd (f_rnd (a + b) / 2)))
    end.

(** The entries of the rows and columns at distance at most one from (i, j),
    in an array of m rows and n columns. *)
Definition neighbours (m n : Z) (c : list float32) (i j : Z) : list float32 :=
  flat_map (fun a => flat_map (fun b =>
    if (Z.abs (a - i) <=? 1) && (Z.abs (b - j) <=? 1)
    then match nth_error c (Z.to_nat (a * n + b)) with Some v => [v] | None => [] end
    else []) (zseq n)) (zseq m).

(** A number between two bounds. *)
Definition within (lo hi : R) (x : float32) : Prop := exists a, fval x a /\ (lo <= a <= hi)%R.

(** Entry [q] of a component. *)
Definition getf (l : list float32) (q : Z) : float32 := nth (Z.to_nat q) l f_NaN.

(** What the loop sees when it comes to position [p]: final values before [p],
    then the original ones with the bad ones blanked. *)
Definition as_seen (bad : Z -> bool) (com res : list float32) (p : Z) : list float32 :=
  map (fun q => if q <? p then getf res q else if bad q then f_NaN else getf com q) (zseq (Zlen com)).
