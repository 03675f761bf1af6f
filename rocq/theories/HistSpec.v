(** What a histogram is: bins with real edges. *)
From Coq Require Import ZArith List Bool Reals.
From Flocq Require Import Core.
From Verif Require Import Base Double ImageSpec.
Import ListNotations.
Open Scope Z_scope.

(** Value [r] belongs to bin [k] of [N] bins with edges [e 0], ..., [e N]: bins
    are closed on the left and open on the right, the last one also contains the
    last edge. *)
Definition in_bin (e : Z -> R) (N k : Z) (r : R) : bool :=
  (Rle_bool (e k) r && Rlt_bool r (e (k + 1))) || ((k =? N - 1) && Req_bool r (e N)).

(** Edges never decrease. *)
Definition edges_sorted (e : Z -> R) (N : Z) : Prop :=
  forall j, 0 <= j < N -> Rle (e j) (e (j + 1)%Z).

(** An image: w x h unsigned 64-bit pixels, not empty, fewer than 2^31. *)
Definition image_ok (w h : Z) (pixels : list Z) : Prop :=
  0 <= w /\ 0 <= h /\ 0 < w * h < 2 ^ 31 /\ Zlen pixels = w * h /\ Forall is_u64 pixels.

Definition is_min (l : list Z) (m : Z) : Prop := In m l /\ forall v, In v l -> m <= v.
Definition is_max (l : list Z) (m : Z) : Prop := In m l /\ forall v, In v l -> v <= m.

(** Pixel value as seen by the comparisons: converted to double. *)
Definition as_double (v : Z) : R := d_rnd (IZR v).

(** Edge j of N bins between the smallest and the largest pixel, each operation
    rounded to the nearest double. *)
Definition hist_edge (mn mx N j : Z) : R :=
  d_rnd (as_double mn + d_rnd (IZR j * d_rnd (d_rnd (as_double mx - as_double mn) / IZR N))).
