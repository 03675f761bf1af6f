(** phase_from_com of the Python package (python/stempy/image/__init__.py:731-778).
    Simplification: the arithmetic is that of real and complex numbers, not of
    doubles, and the transforms of numpy.fft are their defining sums.  An array of
    shape (ny, nx) is a function of a row and a column; only entries in range are
    used. *)
From Coq Require Import Reals ZArith.
From Coquelicot Require Import Complex.
Open Scope R_scope.

(** e^(i t). *)
Definition cis (t : R) : C := (cos t, sin t).

Fixpoint csum (n : nat) (f : nat -> C) : C :=
  match n with
  | O => RtoC 0
  | S k => Cplus (csum k f) (f k)
  end.

Section Shape.
Variables ny nx : nat.

(** np.fft.fft2 and np.fft.ifft2 with their default normalisation. *)
Definition fft2 (a : nat -> nat -> C) (m n : nat) : C :=
  csum ny (fun y => csum nx (fun x =>
    Cmult (a y x) (cis (- (2 * PI * (INR m * INR y / INR ny + INR n * INR x / INR nx)))))).

Definition ifft2 (a : nat -> nat -> C) (y x : nat) : C :=
  Cdiv (csum ny (fun m => csum nx (fun n =>
          Cmult (a m n) (cis (2 * PI * (INR m * INR y / INR ny + INR n * INR x / INR nx))))))
       (RtoC (INR ny * INR nx)).

(** np.fft.fftfreq(n): with N = (n - 1) // 2 + 1 the first N entries are
    0 .. N - 1, the others -(n // 2) .. -1, all divided by n. *)
Definition fftfreq (n k : nat) : R :=
  let N := ((Z.of_nat n - 1) / 2 + 1)%Z in
  if (Z.of_nat k <? N)%Z then IZR (Z.of_nat k) * (1 / INR n)
  else IZR (- (Z.of_nat n / 2) + (Z.of_nat k - N)) * (1 / INR n).

(** :770, :773. *)
Definition numerator (u v : nat -> nat -> C) (m n : nat) : C :=
  match m, n with
  | O, O => RtoC 0
  | _, _ => Cplus (Cmult (RtoC (fftfreq ny m)) (fft2 u m n)) (Cmult (RtoC (fftfreq nx n)) (fft2 v m n))
  end.

(** :771, :774. *)
Definition denominator (reg : R) (m n : nat) : C :=
  match m, n with
  | O, O => RtoC 1
  | _, _ => Cplus (Cmult (Cmult (RtoC (2 * PI)) Ci) (RtoC (fftfreq nx n ^ 2 + fftfreq ny m ^ 2))) (RtoC reg)
  end.

(** The inverse transform of the quotient, :777. *)
Definition integrated (u v : nat -> nat -> C) (reg : R) : nat -> nat -> C :=
  ifft2 (fun m n => Cdiv (numerator u v m n) (denominator reg m n)).

(** phase_from_com, :731-778; [com0] and [com1] are com[0] and com[1]. *)
Definition phase_from_com (com0 com1 : nat -> nat -> R) (theta : R) (flip : bool) (reg : R) (y x : nat) : R :=
  let rot0 y x := if flip then com0 y x * cos theta + com1 y x * sin theta
                  else com0 y x * cos theta - com1 y x * sin theta in
  let rot1 y x := if flip then com0 y x * sin theta - com1 y x * cos theta
                  else com0 y x * sin theta + com1 y x * cos theta in
  fst (integrated (fun y x => RtoC (rot0 y x)) (fun y x => RtoC (rot1 y x)) reg y x).
End Shape.
