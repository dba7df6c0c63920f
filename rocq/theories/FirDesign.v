(** * The design of the FIR filters: filter-design/mkfir.sh, filter-design/us_sinc.m

    us_sinc.m multiplies a sinc function with an ultraspherical window, computed by the function
    ultrwin of Octave's signal package, which is not part of the project.  The window is defined
    here by its properties: its spectrum is the ultraspherical polynomial of degree 2 n with
    parameter mu, stretched by x0, and x0 is determined by the attenuation of a side lobe.
    ("latt": the last side lobe of the window, i.e. the one at the first positive point where the
    derivative of the polynomial is 0.) *)
From Coq Require Import ZArith Reals List.
From Verif Require Import Arith.
Import ListNotations.
Open Scope R_scope.

(** ultraspherical (Gegenbauer) polynomials: [geg mu N x] is C_N^mu (x); the pair has C_(N-1) as second element *)
Fixpoint geg2 (mu : R) (N : nat) (x : R) : R * R :=
  match N with
  | O => (1, 0)
  | S M => let c := geg2 mu M x in
      ((2 * x * (INR M + mu) * fst c - (INR M + 2 * mu - 1) * snd c) / INR (S M), fst c)
  end.
Definition geg (mu : R) (N : nat) (x : R) : R := fst (geg2 mu N x).

(** 2 f 1 + ... + 2 f n *)
Fixpoint twice_sum (f : nat -> R) (n : nat) : R :=
  match n with O => 0 | S m => twice_sum f m + 2 * f n end.

(** [w k]: the value at distance k from the centre of ultrwin (2 * n + 1, mu, latt, "latt") *)
Definition ultrwin (n : nat) (mu latt : R) (w : nat -> R) : Prop :=
  exists x0 x1 g,
    0 < x1 /\ derivable_pt_lim (geg mu (2 * n)) x1 0 /\ (forall y, 0 < y < x1 -> ~ derivable_pt_lim (geg mu (2 * n)) y 0) /\
    1 < x0 /\ geg mu (2 * n) x0 = Rpower 10 (latt / 20) * Rabs (geg mu (2 * n) x1) /\
    w O = 1 /\
    forall th, geg mu (2 * n) (x0 * cos (th / 2)) = g * (w O + twice_sum (fun k => w k * cos (INR k * th)) n).

Definition sinc (t : R) : R := if Req_EM_T t 0 then 1 else sin (PI * t) / (PI * t).

(** us_sinc.m: the element for k = -n .. n of c *)
Definition us_sinc (w : nat -> R) (k : Z) : R := sinc (IZR k * 0.5) * w (Z.abs_nat k) / 2.

(** mkfir.sh prints every second element: the coefficients are us_sinc (-n + 1), us_sinc (-n + 3), ... *)
Definition mkfir_position (n i : nat) : Z := (2 * Z.of_nat i + 1 - Z.of_nat n)%Z.

(** the calls of mkfir, mkfir.sh:40-58: stage, bits, number of coefficients, latt *)
Definition mkfir_calls : list (Z * Z * nat * R) := [
  (2, 24, 52%nat, 138%R); (4, 24, 16%nat, 136%R); (8, 24, 12%nat, 136%R);
  (2, 20, 42%nat, 113.75%R); (4, 20, 14%nat, 113.75%R); (8, 20, 10%nat, 113.75%R);
  (2, 16, 32%nat, 88.5%R); (4, 16, 10%nat, 86.5%R); (8, 16, 8%nat, 88.5%R);
  (2, 12, 24%nat, 67.5%R); (4, 12, 8%nat, 67.5%R); (8, 12, 6%nat, 67.5%R);
  (2, 8, 16%nat, 48%R); (4, 8, 6%nat, 46%R); (8, 8, 4%nat, 42%R)]%Z.
