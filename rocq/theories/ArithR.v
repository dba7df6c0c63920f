(** * Exact arithmetic: samples are real numbers *)
From Coq Require Import ZArith Reals Lia Lra.
From Flocq Require Import Core.
From Verif Require Import Arith.

Definition RA : arith := {|
  T := R;
  f0 := 0%R;
  f1 := 1%R;
  fhalf := (/ 2)%R;
  fadd := Rplus;
  fsub := Rminus;
  fmul := Rmult;
  fdy := fun m e => (IZR m * bpow radix2 e)%R |}.
