(** * IEEE-754 instances of the arithmetic (Flocq)

    binary32 with round-to-nearest, ties-to-even; all NaNs are identified
    (payloads and signs of NaNs are not modelled).  Assumes what g++ -std=c++11
    on x86-64 does: no FMA contraction, no extended precision, no
    re-association, no flush-to-zero. *)
From Coq Require Import ZArith Reals Lia.
From Flocq Require Import Core BinarySingleNaN.
From Verif Require Import Arith.
Open Scope Z_scope.

Definition b32 := binary_float 24 128.
Definition b64 := binary_float 53 1024.

Lemma Hprec32 : Prec_gt_0 24. Proof. reflexivity. Qed.
Lemma Hmax32 : Prec_lt_emax 24 128. Proof. reflexivity. Qed.
Lemma Hprec64 : Prec_gt_0 53. Proof. reflexivity. Qed.
Lemma Hmax64 : Prec_lt_emax 53 1024. Proof. reflexivity. Qed.

Definition b32_dy (m e : Z) : b32 := binary_normalize 24 128 Hprec32 Hmax32 mode_NE m e false.
Definition b64_dy (m e : Z) : b64 := binary_normalize 53 1024 Hprec64 Hmax64 mode_NE m e false.

Definition b32_plus : b32 -> b32 -> b32 := @Bplus 24 128 Hprec32 Hmax32 mode_NE.
Definition b32_minus : b32 -> b32 -> b32 := @Bminus 24 128 Hprec32 Hmax32 mode_NE.
Definition b32_mult : b32 -> b32 -> b32 := @Bmult 24 128 Hprec32 Hmax32 mode_NE.
Definition b64_plus : b64 -> b64 -> b64 := @Bplus 53 1024 Hprec64 Hmax64 mode_NE.
Definition b64_minus : b64 -> b64 -> b64 := @Bminus 53 1024 Hprec64 Hmax64 mode_NE.
Definition b64_div : b64 -> b64 -> b64 := @Bdiv 53 1024 Hprec64 Hmax64 mode_NE.

Definition F32 : arith := {|
  T := b32;
  f0 := B754_zero false;
  f1 := b32_dy 1 0;
  fhalf := b32_dy 1 (-1);
  fadd := b32_plus;
  fsub := b32_minus;
  fmul := b32_mult;
  fdy := b32_dy |}.
