(** * + and * of binary32 are commutative (bit for bit) *)
From Coq Require Import ZArith Bool Lia.
From Flocq Require Import Core BinarySingleNaN.
From Verif Require Import Arith ArithF.
Open Scope Z_scope.

Lemma b32_plus_comm (x y : b32) : b32_plus x y = b32_plus y x.
Proof.
  unfold b32_plus. destruct x as [s|s| |s m e E], y as [s'|s'| |s' m' e' E']; cbn [Bplus]; try reflexivity;
    try (destruct s, s'; reflexivity).
  cbn zeta. rewrite (Z.min_comm e'). unfold Fplus_naive. rewrite (Z.add_comm (cond_Zopp s' _)). reflexivity.
Qed.

Lemma b32_mult_comm (x y : b32) : b32_mult x y = b32_mult y x.
Proof.
  unfold b32_mult. destruct x as [s|s| |s m e E], y as [s'|s'| |s' m' e' E']; cbn [Bmult]; try reflexivity;
    try (rewrite xorb_comm; reflexivity).
  apply B2SF_inj. rewrite !B2SF_SF2B, (xorb_comm s'), (Pos.mul_comm m'), (Z.add_comm e'). reflexivity.
Qed.
