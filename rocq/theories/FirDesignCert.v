(** * The certificates of FirCert.v are correct *)
From Coq Require Import ZArith Reals List Lia Lra Bool.
From Bignums Require Import BigZ.
From Interval Require Import Tactic.
From Verif Require Import Arith Tables LitProof FirDesign FixInt FirDesignProof FirCert.
Import ListNotations.
Open Scope R_scope.

Lemma inside_Z a b v : IZR a <= v * IZR (2 ^ K) <= IZR b -> inside (BigZ.of_Z a, BigZ.of_Z b) v.
Proof. intros H. unfold inside. cbn [fst snd]. rewrite !BigZ.spec_of_Z. exact H. Qed.
Ltac enclosed := apply inside_Z; let k := eval vm_compute in (2 ^ K)%Z in change (2 ^ K)%Z with k; split; interval with (i_prec 560).

Lemma cert_pi_ok : inside cert_pi PI.
Proof. enclosed. Qed.
Lemma cert_att_138_ok : inside cert_att_138 (Rpower 10 (138 / 20)).
Proof. unfold Rpower. enclosed. Qed.
Lemma cert_att_136_ok : inside cert_att_136 (Rpower 10 (136 / 20)).
Proof. unfold Rpower. enclosed. Qed.
Lemma cert_att_113_75_ok : inside cert_att_113_75 (Rpower 10 (113.75 / 20)).
Proof. unfold Rpower. enclosed. Qed.
Lemma cert_att_88_5_ok : inside cert_att_88_5 (Rpower 10 (88.5 / 20)).
Proof. unfold Rpower. enclosed. Qed.
Lemma cert_att_86_5_ok : inside cert_att_86_5 (Rpower 10 (86.5 / 20)).
Proof. unfold Rpower. enclosed. Qed.
Lemma cert_att_67_5_ok : inside cert_att_67_5 (Rpower 10 (67.5 / 20)).
Proof. unfold Rpower. enclosed. Qed.
Lemma cert_att_48_ok : inside cert_att_48 (Rpower 10 (48 / 20)).
Proof. unfold Rpower. enclosed. Qed.
Lemma cert_att_46_ok : inside cert_att_46 (Rpower 10 (46 / 20)).
Proof. unfold Rpower. enclosed. Qed.
Lemma cert_att_42_ok : inside cert_att_42 (Rpower 10 (42 / 20)).
Proof. unfold Rpower. enclosed. Qed.

Definition designed (n : nat) (latt : R) (t : list dec) : Prop :=
  length t = n /\ (exists w, ultrwin n (3/4) latt w) /\
  forall w, ultrwin n (3/4) latt w -> forall j, (j < n)%nat ->
    let c := us_sinc w (mkfir_position n j) in let d := nth j t (Dec 0 0) in
    Rabs (dec_val d - c) <= 2 / 10 ^ 16 /\ Rabs (dec_val d - c) <= 6 / 10 ^ 14 * Rabs c.
Lemma designed_2_24 : designed 52 138 fir_coeffs2_24.
Proof. apply (check_ok cert_pi cert_att_138 52 false cert2_24_x1l cert2_24_x1h cert2_24_points cert2_24_x0l cert2_24_x0h); [apply cert_pi_ok | apply cert_att_138_ok | vm_compute; reflexivity]. Qed.
Lemma designed_4_24 : designed 16 136 fir_coeffs4_24.
Proof. apply (check_ok cert_pi cert_att_136 16 false cert4_24_x1l cert4_24_x1h cert4_24_points cert4_24_x0l cert4_24_x0h); [apply cert_pi_ok | apply cert_att_136_ok | vm_compute; reflexivity]. Qed.
Lemma designed_8_24 : designed 12 136 fir_coeffs8_24.
Proof. apply (check_ok cert_pi cert_att_136 12 false cert8_24_x1l cert8_24_x1h cert8_24_points cert8_24_x0l cert8_24_x0h); [apply cert_pi_ok | apply cert_att_136_ok | vm_compute; reflexivity]. Qed.
Lemma designed_2_20 : designed 42 113.75 fir_coeffs2_20.
Proof. apply (check_ok cert_pi cert_att_113_75 42 false cert2_20_x1l cert2_20_x1h cert2_20_points cert2_20_x0l cert2_20_x0h); [apply cert_pi_ok | apply cert_att_113_75_ok | vm_compute; reflexivity]. Qed.
Lemma designed_4_20 : designed 14 113.75 fir_coeffs4_20.
Proof. apply (check_ok cert_pi cert_att_113_75 14 false cert4_20_x1l cert4_20_x1h cert4_20_points cert4_20_x0l cert4_20_x0h); [apply cert_pi_ok | apply cert_att_113_75_ok | vm_compute; reflexivity]. Qed.
Lemma designed_8_20 : designed 10 113.75 fir_coeffs8_20.
Proof. apply (check_ok cert_pi cert_att_113_75 10 false cert8_20_x1l cert8_20_x1h cert8_20_points cert8_20_x0l cert8_20_x0h); [apply cert_pi_ok | apply cert_att_113_75_ok | vm_compute; reflexivity]. Qed.
Lemma designed_2_16 : designed 32 88.5 fir_coeffs2_16.
Proof. apply (check_ok cert_pi cert_att_88_5 32 false cert2_16_x1l cert2_16_x1h cert2_16_points cert2_16_x0l cert2_16_x0h); [apply cert_pi_ok | apply cert_att_88_5_ok | vm_compute; reflexivity]. Qed.
Lemma designed_4_16 : designed 10 86.5 fir_coeffs4_16.
Proof. apply (check_ok cert_pi cert_att_86_5 10 false cert4_16_x1l cert4_16_x1h cert4_16_points cert4_16_x0l cert4_16_x0h); [apply cert_pi_ok | apply cert_att_86_5_ok | vm_compute; reflexivity]. Qed.
Lemma designed_8_16 : designed 8 88.5 fir_coeffs8_16.
Proof. apply (check_ok cert_pi cert_att_88_5 8 false cert8_16_x1l cert8_16_x1h cert8_16_points cert8_16_x0l cert8_16_x0h); [apply cert_pi_ok | apply cert_att_88_5_ok | vm_compute; reflexivity]. Qed.
Lemma designed_2_12 : designed 24 67.5 fir_coeffs2_12.
Proof. apply (check_ok cert_pi cert_att_67_5 24 false cert2_12_x1l cert2_12_x1h cert2_12_points cert2_12_x0l cert2_12_x0h); [apply cert_pi_ok | apply cert_att_67_5_ok | vm_compute; reflexivity]. Qed.
Lemma designed_4_12 : designed 8 67.5 fir_coeffs4_12.
Proof. apply (check_ok cert_pi cert_att_67_5 8 false cert4_12_x1l cert4_12_x1h cert4_12_points cert4_12_x0l cert4_12_x0h); [apply cert_pi_ok | apply cert_att_67_5_ok | vm_compute; reflexivity]. Qed.
Lemma designed_8_12 : designed 6 67.5 fir_coeffs8_12.
Proof. apply (check_ok cert_pi cert_att_67_5 6 false cert8_12_x1l cert8_12_x1h cert8_12_points cert8_12_x0l cert8_12_x0h); [apply cert_pi_ok | apply cert_att_67_5_ok | vm_compute; reflexivity]. Qed.
Lemma designed_2_8 : designed 16 48 fir_coeffs2_8.
Proof. apply (check_ok cert_pi cert_att_48 16 false cert2_8_x1l cert2_8_x1h cert2_8_points cert2_8_x0l cert2_8_x0h); [apply cert_pi_ok | apply cert_att_48_ok | vm_compute; reflexivity]. Qed.
Lemma designed_4_8 : designed 6 46 fir_coeffs4_8.
Proof. apply (check_ok cert_pi cert_att_46 6 false cert4_8_x1l cert4_8_x1h cert4_8_points cert4_8_x0l cert4_8_x0h); [apply cert_pi_ok | apply cert_att_46_ok | vm_compute; reflexivity]. Qed.
Lemma designed_8_8 : designed 4 42 fir_coeffs8_8.
Proof. apply (check_ok cert_pi cert_att_42 4 false cert8_8_x1l cert8_8_x1h cert8_8_points cert8_8_x0l cert8_8_x0h); [apply cert_pi_ok | apply cert_att_42_ok | vm_compute; reflexivity]. Qed.
