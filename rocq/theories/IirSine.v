(** * IIR resamplers fed with a sinusoid: output samples, and the tables of the highest precision *)
From Coq Require Import ZArith Reals List Lia Lra Psatz Bool ZifyNat ZifyBool.
From Flocq Require Import Core.
From Interval Require Import Tactic.
From Verif Require Import Arith ArithR Mem FirModel IirModel Tables ResamplerModel Wp Stage Cascade
  ResamplerProof ResamplerOk Spec SpecOk SpecR Client Feed StreamFacts DelayFacts Twin TablesF TableFacts FirReal IirReal PropsIir IirPhase IirCert IirLag IirFreq IirDelay.
Import ListNotations.
Open Scope Z_scope.

(** ** The input: anything before n0, a sinusoid from then on *)
Lemma fading_steady rho n0 : (0 <= rho <= 1)%R -> steady rho (fun k => (rho ^ Z.to_nat (k - n0))%R).
Proof.
  intros Hr k Hk. split; [apply pow_le; lra|]. destruct (Z_lt_le_dec k n0).
  - replace (Z.to_nat (k - n0)) with 0%nat by lia. replace (Z.to_nat (k + 1 - n0)) with 0%nat by lia. cbn; lra.
  - replace (Z.to_nat (k + 1 - n0)) with (S (Z.to_nat (k - n0))) by lia. cbn [pow]. lra.
Qed.
Lemma fading_mono rho n0 : (0 <= rho <= 1)%R -> forall i k, 0 <= i <= k -> (rho ^ Z.to_nat (k - n0) <= rho ^ Z.to_nat (i - n0))%R.
Proof.
  intros Hr i k Hk. replace (Z.to_nat (k - n0)) with (Z.to_nat (i - n0) + (Z.to_nat (k - n0) - Z.to_nat (i - n0)))%nat by lia. rewrite pow_add.
  rewrite <- (Rmult_1_r (rho ^ Z.to_nat (i - n0))) at 2. apply Rmult_le_compat_l; [apply pow_le; lra|].
  rewrite <- (pow1 (Z.to_nat (k - n0) - Z.to_nat (i - n0))). apply pow_incr. lra.
Qed.
Lemma input_near (x : list RA) rho M amp w ph n0 : (0 <= rho <= 1)%R -> 0 <= n0 -> (Rabs amp <= M)%R ->
  (forall k, 0 <= k < size x -> (Rabs (smp x k) <= M)%R) ->
  (forall k, n0 <= k < size x -> smp x k = (amp * sin (w * IZR k + ph))%R) ->
  near x [Wave amp w ph] (2 * M) (fun k => (rho ^ Z.to_nat (k - n0))%R).
Proof.
  intros Hr Hn Ha HM Hx. assert (M0 : (0 <= M)%R) by (pose proof (Rabs_pos amp); lra). split; [split; [lra|]|].
  - cbn [amps w_amp]. replace (Z.to_nat (0 - n0)) with 0%nat by lia. cbn [pow]. lra.
  - intros k Hk. cbn [waves]. rewrite Rplus_0_r. pose proof (wval_abs (Wave amp w ph) k) as B. cbn [w_amp] in B. destruct (Z_lt_le_dec k n0).
    + replace (Z.to_nat (k - n0)) with 0%nat by lia. cbn [pow]. specialize (HM k Hk). unfold Rminus. eapply Rle_trans; [apply Rabs_triang|]. rewrite Rabs_Ropp. lra.
    + rewrite Hx by lia. unfold wval. cbn [w_amp w_freq w_phase]. rewrite Rminus_eq_0, Rabs_R0. apply Rmult_le_pos; [lra | apply pow_le; lra].
Qed.
Lemma K_settle ratio p : valid FILTER_IIR ratio p -> IZR (resample_K 95 ratio) = settle_gain ratio.
Proof. intros V. unfold settle_gain, resample_K. destruct V as [[->|[->|[->| ->]]] _]; cbn; lra. Qed.

(** the output while transients fade out *)
Definition transient (r : resampler) (M : R) (n0 j : Z) : R :=
  (settle_gain (r_ratio r) * (2 * M) * settle_rate (r_mode r) ^ settle_time r n0 j)%R.
Lemma up_output plat st (m : mem RA) id o M amp w ph n0 :
  reach plat st m -> st id = Some o -> let r := o_res o in
  r_filter r = FILTER_IIR -> r_mode r = UP -> 0 <= n0 -> (Rabs amp <= M)%R ->
  (forall k, 0 <= k < size (o_in o) -> (Rabs (smp (o_in o) k) <= M)%R) ->
  (forall k, n0 <= k < size (o_in o) -> smp (o_in o) k = (amp * sin (w * IZR k + ph))%R) ->
  valid FILTER_IIR (r_ratio r) (r_prec r) /\
  forall j, 0 <= j < size (o_out o) -> (Rabs (smp (o_out o) j - waves (ups (r_prec r) (r_ratio r) [Wave amp w ph]) j) <= transient r M n0 j)%R.
Proof.
  intros H E r Hf Hm Hn Ha HM Hx. destruct (reach_iir plat _ _ _ _ H E Hf) as (V & Ey & _). fold r in V, Ey. split; [exact V|].
  intros j Hj. unfold transient, settle_time. rewrite <- (K_settle _ _ V). rewrite Ey in Hj |- *. rewrite Hm in *. unfold settle_rate.
  exact (proj2 (resample_up_near _ _ _ _ _ _ V (fading_steady (95 / 100) n0 ltac:(lra)) (input_near _ (95 / 100) M amp w ph n0 ltac:(lra) Hn Ha HM Hx)) j Hj).
Qed.
Lemma down_output plat st (m : mem RA) id o M amp w ph n0 :
  reach plat st m -> st id = Some o -> let r := o_res o in
  r_filter r = FILTER_IIR -> r_mode r = DOWN -> 0 <= n0 -> (Rabs amp <= M)%R ->
  (forall k, 0 <= k < size (o_in o) -> (Rabs (smp (o_in o) k) <= M)%R) ->
  (forall k, n0 <= k < size (o_in o) -> smp (o_in o) k = (amp * sin (w * IZR k + ph))%R) ->
  valid FILTER_IIR (r_ratio r) (r_prec r) /\
  forall j, 0 <= j < size (o_out o) ->
  (Rabs (smp (o_out o) j - amp * down_gain_of (r_prec r) (r_ratio r) w * sin (IZR (r_ratio r) * w * IZR j + (ph - down_shift (r_prec r) (r_ratio r) w))) <= transient r M n0 j)%R.
Proof.
  intros H E r Hf Hm Hn Ha HM Hx. destruct (reach_iir plat _ _ _ _ H E Hf) as (V & Ey & Hmod). fold r in V, Ey, Hmod. split; [exact V|].
  intros j Hj. unfold transient, settle_time. rewrite <- (K_settle _ _ V). rewrite Ey in Hj |- *. specialize (Hmod Hm). rewrite Hm in *. unfold settle_rate.
  pose proof (proj2 (resample_down_near (994 / 1000) _ _ _ _ _ _ V Hmod ltac:(lra) ltac:(cbn; lra) (fading_mono (994 / 1000) n0 ltac:(lra)) (fading_steady (994 / 1000) n0 ltac:(lra))
    (input_near _ (994 / 1000) M amp w ph n0 ltac:(lra) Hn Ha HM Hx)) j Hj) as G.
  cbn [map] in G. rewrite downs_eq in G by (destruct V as [V _]; exact V). cbn [waves] in G. rewrite Rplus_0_r in G. unfold wval in G. cbn [w_amp w_freq w_phase] in G. exact G.
Qed.

Lemma abs_sin_le x : (Rabs (sin x) <= Rabs x)%R.
Proof.
  assert (P : forall z, (0 <= z)%R -> (sin z <= z)%R).
  { intros z Hz. destruct (Req_dec z 0) as [->|N]; [rewrite sin_0; lra|]. left. apply sin_lt_x. lra. }
  assert (Q : forall z, (0 <= z)%R -> (- z <= sin z)%R).
  { intros z Hz. destruct (Rle_dec z PI) as [L|L].
    - pose proof (sin_ge_0 z Hz L). lra.
    - pose proof (SIN_bound z). pose proof PI_4. assert (1 < PI)%R by (interval with (i_prec 60)). lra. }
  destruct (Rle_dec 0 x) as [L|L].
  - rewrite (Rabs_pos_eq x L). apply Rabs_le. split; auto.
  - rewrite (Rabs_left1 x) by lra. rewrite <- (Ropp_involutive x) at 1. rewrite sin_neg, Rabs_Ropp. apply Rabs_le. split; [apply Q | apply P]; lra.
Qed.
Lemma sin_lip a b : (Rabs (sin a - sin b) <= Rabs (a - b))%R.
Proof.
  rewrite form4, !Rabs_mult, (Rabs_pos_eq 2) by lra. pose proof (abs_sin_le ((a - b) / 2)) as S.
  unfold Rdiv in S. rewrite (Rabs_mult (a - b)), (Rabs_pos_eq (/ 2)) in S by lra. fold (Rdiv (a - b) 2) in S.
  pose proof (cos_abs_1 ((a + b) / 2)). pose proof (Rabs_pos (sin ((a - b) / 2))). pose proof (Rabs_pos (cos ((a + b) / 2))). nra.
Qed.

(** ** The table for 144 dB does not reach 144 dB *)
(** 17.85 kHz (at 44.1 kHz); its image lies at 26.25 kHz *)
Definition f144 : R := (12713 / 10000)%R.
Lemma f144_band : (2 * f144 <= iband)%R.
Proof. unfold f144, iband. interval with (i_prec 60). Qed.
Lemma lag_coefs_nil f : lags [] f = 0%R. Proof. reflexivity. Qed.
Lemma half_diff_144 : (66e-9 <= Rabs (sin (half_diff (cs_of PREC_144DB 2) f144)))%R.
Proof.
  assert (E : cs_of PREC_144DB 2 = map (coef : Z -> R) (iir_ints 2 PREC_144DB)) by (unfold cs_of; apply iir_coeffs_R; [left; reflexivity | vm_compute; tauto]). rewrite E.
  match goal with |- context [iir_ints ?a ?b] => let v := eval vm_compute in (iir_ints a b) in change (iir_ints a b) with v end.
  unfold half_diff. cbn [map evens odds lags]. unfold lag, coef, f144.
  lits. interval with (i_prec 90).
Qed.
Lemma fade_144 n : n = Z.to_nat (2 * 2400 - 0) -> ((994 / 1000) ^ n <= 1e-12)%R.
Proof. intros ->. change (Z.to_nat (2 * 2400 - 0)) with (60 * 80)%nat. rewrite pow_mult. interval with (i_prec 60). Qed.
