(** * Properties: frequency response of FIR resamplers in exact arithmetic

    Frequencies are in radians per sample.  [band] is 18 kHz at a sample rate
    of 44.1 kHz, the range of the accuracy tests of tests/testresampler.cc
    (lines 851-883). *)
From Coq Require Import ZArith Reals List Lia Lra Bool ZifyNat ZifyBool.
From Flocq Require Import Core.
From Interval Require Import Tactic.
From Verif Require Import Arith ArithR ArithF Mem FirModel IirModel Tables ResamplerModel Wp Stage Cascade
  ResamplerProof ResamplerOk Spec SpecOk SpecR Client Feed StreamFacts DelayFacts TablesF TableFacts FirReal FreqFir Tones Cases PropsFir.
Import ListNotations.
Open Scope Z_scope.

Definition band : R := (2 * PI * 18000 / 44100)%R.

(** worst relative error of one 2x stage for each precision *)
Definition error_of (p : Z) : R :=
  (if p =? PREC_48DB then 5.76e-3 else if p =? PREC_72DB then 4.71e-4 else if p =? PREC_96DB then 3.45e-5
   else if p =? PREC_120DB then 1.96e-6 else 1.40e-7)%R.

Lemma error_eps p : hq_prec p -> fir_eps 2 p = error_of p /\ (fir_eps 4 p <= 0.84 * error_of p /\ fir_eps 8 p <= 0.65 * error_of p)%R /\ (0 < error_of p <= 0.00576)%R.
Proof.
  unfold hq_prec, fir_eps, error_of, PREC_48DB, PREC_72DB, PREC_96DB, PREC_120DB. 
  intros [->|[->|[->|[->| ->]]]]; cbn [eps_n Z.eqb Pos.eqb]; repeat split; lra.
Qed.

Lemma edge_band u : (Rabs u <= band / 2)%R -> (edge 2 <= cos u)%R /\ (edge 4 <= cos (u / 2))%R /\ (edge 8 <= cos (u / 4))%R.
Proof.
  intros H.
  assert (C : forall v b, (Rabs v <= b)%R -> (b <= PI)%R -> (cos b <= cos v)%R).
  { intros v b Hv Hb. pose proof (Rabs_pos v). unfold Rabs in *. destruct (Rcase_abs v).
    - rewrite <- (cos_neg v). apply cos_decr_1; lra.
    - apply cos_decr_1; lra. }
  pose proof PI_RGT_0. unfold band in H.
  assert (A : forall k, (0 < k)%R -> Rabs (u / k) = (Rabs u / k)%R).
  { intros k Hk. unfold Rdiv. rewrite Rabs_mult. f_equal. apply Rabs_pos_eq. left. now apply Rinv_0_lt_compat. }
  repeat split.
  - eapply Rle_trans; [|apply (C u (20 * PI / 49)%R); lra]. change (edge 2) with (2330 / 8192)%R. interval with (i_prec 60).
  - eapply Rle_trans; [|apply (C (u / 2) (10 * PI / 49))%R; [rewrite A; lra | lra]]. change (edge 4) with (410 / 512)%R. interval with (i_prec 60).
  - eapply Rle_trans; [|apply (C (u / 4) (5 * PI / 49))%R; [rewrite A; lra | lra]]. change (edge 8) with (30 / 32)%R. interval with (i_prec 60).
Qed.

Definition up_factor (ratio : Z) : R := (if ratio =? 1 then 0 else if ratio =? 2 then 1 else if ratio =? 4 then 1.85 else 2.52)%R.
Definition down_factor (ratio : Z) : R := (if ratio =? 1 then 0 else if ratio =? 2 then 0.5 else if ratio =? 4 then 0.93 else 1.26)%R.

Lemma prec_hq r : valid FILTER_FIR (r_ratio r) (r_prec r) -> r_ratio r <> 1 -> r_prec r <> PREC_LINEAR -> hq_prec (r_prec r).
Proof. intros [Hr HT] H1 HL. unfold PREC_LINEAR in HL. unfold ratio_no in Hr. assert (H2 : fir_prec (r_prec r)) by (apply HT; lia). unfold fir_prec, hq_prec in *. lia. Qed.

(** the sum of sinusoids at time t, in samples *)
Fixpoint sines (ws : list wav) (t : R) : R :=
  match ws with [] => 0%R | u :: ws => (w_amp u * sin (w_frq u * t + w_ph u) + sines ws t)%R end.
Lemma sines_total ws k : sines ws (IZR k) = total ws k.
Proof. induction ws as [|u ws IH]; cbn [sines total]; [reflexivity|]. now rewrite IH. Qed.
Lemma sines_map (F : wav -> wav) ws k t : (forall u, at_ (F u) k = (w_amp u * sin (w_frq u * t + w_ph u))%R) -> total (map F ws) k = sines ws t.
Proof. intros H. induction ws as [|u ws IH]; cbn [sines total map]; [reflexivity|]. now rewrite IH, H. Qed.

Lemma sum_up p ratio (x : list RA) lo ws j : (ratio = 1 \/ ratio = 2 \/ ratio = 4 \/ ratio = 8) -> (ratio <> 1 -> hq_prec p) ->
  is_sum x lo ws -> Forall (fun u => Rabs (w_frq u) <= band)%R ws ->
  let y := resample FILTER_FIR UP p false ratio x in let D := (IZR (fir_delay8 UP ratio p) / 8)%R in
  4 * ratio * lo + fir_delay8 UP ratio p <= 4 * j -> j < size y ->
  (Rabs (smp y j - sines ws ((IZR j - D) / IZR ratio)) <= up_factor ratio * error_of p * mass ws)%R.
Proof.
  intros Vr HQ HX HW y D J Hjy.
  assert (N0 : is_sum x lo (ws ++ [])) by (now rewrite app_nil_r).
  assert (N : exists vs rest, is_sum y j (vs ++ rest) /\ total vs j = sines ws ((IZR j - D) / IZR ratio) /\ (mass rest <= up_factor ratio * error_of p * mass ws)%R).
  { unfold y. destruct Vr as [->|Vr].
    - exists ws, []. unfold resample, up_factor, fir_delay8 in *. cbn [Z.eqb Pos.eqb] in *. split; [|split; [|cbn [mass]; lra]].
      + destruct N0 as [N1 N0]. split; [lia|]. intros k Hk. apply N0. lia.
      + rewrite <- sines_total. f_equal. unfold D. change (IZR (8 * 0)) with 0%R. lra.
    - specialize (HQ ltac:(lia)). destruct (error_eps p HQ) as (E2 & (E4 & E8) & E0 & _).
      assert (S2 : stage_no 2) by (unfold stage_no; auto). assert (S4 : stage_no 4) by (unfold stage_no; auto).
      assert (S8 : stage_no 8) by (unfold stage_no; auto).
      assert (B : forall u, In u ws -> (edge 2 <= cos (w_frq u / 2) /\ edge 4 <= cos (w_frq u / 2 / 2) /\ edge 8 <= cos (w_frq u / 2 / 2 / 2))%R).
      { intros u Hu. rewrite Forall_forall in HW. destruct (edge_band (w_frq u / 2)) as (B2 & B4 & B8).
        { unfold Rdiv at 1. rewrite Rabs_mult, (Rabs_pos_eq (/ 2)) by lra. specialize (HW u Hu). lra. }
        replace (w_frq u / 2 / 2 / 2)%R with (w_frq u / 2 / 4)%R by lra. auto. }
      assert (MH : forall n vs, mass (map (half_wav n) vs) = mass vs) by (intros n vs; induction vs as [|u vs IH]; cbn [map mass]; [reflexivity | now rewrite IH]).
      destruct (up_near_sum 2 p S2 HQ x lo ws [] 0 N0 ltac:(cbn; lra)) as (r2 & N2 & M2).
      { apply Forall_forall. intros u Hu. now apply B. }
      destruct (up_near_sum 4 p S4 HQ _ _ _ _ _ N2 M2) as (r4 & N4 & M4).
      { apply Forall_map, Forall_forall. intros u Hu. now apply B. }
      destruct (up_near_sum 8 p S8 HQ _ _ _ _ _ N4 M4) as (r8 & N8 & M8).
      { apply Forall_map, Forall_map, Forall_forall. intros u Hu. now apply B. }
      rewrite !MH in M4. rewrite !MH in M8. rewrite (size_len UP 2) in *. rewrite (size_len UP 4) in *. rewrite (size_len UP 8) in *. rewrite E2 in M2, M4, M8. pose proof (mass_pos ws) as PA. set (a := mass ws) in *.
      assert (Q4 : (fir_eps 4 p * a <= 0.84 * error_of p * a)%R) by (apply Rmult_le_compat_r; lra).
      assert (Q8 : (fir_eps 8 p * a <= 0.65 * error_of p * a)%R) by (apply Rmult_le_compat_r; lra).
      assert (0 <= error_of p * a)%R by (apply Rmult_le_pos; lra).
      assert (W : forall (z : list RA) lo vs, is_sum z lo vs -> lo <= j -> is_sum z j vs).
      { intros z l vs [Z0 Z1] HL. split; [lia|]. intros k Hk. apply Z1. lia. }
      unfold D. destruct Vr as [->|[->| ->]]; unfold resample, up_factor, fir_delay8 in *; cbn [Z.eqb Pos.eqb] in *.
      + eexists; exists r2. split; [eapply W; [exact N2 | lia]|]. split; [|lra]. apply sines_map. intros u. unfold at_, half_wav. cbn [w_amp w_frq w_ph].
        do 2 f_equal. rewrite mult_IZR. lra.
      + eexists; exists r4. split; [eapply W; [exact N4 | lia]|]. split; [|lra]. rewrite map_map. apply sines_map. intros u. unfold at_, half_wav. cbn [w_amp w_frq w_ph].
        do 2 f_equal. rewrite mult_IZR, plus_IZR, mult_IZR. lra.
      + eexists; exists r8. split; [eapply W; [exact N8 | lia]|]. split; [|lra]. rewrite !map_map. apply sines_map. intros u. unfold at_, half_wav. cbn [w_amp w_frq w_ph].
        do 2 f_equal. rewrite mult_IZR, !plus_IZR, !mult_IZR, plus_IZR, mult_IZR. lra. }
  destruct N as (vs & rest & [_ N] & E & M). rewrite (N j) by lia. rewrite total_app, E.
  replace (sines ws ((IZR j - D) / IZR ratio) + total rest j - sines ws ((IZR j - D) / IZR ratio))%R with (total rest j) by ring.
  eapply Rle_trans; [apply total_bound | exact M].
Qed.

(** ** C48 *)
Theorem C48_upsampling_accuracy plat st (m : mem RA) id o D amp w ph :
  reach plat st m -> st id = Some o ->
  let r := o_res o in let x := o_in o in let y := o_out o in
  r_filter r = FILTER_FIR -> r_mode r = UP -> r_prec r <> PREC_LINEAR -> delay_is r D ->
  (forall k, 0 <= k < size x -> smp x k = (amp * sin (w * IZR k + ph))%R) -> (Rabs w <= band)%R ->
  forall j, (2 * D <= IZR j)%R -> j < size y ->
  (Rabs (smp y j - amp * sin (w * ((IZR j - D) / IZR (r_ratio r)) + ph)) <= up_factor (r_ratio r) * error_of (r_prec r) * Rabs amp)%R.
Proof.
  intros H E r x y Hf Hm HL HD HX HW j Hj Hjy.
  destruct (reach_fir plat _ _ _ _ _ H E Hf HD) as (V & Ey & ED). fold r in V, Ey, ED. fold x y in Ey. rewrite Hm in *.
  pose proof (prec_hq r V) as HQ. destruct V as [Vr _].
  assert (J : fir_delay8 UP (r_ratio r) (r_prec r) <= 4 * j) by (apply le_IZR; rewrite mult_IZR; lra).
  rewrite Ey in *. pose proof (sum_up (r_prec r) (r_ratio r) x 0 [Wav amp w ph] j Vr (fun N => HQ N HL)) as S. cbn [sines mass w_amp w_frq w_ph] in S.
  rewrite ED in *. rewrite !Rplus_0_r in S. apply S; try assumption.
  - split; [lia|]. intros k Hk. rewrite HX by exact Hk. unfold at_. cbn [total w_amp w_frq w_ph]. unfold at_. cbn [w_amp w_frq w_ph]. lra.
  - constructor; [exact HW | constructor].
  - lia.
Qed.

Lemma cos_kpi k x : cos (x + IZR k * PI) = if Z.even k then cos x else (- cos x)%R.
Proof.
  assert (P : forall n y, cos (y + 2 * IZR n * PI) = cos y).
  { intros n y. destruct (Z_le_gt_dec 0 n) as [Hn|Hn].
    - rewrite <- (Z2Nat.id n) by lia. rewrite <- INR_IZR_INZ. apply cos_period.
    - rewrite <- (cos_period (y + 2 * IZR n * PI) (Z.to_nat (- n))). f_equal. rewrite INR_IZR_INZ, Z2Nat.id by lia. rewrite opp_IZR. ring. }
  destruct (Z.even k) eqn:E.
  - apply Z.even_spec in E. destruct E as [n ->]. rewrite mult_IZR. replace (x + 2 * IZR n * PI)%R with (x + 2 * IZR n * PI)%R by ring. apply P.
  - assert (O : Z.odd k = true) by (rewrite <- Z.negb_even, E; reflexivity). apply Z.odd_spec in O. destruct O as [n ->].
    rewrite plus_IZR, mult_IZR. replace (x + (2 * IZR n + 1) * PI)%R with ((x + PI) + 2 * IZR n * PI)%R by ring. rewrite P. apply neg_cos.
Qed.

Section DownGain.
Variables (p : Z).
Hypothesis HQ : hq_prec p.
Let HP := hq_fir p HQ.

(** gain of the cascade for the frequency w *)
Definition total_gain (ratio : Z) (w : R) : R :=
  (if ratio =? 1 then 1 else if ratio =? 2 then down_gain p 2 w else if ratio =? 4 then down_gain p 4 w * down_gain p 2 (2 * w)
   else down_gain p 8 w * down_gain p 4 (2 * w) * down_gain p 2 (4 * w))%R.

Lemma band_pass ratio w : ratio = 1 \/ ratio = 2 \/ ratio = 4 \/ ratio = 8 -> (Rabs (IZR ratio * w) <= band)%R ->
  (Rabs (total_gain ratio w - 1) <= down_factor ratio * error_of p)%R.
Proof.
  assert (S2 : stage_no 2) by (unfold stage_no; auto). assert (S4 : stage_no 4) by (unfold stage_no; auto).
  assert (S8 : stage_no 8) by (unfold stage_no; auto).
  destruct (error_eps p HQ) as (E2 & (E4 & E8) & E0 & E1).
  intros Hr Hw. destruct (edge_band (IZR ratio * w / 2)) as (B2 & B4 & B8).
  { unfold Rdiv at 1. rewrite Rabs_mult, (Rabs_pos_eq (/ 2)) by lra. lra. }
  set (e := error_of p) in *.
  destruct Hr as [->|[->|[->| ->]]]; unfold total_gain, down_factor; cbn [Z.eqb Pos.eqb].
  - replace (1 - 1)%R with 0%R by lra. rewrite Rabs_R0. lra.
  - replace (2 * w / 2)%R with w in B2 by lra. pose proof (down_pass p 2 w S2 HQ B2) as G. lra.
  - replace (4 * w / 2)%R with (2 * w)%R in * by lra. replace (2 * w / 2)%R with w in B4 by lra.
    pose proof (down_pass p 2 _ S2 HQ B2) as G2. pose proof (down_pass p 4 _ S4 HQ B4) as G4.
    set (g2 := down_gain p 2 _) in *. set (g4 := down_gain p 4 _) in *.
    replace (g4 * g2 - 1)%R with ((g4 - 1) + (g2 - 1) + (g4 - 1) * (g2 - 1))%R by ring.
    pose proof (Rabs_triang ((g4 - 1) + (g2 - 1)) ((g4 - 1) * (g2 - 1))) as T1. pose proof (Rabs_triang (g4 - 1) (g2 - 1)) as T2.
    rewrite Rabs_mult in T1. pose proof (Rabs_pos (g4 - 1)). pose proof (Rabs_pos (g2 - 1)).
    assert (Rabs (g4 - 1) * Rabs (g2 - 1) <= 0.01 * e)%R; [|lra].
    apply Rle_trans with (0.01 * Rabs (g2 - 1))%R; [apply Rmult_le_compat_r; lra | lra].
  - replace (8 * w / 2)%R with (4 * w)%R in * by lra. replace (4 * w / 2)%R with (2 * w)%R in * by lra. replace (4 * w / 4)%R with w in * by lra.
    pose proof (down_pass p 2 _ S2 HQ B2) as G2. pose proof (down_pass p 4 _ S4 HQ B4) as G4. pose proof (down_pass p 8 _ S8 HQ B8) as G8.
    set (g2 := down_gain p 2 _) in *. set (g4 := down_gain p 4 _) in *. set (g8 := down_gain p 8 _) in *.
    replace (g8 * g4 * g2 - 1)%R with ((g8 - 1) + (g4 - 1) + (g2 - 1) + ((g8 - 1) * (g4 - 1) + (g8 * g4 - 1) * (g2 - 1)))%R by ring.
    assert (P84 : (Rabs (g8 * g4 - 1) <= 0.01)%R).
    { replace (g8 * g4 - 1)%R with ((g8 - 1) + (g4 - 1) + (g8 - 1) * (g4 - 1))%R by ring.
      apply Rabs_le_inv in G4, G8. apply Rabs_le. assert (-0.003 <= g8 - 1 <= 0.003)%R by lra. assert (-0.003 <= g4 - 1 <= 0.003)%R by lra. nra. }
    pose proof (Rabs_triang ((g8 - 1) + (g4 - 1) + (g2 - 1)) ((g8 - 1) * (g4 - 1) + (g8 * g4 - 1) * (g2 - 1))) as T1.
    pose proof (Rabs_triang ((g8 - 1) * (g4 - 1)) ((g8 * g4 - 1) * (g2 - 1))) as T2.
    pose proof (Rabs_triang ((g8 - 1) + (g4 - 1)) (g2 - 1)) as T3. pose proof (Rabs_triang (g8 - 1) (g4 - 1)) as T4.
    rewrite !Rabs_mult in T2. pose proof (Rabs_pos (g4 - 1)). pose proof (Rabs_pos (g2 - 1)). pose proof (Rabs_pos (g8 - 1)).
    assert (Rabs (g8 - 1) * Rabs (g4 - 1) <= 0.002 * (0.84 * e / 2))%R by (apply Rmult_le_compat; lra).
    assert (Rabs (g8 * g4 - 1) * Rabs (g2 - 1) <= 0.01 * (e / 2))%R by (apply Rmult_le_compat; try lra; apply Rabs_pos).
    lra.
Qed.

Lemma band_stop ratio w k : ratio = 1 \/ ratio = 2 \/ ratio = 4 \/ ratio = 8 ->
  (Rabs (IZR ratio * w - 2 * PI * IZR k) <= band)%R -> k mod ratio <> 0 ->
  (Rabs (total_gain ratio w) <= error_of p)%R.
Proof.
  assert (S2 : stage_no 2) by (unfold stage_no; auto). assert (S4 : stage_no 4) by (unfold stage_no; auto).
  assert (S8 : stage_no 8) by (unfold stage_no; auto).
  destruct (error_eps p HQ) as (E2 & (E4 & E8) & E0 & E1).
  intros Hr Hw Hk. set (u := ((IZR ratio * w - 2 * PI * IZR k) / 2)%R).
  destruct (edge_band u) as (B2 & B4 & B8).
  { unfold u, Rdiv at 1. rewrite Rabs_mult, (Rabs_pos_eq (/ 2)) by lra. lra. }
  set (e := error_of p) in *.
  assert (A2 : forall v, (Rabs (down_gain p 2 v) <= 351 / 200)%R).
  { intros v. eapply Rle_trans; [apply (down_any p 2 v S2 HP)|]. change (stage_gain 2) with (251 / 100)%R. lra. }
  assert (A4 : forall v, (Rabs (down_gain p 4 v) <= 278 / 200)%R).
  { intros v. eapply Rle_trans; [apply (down_any p 4 v S4 HP)|]. change (stage_gain 4) with (178 / 100)%R. lra. }
  assert (A8 : forall v, (Rabs (down_gain p 8 v) <= 261 / 200)%R).
  { intros v. eapply Rle_trans; [apply (down_any p 8 v S8 HP)|]. change (stage_gain 8) with (161 / 100)%R. lra. }
  assert (M2 : forall a b x y, (Rabs a <= x -> Rabs b <= y -> Rabs (a * b) <= x * y)%R).
  { intros a b x y Ha Hb. rewrite Rabs_mult. apply Rmult_le_compat; try assumption; apply Rabs_pos. }
  assert (U1 : forall s v d, stage_no s -> (Rabs (down_gain p s v - 1) <= d -> Rabs (down_gain p s v) <= 1 + d)%R).
  { intros s v d _ Hd. apply Rabs_le_inv in Hd. pose proof (Rabs_pos (down_gain p s v)). apply Rabs_le. lra. }
  pose proof (cos_kpi k u) as K1.
  destruct Hr as [->|[->|[->| ->]]]; unfold total_gain; cbn [Z.eqb Pos.eqb].
  - rewrite Z.mod_1_r in Hk. congruence.
  - assert (Ev : Z.even k = false) by (rewrite Zmod_even in Hk; destruct (Z.even k); congruence). rewrite Ev in K1.
    replace (u + IZR k * PI)%R with w in K1 by (unfold u; lra).
    pose proof (down_stop p 2 w S2 HQ ltac:(lra)). lra.
  - replace (u + IZR k * PI)%R with (2 * w)%R in K1 by (unfold u; lra).
    destruct (Z.even k) eqn:Ev.
    + apply Z.even_spec in Ev. destruct Ev as [k2 Ek].
      assert (Ev2 : Z.even k2 = false).
      { destruct (Z.even k2) eqn:Ev2; [|reflexivity]. apply Z.even_spec in Ev2. destruct Ev2 as [k3 ->]. exfalso. apply Hk. rewrite Ek.
        replace (2 * (2 * k3)) with (k3 * 4) by lia. apply Z.mod_mul. lia. }
      pose proof (cos_kpi k2 (u / 2)) as K2. rewrite Ev2 in K2.
      replace (u / 2 + IZR k2 * PI)%R with w in K2 by (unfold u; rewrite Ek, mult_IZR; lra).
      pose proof (down_stop p 4 w S4 HQ ltac:(lra)) as G4. pose proof (M2 _ _ _ _ G4 (A2 (2 * w)%R)). lra.
    + pose proof (down_stop p 2 (2 * w) S2 HQ ltac:(lra)) as G2. pose proof (M2 _ _ _ _ (A4 w) G2). lra.
  - replace (u + IZR k * PI)%R with (4 * w)%R in K1 by (unfold u; lra).
    destruct (Z.even k) eqn:Ev.
    + pose proof (U1 _ _ _ S2 (down_pass p 2 (4 * w) S2 HQ ltac:(lra))) as G2.
      apply Z.even_spec in Ev. destruct Ev as [k2 Ek].
      pose proof (cos_kpi k2 (u / 2)) as K2. replace (u / 2 + IZR k2 * PI)%R with (2 * w)%R in K2 by (unfold u; rewrite Ek, mult_IZR; lra).
      destruct (Z.even k2) eqn:Ev2.
      * pose proof (U1 _ _ _ S4 (down_pass p 4 (2 * w) S4 HQ ltac:(lra))) as G4.
        apply Z.even_spec in Ev2. destruct Ev2 as [k4 Ek4].
        assert (Ev4 : Z.even k4 = false).
        { destruct (Z.even k4) eqn:Ev4; [|reflexivity]. apply Z.even_spec in Ev4. destruct Ev4 as [k3 ->]. exfalso. apply Hk. rewrite Ek, Ek4.
          replace (2 * (2 * (2 * k3))) with (k3 * 8) by lia. apply Z.mod_mul. lia. }
        pose proof (cos_kpi k4 (u / 4)) as K4. rewrite Ev4 in K4.
        replace (u / 4 + IZR k4 * PI)%R with w in K4 by (unfold u; rewrite Ek, Ek4, !mult_IZR; lra).
        pose proof (down_stop p 8 w S8 HQ ltac:(lra)) as G8.
        pose proof (M2 _ _ _ _ (M2 _ _ _ _ G8 G4) G2) as G.
        eapply Rle_trans; [exact G|].
        assert (fir_eps 8 p / 2 * (1 + fir_eps 4 p / 2) <= 0.65 * e / 2 * 1.003)%R.
        { assert (0 <= fir_eps 8 p)%R. { pose proof (Rabs_pos (down_gain p 8 w)). lra. }
          assert (0 <= fir_eps 4 p)%R. { pose proof (Rabs_pos (down_gain p 4 (2 * w) - 1)). pose proof (down_pass p 4 (2 * w) S4 HQ ltac:(lra)). lra. }
          apply Rmult_le_compat; lra. }
        apply Rle_trans with (0.65 * e / 2 * 1.003 * 1.003)%R; [apply Rmult_le_compat; try lra|lra].
        apply Rmult_le_pos; [pose proof (Rabs_pos (down_gain p 8 w)); lra | pose proof (Rabs_pos (down_gain p 4 (2 * w))); lra].
      * pose proof (down_stop p 4 (2 * w) S4 HQ ltac:(lra)) as G4.
        pose proof (M2 _ _ _ _ (M2 _ _ _ _ (A8 w) G4) G2) as G. eapply Rle_trans; [exact G|].
        apply Rle_trans with (261 / 200 * (0.84 * e / 2) * 1.003)%R; [|lra].
        pose proof (Rabs_pos (down_gain p 4 (2 * w))). apply Rmult_le_compat; lra.
    + pose proof (down_stop p 2 (4 * w) S2 HQ ltac:(lra)) as G2.
      pose proof (M2 _ _ _ _ (M2 _ _ _ _ (A8 w) (A4 (2 * w)%R)) G2) as G. eapply Rle_trans; [exact G|]. lra.
Qed.
End DownGain.

Theorem C48_downsampling_accuracy plat st (m : mem RA) id o D amp w ph :
  reach plat st m -> st id = Some o ->
  let r := o_res o in let x := o_in o in let y := o_out o in
  r_filter r = FILTER_FIR -> r_mode r = DOWN -> r_prec r <> PREC_LINEAR -> delay_is r D ->
  (forall k, 0 <= k < size x -> smp x k = (amp * sin (w * IZR k + ph))%R) -> (Rabs (IZR (r_ratio r) * w) <= band)%R ->
  forall j, (2 * D <= IZR j)%R -> j < size y ->
  (Rabs (smp y j - amp * sin (w * ((IZR j - D) * IZR (r_ratio r)) + ph)) <= down_factor (r_ratio r) * error_of (r_prec r) * Rabs amp)%R.
Proof.
  intros H E r x y Hf Hm HL HD HX HW j Hj Hjy.
  destruct (reach_fir plat _ _ _ _ _ H E Hf HD) as (V & _). fold r in V.
  pose proof (C49_sine_downsampling plat st m id o D amp w ph H E Hf Hm HD HX j Hj Hjy) as S. cbn zeta in S. fold r y in S.
  rewrite S. clear S. pose proof (prec_hq r V) as HQ. destruct V as [Vr _].
  destruct (Z.eq_dec (r_ratio r) 1) as [E1|E1].
  - rewrite E1. unfold down_factor. cbn [Z.eqb Pos.eqb]. set (q := sin _). replace (1 * (amp * q) - amp * q)%R with 0%R by ring. rewrite Rabs_R0. lra.
  - specialize (HQ E1 HL). pose proof (band_pass (r_prec r) HQ (r_ratio r) w Vr HW) as G.
    unfold total_gain, down_gain in G.
    match type of G with (Rabs (?g - 1) <= _)%R => set (gg := g) in * end.
    set (q := sin _). pose proof (SIN_bound (w * ((IZR j - D) * IZR (r_ratio r)) + ph)) as B. fold q in B. clearbody q.
    match goal with |- (Rabs (?g * _ - _) <= _)%R => change g with gg end.
    replace (gg * (amp * q) - amp * q)%R with ((gg - 1) * (amp * q))%R by ring.
    rewrite Rabs_mult. apply Rmult_le_compat; [apply Rabs_pos | apply Rabs_pos | exact G|].
    rewrite Rabs_mult. assert (Rabs q <= 1)%R by (apply Rabs_le; lra). pose proof (Rabs_pos amp). nra.
Qed.

(** components that would be aliased to a frequency below 18 kHz are suppressed *)
Theorem C48_alias_rejection plat st (m : mem RA) id o D amp w ph k :
  reach plat st m -> st id = Some o ->
  let r := o_res o in let x := o_in o in let y := o_out o in
  r_filter r = FILTER_FIR -> r_mode r = DOWN -> r_prec r <> PREC_LINEAR -> delay_is r D ->
  (forall k, 0 <= k < size x -> smp x k = (amp * sin (w * IZR k + ph))%R) ->
  (Rabs (IZR (r_ratio r) * w - 2 * PI * IZR k) <= band)%R -> k mod r_ratio r <> 0 ->
  forall j, (2 * D <= IZR j)%R -> j < size y -> (Rabs (smp y j) <= error_of (r_prec r) * Rabs amp)%R.
Proof.
  intros H E r x y Hf Hm HL HD HX HW Hk j Hj Hjy.
  destruct (reach_fir plat _ _ _ _ _ H E Hf HD) as (V & _). fold r in V.
  pose proof (C49_sine_downsampling plat st m id o D amp w ph H E Hf Hm HD HX j Hj Hjy) as S. cbn zeta in S. fold r y in S.
  rewrite S. clear S. pose proof (prec_hq r V) as HQ. destruct V as [Vr _].
  assert (E1 : r_ratio r <> 1) by (intros E1; rewrite E1, Z.mod_1_r in Hk; congruence).
  specialize (HQ E1 HL). pose proof (band_stop (r_prec r) HQ (r_ratio r) w k Vr HW Hk) as G.
  unfold total_gain, down_gain in G.
  match type of G with (Rabs ?g <= _)%R => set (gg := g) in * end.
  set (q := sin _). pose proof (SIN_bound (w * ((IZR j - D) * IZR (r_ratio r)) + ph)) as B. fold q in B. clearbody q.
  match goal with |- (Rabs (?g * _) <= _)%R => change g with gg end.
  rewrite Rabs_mult. apply Rmult_le_compat; [apply Rabs_pos | apply Rabs_pos | exact G|].
  rewrite Rabs_mult. assert (Rabs q <= 1)%R by (apply Rabs_le; lra). pose proof (Rabs_pos amp). nra.
Qed.

(** the thresholds of tests/testresampler.cc (in dB) for upsampling by 2; the last one is limited by single precision there *)
Definition threshold (p : Z) : R :=
  (if p =? PREC_48DB then 44 else if p =? PREC_72DB then 66.5 else if p =? PREC_96DB then 89
   else if p =? PREC_120DB then 113.5 else 124.5)%R.
Theorem C48_test_thresholds p : hq_prec p -> (error_of p <= Rpower 10 (- threshold p / 20))%R.
Proof.
  unfold hq_prec, error_of, threshold, PREC_48DB, PREC_72DB, PREC_96DB, PREC_120DB, Rpower.
  intros [->|[->|[->|[->| ->]]]]; cbn [Z.eqb Pos.eqb]; interval with (i_prec 60).
Qed.

(** linear interpolation: gain cos (w / 2) for the interpolated samples *)
Theorem C48_linear_interpolation plat st (m : mem RA) id o D amp w ph :
  reach plat st m -> st id = Some o ->
  let r := o_res o in let x := o_in o in let y := o_out o in
  r_filter r = FILTER_FIR -> r_mode r = UP -> r_ratio r = 2 -> r_prec r = PREC_LINEAR -> delay_is r D ->
  (forall k, 0 <= k < size x -> smp x k = (amp * sin (w * IZR k + ph))%R) ->
  forall j, (2 * D <= IZR j)%R -> j < size y ->
  smp y j = ((if Z.even j then cos (w / 2) else 1) * (amp * sin (w * ((IZR j - D) / 2) + ph)))%R.
Proof.
  intros H E r x y Hf Hm H2 HL HD HX j Hj Hjy.
  pose proof (C49_sine_upsampling plat st m id o D amp w ph H E Hf Hm H2 HD HX j Hj Hjy) as S. cbn zeta in S. fold r y in S.
  rewrite S, HL. unfold PREC_LINEAR. rewrite response_linear by (unfold stage_no; auto). reflexivity.
Qed.

(** the hypotheses can be met: 1 radian per sample is 7 kHz; 3.9 of 8 * 44.1 kHz would be aliased to 5 kHz *)
Example C48_case plat (sse : bool) : exists st (m : mem RA) o D j, reach plat st m /\ st 0 = Some o /\ r_filter (o_res o) = FILTER_FIR /\
  r_mode (o_res o) = UP /\ r_ratio (o_res o) = 8 /\ r_prec (o_res o) = PREC_96DB /\ r_prec (o_res o) <> PREC_LINEAR /\ r_use_sse (o_res o) = sse /\ delay_is (o_res o) D /\
  o_in o = sine 2 1 (1 / 3) 400 /\ (Rabs 1 <= band)%R /\ (2 * D <= IZR j)%R /\ j < size (o_out o).
Proof.
  destruct (some_obj (A := RA) plat UP 8 PREC_96DB sse FILTER_FIR 0 [(0, sine 2 1 (1 / 3) 400)] ltac:(reflexivity)) as (st & m & o & H & E & Er & Ei).
  cbn [map concat snd] in Ei. rewrite app_nil_r in Ei.
  exists st, m, o, (IZR (fir_delay8 UP 8 PREC_96DB) / 8)%R, 3000.
  rewrite (reach_size plat _ _ _ _ H E), Er, Ei. repeat split; try assumption.
  - discriminate.
  - apply fir_delay_is. now apply configb_ok.
  - rewrite Rabs_R1. unfold band. interval with (i_prec 60).
  - replace (fir_delay8 UP 8 PREC_96DB) with 1192 by reflexivity. lra.
Qed.
Example C48_case_alias : (Rabs (8 * (3 * PI / 4 + 1 / 10) - 2 * PI * IZR 3) <= band)%R /\ 3 mod 8 <> 0.
Proof. split; [|discriminate]. unfold band. interval with (i_prec 60). Qed.

Print Assumptions C48_upsampling_accuracy.
Print Assumptions C48_downsampling_accuracy.
Print Assumptions C48_alias_rejection.
Print Assumptions C48_test_thresholds.
Print Assumptions C48_linear_interpolation.
