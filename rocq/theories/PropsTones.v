(** * Properties: sums of sinusoids and round trips of FIR resamplers in exact arithmetic

    A tone [Wav a w q] is a * sin (w t + q), with w in radians per sample;
    [sines ws t] is the sum of the tones ws at time t and [mass ws] the sum of
    the absolute values of their amplitudes.  [band], [error_of], [up_factor]
    and [down_factor] are those of PropsFreq.v. *)
From Coq Require Import ZArith Reals List Lia Lra Bool ZifyNat ZifyBool.
From Flocq Require Import Core.
From Interval Require Import Tactic.
From Verif Require Import Arith ArithR ArithF Mem FirModel IirModel Tables ResamplerModel Wp Stage Cascade
  ResamplerProof ResamplerOk Spec SpecOk SpecR Client Feed StreamFacts DelayFacts TablesF TableFacts FirReal FreqFir Tones Cases PropsFir PropsFreq TonesProof.
Import ListNotations.
Open Scope Z_scope.

Definition in_band (u : wav) : Prop := (Rabs (w_frq u) <= band)%R.

Lemma sum_of (x : list RA) ws : (forall k, 0 <= k < size x -> smp x k = sines ws (IZR k)) -> is_sum x 0 ws.
Proof. intros H. split; [lia|]. intros k Hk. rewrite <- sines_total. now apply H. Qed.

(** ** C66: upsampling *)
Theorem C66_upsampling plat st (m : mem RA) id o D ws :
  reach plat st m -> st id = Some o ->
  let r := o_res o in let x := o_in o in let y := o_out o in
  r_filter r = FILTER_FIR -> r_mode r = UP -> r_prec r <> PREC_LINEAR -> delay_is r D ->
  (forall k, 0 <= k < size x -> smp x k = sines ws (IZR k)) -> Forall in_band ws ->
  forall j, (2 * D <= IZR j)%R -> j < size y ->
  (Rabs (smp y j - sines ws ((IZR j - D) / IZR (r_ratio r))) <= up_factor (r_ratio r) * error_of (r_prec r) * mass ws)%R.
Proof.
  intros H E r x y Hf Hm HL HD HX HW j Hj Hjy.
  destruct (reach_fir plat _ _ _ _ _ H E Hf HD) as (V & Ey & ED). fold r in V, Ey, ED. fold x y in Ey. rewrite Hm in *.
  pose proof (prec_hq r V) as HQ. destruct V as [Vr _].
  assert (J : fir_delay8 UP (r_ratio r) (r_prec r) <= 4 * j) by (apply le_IZR; rewrite mult_IZR; lra).
  rewrite Ey in *. rewrite ED. apply (sum_up (r_prec r) (r_ratio r) x 0 ws j Vr (fun N => HQ N HL) (sum_of x ws HX) HW); [lia | exact Hjy].
Qed.

(** ** C66: downsampling; the tones vs are removed, the tones ws kept *)
Theorem C66_downsampling plat st (m : mem RA) id o D ws vs :
  reach plat st m -> st id = Some o ->
  let r := o_res o in let x := o_in o in let y := o_out o in
  r_filter r = FILTER_FIR -> r_mode r = DOWN -> r_prec r <> PREC_LINEAR -> delay_is r D ->
  (forall k, 0 <= k < size x -> smp x k = sines (ws ++ vs) (IZR k)) ->
  Forall (passed (r_ratio r)) ws -> Forall (stopped (r_ratio r)) vs ->
  forall j, (2 * D <= IZR j)%R -> j < size y ->
  (Rabs (smp y j - sines ws ((IZR j - D) * IZR (r_ratio r))) <= error_of (r_prec r) * (down_factor (r_ratio r) * mass ws + mass vs))%R.
Proof.
  intros H E r x y Hf Hm HL HD HX HP HS j Hj Hjy.
  destruct (reach_fir plat _ _ _ _ _ H E Hf HD) as (V & Ey & ED). fold r in V, Ey, ED. fold x y in Ey. rewrite Hm in *.
  pose proof (fun N => prec_hq r V N HL) as HQ. destruct V as [Vr _].
  assert (J : fir_delay8 DOWN (r_ratio r) (r_prec r) <= 4 * j) by (apply le_IZR; rewrite mult_IZR; lra).
  assert (R1 : 1 <= r_ratio r) by (destruct Vr as [?|[?|[?|?]]]; lia).
  rewrite Ey in *. rewrite ED. apply (down_kept (r_prec r) (r_ratio r) x 0 ws vs j Vr HQ (sum_of x _ HX) HP HS); [nia | lia].
Qed.

(** ** C66: up and down again *)
Theorem C66_oversampling plat1 st1 (m1 : mem RA) id1 o1 plat2 st2 (m2 : mem RA) id2 o2 D1 D2 ws :
  reach plat1 st1 m1 -> st1 id1 = Some o1 -> reach plat2 st2 m2 -> st2 id2 = Some o2 ->
  let r1 := o_res o1 in let r2 := o_res o2 in let x := o_in o1 in let y := o_out o2 in
  r_filter r1 = FILTER_FIR -> r_mode r1 = UP -> r_filter r2 = FILTER_FIR -> r_mode r2 = DOWN -> r_ratio r2 = r_ratio r1 -> r_prec r2 = r_prec r1 ->
  r_prec r1 <> PREC_LINEAR -> delay_is r1 D1 -> delay_is r2 D2 -> o_in o2 = o_out o1 ->
  (forall k, 0 <= k < size x -> smp x k = sines ws (IZR k)) -> Forall in_band ws ->
  let D := (D1 / IZR (r_ratio r1) + D2)%R in
  forall j, (2 * D <= IZR j)%R -> j < size y ->
  (Rabs (smp y j - sines ws (IZR j - D)) <= over_factor (r_ratio r1) * error_of (r_prec r1) * mass ws)%R.
Proof.
  intros H1 E1 H2 E2 r1 r2 x y Hf1 Hm1 Hf2 Hm2 Hr Hp HL HD1 HD2 Ex HX HW D j Hj Hjy.
  destruct (reach_fir plat1 _ _ _ _ _ H1 E1 Hf1 HD1) as (V & Ey1 & ED1). fold r1 in V, Ey1, ED1. fold x in Ey1.
  destruct (reach_fir plat2 _ _ _ _ _ H2 E2 Hf2 HD2) as (V2 & Ey2 & ED2). fold r2 in V2, Ey2, ED2. fold y in Ey2.
  pose proof (reach_size plat1 _ _ _ _ H1 E1) as Sz1. pose proof (reach_size plat2 _ _ _ _ H2 E2) as Sz2. fold r1 x in Sz1. fold r2 y in Sz2.
  rewrite Hm1 in *. rewrite Hm2 in *. rewrite Hr, Hp in *. rewrite Ex in Ey2, Sz2. cbn [out_size] in *. rewrite Ey1 in Ey2.
  pose proof (fun N => prec_hq r1 V N HL) as HQ. destruct V as [Vr _]. set (ratio := r_ratio r1) in *.
  assert (R1 : 1 <= ratio) by (destruct Vr as [?|[?|[?|?]]]; lia). assert (RP : (1 <= IZR ratio)%R) by (now apply IZR_le in R1).
  rewrite Sz2, Sz1 in Hjy. replace (size x * ratio / ratio) with (size x) in Hjy by (symmetry; apply Z.div_mul; lia).
  rewrite Ey2. unfold D. rewrite ED1, ED2. apply (trip (r_prec r1) ratio x 0 ws j Vr HQ (sum_of x ws HX) HW); [|exact Hjy].
  rewrite Z.mul_0_r, Z.add_0_l. apply le_IZR. rewrite plus_IZR, !mult_IZR. unfold D in Hj. rewrite ED1, ED2 in Hj.
  set (d1 := IZR (fir_delay8 UP ratio (r_prec r1))) in *. set (d2 := IZR (fir_delay8 DOWN ratio (r_prec r1))) in *.
  apply (Rmult_le_compat_l (4 * IZR ratio)) in Hj; [|lra].
  replace (4 * IZR ratio * (2 * (d1 / 8 / IZR ratio + d2 / 8)))%R with (d1 + IZR ratio * d2)%R in Hj by (field; lra). exact Hj.
Qed.

(** ** C66: down and up again *)
Theorem C66_subsampling plat1 st1 (m1 : mem RA) id1 o1 plat2 st2 (m2 : mem RA) id2 o2 D1 D2 ws vs :
  reach plat1 st1 m1 -> st1 id1 = Some o1 -> reach plat2 st2 m2 -> st2 id2 = Some o2 ->
  let r1 := o_res o1 in let r2 := o_res o2 in let x := o_in o1 in let y := o_out o2 in
  r_filter r1 = FILTER_FIR -> r_mode r1 = DOWN -> r_filter r2 = FILTER_FIR -> r_mode r2 = UP -> r_ratio r2 = r_ratio r1 -> r_prec r2 = r_prec r1 ->
  r_prec r1 <> PREC_LINEAR -> delay_is r1 D1 -> delay_is r2 D2 -> o_in o2 = o_out o1 ->
  (forall k, 0 <= k < size x -> smp x k = sines (ws ++ vs) (IZR k)) ->
  Forall (passed (r_ratio r1)) ws -> Forall (stopped (r_ratio r1)) vs ->
  let D := (D1 * IZR (r_ratio r1) + D2)%R in
  forall j, (2 * D + IZR (r_ratio r1) <= IZR j)%R -> j < size y ->
  (Rabs (smp y j - sines ws (IZR j - D)) <= error_of (r_prec r1) * (sub_factor (r_ratio r1) * mass ws + 1.015 * mass vs))%R.
Proof.
  intros H1 E1 H2 E2 r1 r2 x y Hf1 Hm1 Hf2 Hm2 Hr Hp HL HD1 HD2 Ex HX HP HS D j Hj Hjy.
  destruct (reach_fir plat1 _ _ _ _ _ H1 E1 Hf1 HD1) as (V & Ey1 & ED1). fold r1 in V, Ey1, ED1. fold x in Ey1.
  destruct (reach_fir plat2 _ _ _ _ _ H2 E2 Hf2 HD2) as (V2 & Ey2 & ED2). fold r2 in V2, Ey2, ED2. fold y in Ey2.
  rewrite Hm1 in *. rewrite Hm2 in *. rewrite Hr, Hp in *. rewrite Ex in Ey2.
  pose proof (fun N => prec_hq r1 V N HL) as HQ. destruct V as [Vr _]. set (ratio := r_ratio r1) in *. set (p := r_prec r1) in *.
  assert (R1 : 1 <= ratio) by (destruct Vr as [?|[?|[?|?]]]; lia). assert (RP : (1 <= IZR ratio)%R) by (now apply IZR_le in R1).
  set (d1 := fir_delay8 DOWN ratio p) in *. set (d2 := fir_delay8 UP ratio p) in *. set (q := (d1 + 3) / 4).
  assert (Q : d1 <= 4 * q <= d1 + 3) by (unfold q; pose proof (Z.div_mod (d1 + 3) 4 ltac:(lia)); pose proof (Z.mod_pos_bound (d1 + 3) 4 ltac:(lia)); lia).
  assert (JJ : 4 * ratio * q + d2 <= 4 * j).
  { unfold D in Hj. rewrite ED1, ED2 in Hj.
    assert (K : ratio * d1 + d2 + 4 * ratio <= 4 * j).
    { apply le_IZR. rewrite !plus_IZR, !mult_IZR. lra. }
    nia. }
  rewrite Ey2 in *. rewrite Ey1 in *. unfold D. rewrite ED1, ED2. apply (down_up p ratio x 0 ws vs q j Vr HQ (sum_of x _ HX) HP HS); [fold d1; nia | exact JJ | exact Hjy].
Qed.

(** the limits of tests/testresampler.cc, lines 879-886: -44 and -89 dB for oversampling, -85.5 dB for subsampling *)
Theorem C66_test_thresholds :
  (over_factor 2 * error_of PREC_48DB <= Rpower 10 (- 44 / 20) /\ over_factor 2 * error_of PREC_96DB <= Rpower 10 (- 89 / 20) /\
   sub_factor 2 * error_of PREC_96DB <= Rpower 10 (- 85.5 / 20))%R.
Proof.
  unfold over_factor, sub_factor, error_of, PREC_48DB, PREC_72DB, PREC_96DB, Rpower. cbn [Z.eqb Pos.eqb]. repeat split; interval with (i_prec 60).
Qed.

(** the hypotheses can be met *)
Definition two_tones : list wav := [Wav 2 1 (1 / 3); Wav (-1) (1 / 2) 0].
Definition played (ws : list wav) (n : Z) : list RA := tab (A := RA) n (fun k => sines ws (IZR k) : RA).
Example C66_case plat (sse : bool) : exists st1 (m1 : mem RA) o1 st2 (m2 : mem RA) o2 D1 D2,
  reach plat st1 m1 /\ st1 0 = Some o1 /\ reach plat st2 m2 /\ st2 1 = Some o2 /\
  r_filter (o_res o1) = FILTER_FIR /\ r_mode (o_res o1) = UP /\ r_filter (o_res o2) = FILTER_FIR /\ r_mode (o_res o2) = DOWN /\
  r_ratio (o_res o1) = 4 /\ r_ratio (o_res o2) = 4 /\ r_prec (o_res o1) = PREC_144DB /\ r_prec (o_res o2) = PREC_144DB /\
  delay_is (o_res o1) D1 /\ delay_is (o_res o2) D2 /\ o_in o2 = o_out o1 /\
  o_in o1 = played two_tones 400 /\ (forall k, 0 <= k < size (o_in o1) -> smp (o_in o1) k = sines two_tones (IZR k)) /\
  Forall in_band two_tones /\ (2 * (D1 / 4 + D2) <= 120)%R /\ 120 < size (o_out o2).
Proof.
  destruct (some_obj (A := RA) plat UP 4 PREC_144DB sse FILTER_FIR 0 [(0, played two_tones 400)] eq_refl) as (st1 & m1 & o1 & H1 & E1 & Er1 & Ei1).
  cbn [map concat snd] in Ei1. rewrite app_nil_r in Ei1.
  assert (L : length (o_out o1) = 1600%nat).
  { pose proof (reach_size plat _ _ _ _ H1 E1) as S. rewrite Er1, Ei1 in S. unfold played in S. rewrite size_tab in S by lia. cbn [out_size built r_mode r_ratio] in S. unfold size in S. lia. }
  destruct (some_obj (A := RA) plat DOWN 4 PREC_144DB sse FILTER_FIR 1 [(0, o_out o1)]) as (st2 & m2 & o2 & H2 & E2 & Er2 & Ei2).
  { cbn [forallb snd fst]. rewrite L. reflexivity. }
  cbn [map concat snd] in Ei2. rewrite app_nil_r in Ei2.
  exists st1, m1, o1, st2, m2, o2, (IZR (fir_delay8 UP 4 PREC_144DB) / 8)%R, (IZR (fir_delay8 DOWN 4 PREC_144DB) / 8)%R.
  rewrite (reach_size plat _ _ _ _ H2 E2), Er1, Er2, Ei1, Ei2. repeat split; try assumption.
  - apply fir_delay_is. now apply configb_ok.
  - apply fir_delay_is. now apply configb_ok.
  - unfold played. rewrite size_tab by lia. intros k Hk. now rewrite smp_tab by lia.
  - assert (P : (0 < PI)%R) by apply PI_RGT_0. repeat constructor; unfold in_band, band; cbn [w_frq]; rewrite Rabs_pos_eq by lra; interval with (i_prec 60).
  - replace (fir_delay8 UP 4 PREC_144DB) with 936 by reflexivity. replace (fir_delay8 DOWN 4 PREC_144DB) with 234 by reflexivity. lra.
  - unfold size. rewrite L. reflexivity.
Qed.
(** a kept and a removed tone for downsampling by 4 *)
Example C66_case_tones : passed 4 (Wav 1 (1 / 4) 0) /\ stopped 4 (Wav 1 (PI / 2 + 1 / 4) 0).
Proof.
  split.
  - unfold passed, band. cbn [w_frq]. interval with (i_prec 60).
  - exists 1. split; [|discriminate]. unfold band. cbn [w_frq]. interval with (i_prec 60).
Qed.

Print Assumptions C66_upsampling.
Print Assumptions C66_downsampling.
Print Assumptions C66_oversampling.
Print Assumptions C66_subsampling.
Print Assumptions C66_test_thresholds.
