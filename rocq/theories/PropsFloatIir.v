(** * Properties: single precision results of IIR resamplers *)
From Coq Require Import ZArith Reals List Lia Lra Bool ZifyNat ZifyBool.
From Flocq Require Import Core BinarySingleNaN.
From Verif Require Import Arith ArithR ArithF Mem FirModel IirModel Tables ResamplerModel Wp Stage Cascade
  ResamplerProof ResamplerOk Spec SpecOk SpecR Client Feed Twin StreamFacts TablesF TableFacts FirReal FloatComm FloatSum FloatFir FloatErr Cases
  PropsFloat PropsLimits IirReal FloatIir FloatDrift.
Import ListNotations.
Open Scope Z_scope.

(** what an IIR resampler would produce in exact arithmetic *)
Definition exact_iir (r : resampler) (x : list F32) : list RA :=
  resample (A := RA) FILTER_IIR (r_mode r) (r_prec r) false (r_ratio r) (vals x).
(** number of samples at the higher of the two rates *)
Definition high_rate (r : resampler) (x : list F32) : Z := match r_mode r with UP => size x * r_ratio r | DOWN => size x end.

(** ** C58 *)

(** all inputs are finite and at most M *)
Definition inputs_below (M : R) (x : list F32) : Prop :=
  forall k, 0 <= k < size x -> is_finite (smp x k : b32) = true /\ (Rabs (B2R (smp x k : b32)) <= M)%R.

Lemma inputs_near M x : inputs_below M x -> Forall2 (near M 0) x (vals x).
Proof.
  unfold inputs_below. induction x as [|a x IH]; intros H; [constructor|]. cbn [vals map]. constructor.
  - destruct (H 0 ltac:(unfold size; cbn [length]; lia)) as [F B]. split; [exact F|]. split; [exact B|]. change (Rabs (B2R (a : b32) - B2R (a : b32)) <= 0)%R. rewrite Rminus_eq_0, Rabs_R0. lra.
  - apply IH. intros k Hk. specialize (H (k + 1)). unfold size in *. cbn [length] in H. rewrite !smp_nth in * by lia.
    replace (Z.to_nat (k + 1)) with (S (Z.to_nat k)) in H by lia. apply H. lia.
Qed.

Lemma near_out plat st (m : mem F32) id o M n : reach plat st m -> st id = Some o ->
  let r := o_res o in r_filter r = FILTER_IIR -> (/ 2 ^ 100 <= M <= 2 ^ 100)%R -> inputs_below M (o_in o) ->
  high_rate r (o_in o) <= 2 * n ->
  (forall s, stage_no s -> s <= r_ratio r -> padded (vector plat FILTER_IIR (r_use_sse r)) s (r_prec r) = true -> 6 * n <= 2 ^ 24) ->
  valid FILTER_IIR (r_ratio r) (r_prec r) /\
  forall j, 0 <= j < size (o_out o) ->
  is_finite (smp (o_out o) j : b32) = true /\
  (Rabs (B2R (smp (o_out o) j : b32) - smp (exact_iir r (o_in o)) j) <= tot_err (vector plat FILTER_IIR (r_use_sse r)) (r_ratio r) (r_prec r) n * / 2 ^ 24 * M)%R.
Proof.
  intros H E r Hf HM Hx Hn HN. destruct (reach_built plat _ _ _ _ H E) as [_ V]. fold r in V. rewrite Hf in V. split; [exact V|]. intros j Hj.
  pose proof (reach_resample plat _ _ _ _ H E) as R. cbn zeta in R. fold r in R. rewrite Hf in R. specialize (R ltac:(discriminate)).
  assert (HM' : (low <= M <= bpow radix2 100)%R).
  { rewrite (pow_IZR 2 100) in HM. exact HM. }
  pose proof (resample_near (r_mode r) (r_prec r) (vector plat FILTER_IIR (r_use_sse r)) (r_ratio r) n (o_in o) M V HM'
    (reach_multiple plat _ _ _ _ H E) Hn HN (inputs_near M _ Hx)) as Q.
  rewrite <- R in Q. destruct (near_smp _ _ _ _ j Q Hj) as (F & _ & D). split; [exact F|].
  replace ulp1 with (/ 2 ^ 24)%R in D by (rewrite (pow_IZR 2 24); reflexivity). eapply Rle_trans; [exact D|]. right. ring.
Qed.

(** Without vector code: the error has a bound that does not depend on the length of
    the stream. *)
Theorem C58_accuracy plat st (m : mem F32) id o M :
  reach plat st m -> st id = Some o ->
  let r := o_res o in
  r_filter r = FILTER_IIR -> vector plat FILTER_IIR (r_use_sse r) = false -> (/ 2 ^ 100 <= M <= 2 ^ 100)%R -> inputs_below M (o_in o) ->
  forall j, 0 <= j < size (o_out o) ->
  is_finite (smp (o_out o) j : b32) = true /\
  (Rabs (B2R (smp (o_out o) j : b32) - smp (exact_iir r (o_in o)) j) <= IZR (iir_units (r_ratio r) (r_prec r)) * / 2 ^ 24 * M)%R.
Proof.
  intros H E r Hf Hv HM Hx j Hj.
  destruct (near_out plat _ _ _ _ M (high_rate r (o_in o)) H E Hf HM Hx) as [V G].
  - fold r. unfold high_rate. destruct (reach_built plat _ _ _ _ H E) as [_ [Hr _]]. fold r in Hr. unfold ratio_no in Hr. unfold size. destruct (r_mode r); nia.
  - fold r. rewrite Hv. intros s _ _ P. discriminate P.
  - fold r in V, G. rewrite Hv in G. destruct (G j Hj) as [F D]. split; [exact F|]. eapply Rle_trans; [exact D|].
    assert (0 < / 2 ^ 100)%R by (apply Rinv_0_lt_compat, pow_lt; lra). assert (0 < / 2 ^ 24)%R by (apply Rinv_0_lt_compat, pow_lt; lra).
    apply Rmult_le_compat_r; [lra|]. apply Rmult_le_compat_r; [lra|]. now apply units_ok.
Qed.

(** With vector code the bound grows with the number of samples, unless the number of
    coefficients of all stages is even (then the second number is 0). *)
Theorem C58_sse_accuracy plat st (m : mem F32) id o M n :
  reach plat st m -> st id = Some o ->
  let r := o_res o in let u := iir_units_sse (r_ratio r) (r_prec r) in
  r_filter r = FILTER_IIR -> vector plat FILTER_IIR (r_use_sse r) = true -> (/ 2 ^ 100 <= M <= 2 ^ 100)%R -> inputs_below M (o_in o) ->
  high_rate r (o_in o) <= 2 * n -> (snd u <> 0 -> 6 * n <= 2 ^ 24) ->
  forall j, 0 <= j < size (o_out o) ->
  is_finite (smp (o_out o) j : b32) = true /\
  (Rabs (B2R (smp (o_out o) j : b32) - smp (exact_iir r (o_in o)) j) <= IZR (fst u + snd u * n) * / 2 ^ 24 * M)%R.
Proof.
  intros H E r u Hf Hv HM Hx Hn Hu j Hj.
  destruct (reach_built plat _ _ _ _ H E) as [_ V]. fold r in V. rewrite Hf in V.
  assert (n0 : 0 <= n) by (destruct V as [Hr _]; unfold ratio_no in Hr; unfold high_rate, size in Hn; destruct (r_mode r); nia).
  destruct (near_out plat _ _ _ _ M n H E Hf HM Hx Hn) as [_ G].
  - fold r. rewrite Hv. intros s Hs Hl P. apply Hu. unfold u. now apply (padded_sse _ _ s).
  - fold r in G. rewrite Hv in G. destruct (G j Hj) as [F D]. split; [exact F|]. eapply Rle_trans; [exact D|].
    assert (0 < / 2 ^ 100)%R by (apply Rinv_0_lt_compat, pow_lt; lra). assert (0 < / 2 ^ 24)%R by (apply Rinv_0_lt_compat, pow_lt; lra).
    apply Rmult_le_compat_r; [lra|]. apply Rmult_le_compat_r; [lra|]. now apply units_sse_ok.
Qed.

(** so with an even number of coefficients per stage, an object that uses vector code agrees with one that does not *)
Theorem C58_agree plat1 plat2 st1 st2 (m1 m2 : mem F32) id1 id2 o1 o2 M :
  reach plat1 st1 m1 -> st1 id1 = Some o1 -> reach plat2 st2 m2 -> st2 id2 = Some o2 ->
  let r := o_res o1 in let r2 := o_res o2 in let u := iir_units_sse (r_ratio r) (r_prec r) in
  r_filter r = FILTER_IIR -> r_filter r2 = FILTER_IIR -> r_ratio r2 = r_ratio r -> r_mode r2 = r_mode r -> r_prec r2 = r_prec r ->
  o_in o2 = o_in o1 -> (/ 2 ^ 100 <= M <= 2 ^ 100)%R -> inputs_below M (o_in o1) ->
  vector plat1 FILTER_IIR (r_use_sse r) = false -> vector plat2 FILTER_IIR (r_use_sse r2) = true -> snd u = 0 ->
  size (o_out o2) = size (o_out o1) /\
  forall j, 0 <= j < size (o_out o1) ->
  (Rabs (B2R (smp (o_out o1) j : b32) - B2R (smp (o_out o2) j : b32)) <= IZR (iir_units (r_ratio r) (r_prec r) + fst u) * / 2 ^ 24 * M)%R.
Proof.
  intros H1 E1 H2 E2 r r2 u Hf Hf2 Hr Hm Hp Hi HM Hx V1 V2 Hu.
  assert (Sz : size (o_out o2) = size (o_out o1)).
  { pose proof (reach_size plat1 _ _ _ _ H1 E1) as S1. pose proof (reach_size plat2 _ _ _ _ H2 E2) as S2. fold r in S1. fold r2 in S2.
    rewrite Hm, Hr, Hi in S2. congruence. }
  split; [exact Sz|]. intros j Hj.
  destruct (C58_accuracy plat1 _ _ _ _ M H1 E1 Hf V1 HM Hx j Hj) as [_ Q1].
  destruct (C58_sse_accuracy plat2 _ _ _ _ M (high_rate r2 (o_in o2)) H2 E2 Hf2 V2 HM) with (j := j) as [_ Q2].
  - rewrite Hi. exact Hx.
  - fold r2. unfold high_rate. destruct (reach_built plat2 _ _ _ _ H2 E2) as [_ [Hr' _]]. fold r2 in Hr'. unfold ratio_no in Hr'. unfold size. destruct (r_mode r2); nia.
  - fold r2. rewrite Hr, Hp. fold u. intros N. contradiction.
  - lia.
  - fold r in Q1. fold r2 in Q2. rewrite Hr, Hp in Q2. fold u in Q2. rewrite Hu, Z.mul_0_l, Z.add_0_r in Q2. unfold exact_iir in Q1, Q2. rewrite Hm, Hp, Hi, Hr in Q2.
    set (z := smp (resample (A := RA) _ _ _ _ _ _) j) in Q1, Q2.
    replace (B2R (smp (o_out o1) j : b32) - B2R (smp (o_out o2) j : b32))%R with ((B2R (smp (o_out o1) j : b32) - z) + - (B2R (smp (o_out o2) j : b32) - z))%R by (change (T RA) with R; lra).
    eapply Rle_trans; [apply Rabs_triang|]. rewrite Rabs_Ropp, plus_IZR. lra.
Qed.

(** no overflow: inputs up to 2^100 give finite outputs, forever *)
Theorem C58_no_overflow plat st (m : mem F32) id o :
  reach plat st m -> st id = Some o -> r_filter (o_res o) = FILTER_IIR -> vector plat FILTER_IIR (r_use_sse (o_res o)) = false ->
  inputs_below (2 ^ 100) (o_in o) -> forall j, 0 <= j < size (o_out o) -> is_finite (smp (o_out o) j : b32) = true.
Proof.
  intros H E Hf Hv Hx j Hj. apply (C58_accuracy plat _ _ _ _ (2 ^ 100) H E Hf Hv); [|exact Hx | exact Hj].
  split; [|lra]. assert (1 <= 2 ^ 100)%R by (apply pow_R1_Rle; lra). rewrite <- (Rinv_1) in H0 at 1. apply Rle_trans with (/ 1)%R; [|lra].
  apply Rinv_le_contravar; lra.
Qed.

(** non-vacuity: all modes, ratios and precisions, with and without vector code *)
(** alternating samples 3/8 and -5/8 *)
Definition alternating (n : Z) : list F32 := tab (A := F32) n (fun k => b32_dy (if Z.even k then 3 else -5) (-3)).
Lemma alternating_below n : inputs_below 1 (alternating n).
Proof.
  intros k Hk. unfold alternating in *. rewrite smp_tab by (unfold size, tab in Hk; rewrite map_length, seq_length in Hk; lia).
  assert (P : bpow radix2 (-3) = (/ 8)%R) by reflexivity.
  destruct (Z.even k).
  - destruct (b32_dy_exact 3 (-3)) as [E F]; [lia | lia |]. split; [exact F|]. rewrite E, P. apply Rabs_le. lra.
  - destruct (b32_dy_exact (-5) (-3)) as [E F]; [lia | lia |]. split; [exact F|]. rewrite E, P. apply Rabs_le. lra.
Qed.
Example C58_case plat (sse : bool) md ratio prec : stage_no ratio -> iir_prec prec ->
  exists st (m : mem F32) o, reach plat st m /\ st 0 = Some o /\ r_filter (o_res o) = FILTER_IIR /\
  r_mode (o_res o) = md /\ r_ratio (o_res o) = ratio /\ r_prec (o_res o) = prec /\ r_use_sse (o_res o) = sse /\
  inputs_below 1 (o_in o) /\ size (o_in o) = 800 /\ high_rate (o_res o) (o_in o) <= 2 * 3200 /\ 6 * 3200 <= 2 ^ 24.
Proof.
  intros Hr Hp.
  destruct (some_obj (A := F32) plat md ratio prec sse FILTER_IIR 0 [(0, alternating 800)]) as (st & m & o & H & E & Er & Ei).
  { unfold stage_no in Hr. unfold iir_prec in Hp. destruct md, Hr as [->|[->| ->]], Hp as [->|[->|[->|[->| ->]]]]; reflexivity. }
  cbn [map concat snd] in Ei. rewrite app_nil_r in Ei.
  exists st, m, o. unfold high_rate. rewrite Er, Ei. cbn [r_mode r_ratio built]. assert (Sz : size (alternating 800) = 800) by reflexivity. rewrite Sz.
  unfold stage_no in Hr. repeat split; try assumption; try (now apply alternating_below); destruct md; lia.
Qed.

(** ** C59 *)
(** Vector code, precision 48 dB, upsampling by 2: there are inputs of size at most 1 for
    which the error grows by one unit 2^-24 per input sample. *)
Theorem C59_sse_error_grows n : Z.of_nat n <= 300000 ->
  exists st (m : mem F32) o, reach sse_platform st m /\ st 0 = Some o /\
  let r := o_res o in
  r_filter r = FILTER_IIR /\ r_mode r = UP /\ r_ratio r = 2 /\ r_prec r = PREC_48DB /\ vector sse_platform FILTER_IIR (r_use_sse r) = true /\
  size (o_in o) = Z.of_nat n + 2 /\ inputs_below 1 (o_in o) /\
  forall j, 0 <= j < size (o_in o) ->
  (IZR (j - 10) * / 2 ^ 24 <= Rabs (B2R (smp (o_out o) (2 * j + 1) : b32) - smp (exact_iir r (o_in o)) (2 * j + 1)))%R.
Proof.
  intros Hn. destruct (long_drift n Hn) as (x & L & B & D).
  destruct (feed (A := F32) sse_platform UP 2 PREC_48DB true FILTER_IIR 0 [(0, x)]) as (st & m & o & H & E & Er & Ei).
  - apply (configb_ok FILTER_IIR 2 PREC_48DB). reflexivity.
  - constructor; [|constructor]. split; [cbn; lia|]. cbn [snd size_ok]. unfold len. rewrite L. lia.
  - cbn [map concat snd] in Ei. rewrite app_nil_r in Ei. exists st, m, o. split; [exact H|]. split; [exact E|]. cbn zeta. 
    pose proof (reach_resample _ _ _ _ _ H E) as R. cbn zeta in R. rewrite Er, Ei in *. specialize (R ltac:(discriminate)).
    do 5 (split; [reflexivity|]). split; [unfold size; rewrite L; lia|]. split; [exact B|]. intros j Hj. rewrite R. unfold exact_iir. cbn [r_mode r_prec r_ratio built].
    rewrite (pow_IZR 2 24). exact (D j Hj).
Qed.

(** The same signal through two objects that only differ in the use of vector code:
    outputs differ by more than 1.7% of the bound of the input, far above -48 dB. *)
Theorem C59_use_sse_has_no_effect_refuted : exists st1 st2 (m1 m2 : mem F32) o1 o2,
  reach sse_platform st1 m1 /\ st1 0 = Some o1 /\ reach sse_platform st2 m2 /\ st2 0 = Some o2 /\
  o_res o1 = built sse_platform 0 UP 2 PREC_48DB true FILTER_IIR /\ o_res o2 = built sse_platform 0 UP 2 PREC_48DB false FILTER_IIR /\
  o_in o2 = o_in o1 /\ inputs_below 1 (o_in o1) /\ exists j, 0 <= j < size (o_out o1) /\
  (17 / 1000 < Rabs (B2R (smp (o_out o1) j : b32) - B2R (smp (o_out o2) j : b32)))%R.
Proof.
  destruct (long_drift (Z.to_nat 300000) ltac:(rewrite Z2Nat.id; lia)) as (x & L & B & D).
  assert (Sx : size x = 300002) by (unfold size; rewrite L; lia). clear L.
  destruct (feed (A := F32) sse_platform UP 2 PREC_48DB true FILTER_IIR 0 [(0, x)]) as (st1 & m1 & o1 & H1 & E1 & Er1 & Ei1).
  { apply (configb_ok FILTER_IIR 2 PREC_48DB). reflexivity. }
  { constructor; [|constructor]. split; [cbn; lia|]. cbn [snd size_ok]. unfold len. unfold size in Sx. lia. }
  destruct (feed (A := F32) sse_platform UP 2 PREC_48DB false FILTER_IIR 0 [(0, x)]) as (st2 & m2 & o2 & H2 & E2 & Er2 & Ei2).
  { apply (configb_ok FILTER_IIR 2 PREC_48DB). reflexivity. }
  { constructor; [|constructor]. split; [cbn; lia|]. cbn [snd size_ok]. unfold len. unfold size in Sx. lia. }
  cbn [map concat snd] in Ei1, Ei2. rewrite app_nil_r in Ei1, Ei2.
  pose proof (reach_resample _ _ _ _ _ H1 E1) as R1. cbn zeta in R1. rewrite Er1, Ei1 in R1. specialize (R1 ltac:(discriminate)).
  pose proof (reach_size _ _ _ _ _ H1 E1) as S1. rewrite Er1, Ei1, Sx in S1. cbn [r_mode r_ratio built out_size] in S1.
  pose proof (reach_size _ _ _ _ _ H2 E2) as S2. rewrite Er2, Ei2, Sx in S2. cbn [r_mode r_ratio built out_size] in S2.
  exists st1, st2, m1, m2, o1, o2. split; [exact H1|]. split; [exact E1|]. split; [exact H2|]. split; [exact E2|]. split; [exact Er1|]. split; [exact Er2|].
  split; [congruence|]. split; [rewrite Ei1; exact B|]. exists (2 * 300001 + 1). split; [lia|].
  specialize (D 300001 ltac:(lia)).
  assert (H24 : (/ 2 ^ 100 <= 1 <= 2 ^ 100)%R).
  { assert (1 <= 2 ^ 100)%R as Q by (apply pow_R1_Rle; lra). split; [|exact Q]. rewrite <- Rinv_1. apply Rinv_le_contravar; lra. }
  destruct (C58_accuracy _ _ _ _ _ 1%R H2 E2 ltac:(rewrite Er2; reflexivity) ltac:(rewrite Er2; reflexivity) H24 ltac:(rewrite Ei2; exact B) (2 * 300001 + 1) ltac:(lia)) as [_ Q].
  unfold exact_iir in Q. rewrite Er2, Ei2 in Q. cbn [r_mode r_prec r_ratio built] in Q. change (iir_units 2 PREC_48DB) with 69 in Q.
  change (r_mode (built sse_platform 0 UP 2 PREC_48DB true FILTER_IIR)) with UP in R1.
  change (o_out o1 = resample (A := F32) FILTER_IIR UP PREC_48DB true 2 x) in R1. rewrite <- R1 in D.
  set (z := smp (resample (A := RA) _ _ _ _ _ _) _) in D, Q. change (Arith.T RA) with R in z. set (a := B2R _) in D. set (b := B2R _) in Q. change (17 / 1000 < Rabs (a - b))%R.
  replace (bpow radix2 (-24)) with (/ 2 ^ 24)%R in D by (rewrite (pow_IZR 2 24); reflexivity).
  pose proof (Rabs_triang (a - b) (b - z)) as T1. replace (a - b + (b - z))%R with (a - z)%R in T1 by ring.
  change (300001 - 10) with 299991 in D. replace (/ 2 ^ 24)%R with (/ 16777216)%R in D, Q by (f_equal; ring). lra.
Qed.

Print Assumptions C58_accuracy.
Print Assumptions C58_sse_accuracy.
Print Assumptions C58_agree.
Print Assumptions C58_no_overflow.
Print Assumptions C59_sse_error_grows.
Print Assumptions C59_use_sse_has_no_effect_refuted.
