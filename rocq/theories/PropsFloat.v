(** * Properties: single precision results

    [vals x]: the real numbers the floats x stand for. *)
From Coq Require Import ZArith Reals List Lia Lra Bool ZifyNat ZifyBool.
From Flocq Require Import Core BinarySingleNaN.
From Verif Require Import Arith ArithR ArithF Mem FirModel IirModel Tables ResamplerModel Wp Stage Cascade
  ResamplerProof ResamplerOk Spec SpecOk SpecR Client Feed Twin StreamFacts TablesF TableFacts FirReal FloatComm FloatSum FloatFir FloatErr Cases.
Import ListNotations.
Open Scope Z_scope.

(** what a FIR resampler would produce in exact arithmetic *)
Definition exact_fir (r : resampler) (x : list F32) : list RA :=
  resample (A := RA) FILTER_FIR (r_mode r) (r_prec r) false (r_ratio r) (vals x).

(** ** C07 *)

(** ratio 2: error against the exact sum, for whatever order of additions *)
Theorem C07_ratio_2_accuracy plat st (m : mem F32) id o j :
  reach plat st m -> st id = Some o ->
  let r := o_res o in
  r_filter r = FILTER_FIR -> r_ratio r = 2 ->
  0 <= j < size (o_out o) -> is_finite (smp (o_out o) j : b32) = true ->
  let t := coeffs (A := RA) FILTER_FIR (r_mode r) (r_prec r) 2 in
  (Rabs (B2R (smp (o_out o) j : b32) - smp (exact_fir r (o_in o)) j)
   <= IZR (size t + 6) * / 2 ^ 24 * weight (r_mode r) t (vals (o_in o)) j + IZR (size t + 1) * / 2 ^ 149)%R.
Proof.
  intros H E r Hf H2 Hj F t. destruct (reach_built plat _ _ _ _ H E) as [_ [_ HT]]. fold r in HT. rewrite Hf in HT. specialize (HT ltac:(lia)). cbn in HT.
  pose proof (reach_resample_any plat _ _ _ _ H E) as R. cbn zeta in R. fold r in R. rewrite Hf, H2 in R.
  assert (S2 : stage_no 2) by (left; reflexivity).
  assert (R' : stage_any (A := F32) FILTER_FIR (r_mode r) (r_prec r) (vector plat FILTER_FIR (r_use_sse r)) 2 (o_in o) (o_out o)).
  { unfold resample_any in R. cbn [Z.eqb Pos.eqb] in R. destruct (r_mode r); exact R. }
  pose proof (stage_rounding _ _ _ 2 _ _ j S2 HT R' Hj F) as Q. fold t in Q. unfold exact_fir. rewrite H2.
  replace (resample (A := RA) FILTER_FIR (r_mode r) (r_prec r) false 2 (vals (o_in o)))
    with (stage (A := RA) FILTER_FIR (r_mode r) (r_prec r) false 2 (vals (o_in o))) by (destruct (r_mode r); reflexivity).
  change (bpow radix2 (-24)) with (/ IZR (2 ^ 24))%R in Q. change (bpow radix2 (-149)) with (/ IZR (2 ^ 149))%R in Q.
  rewrite (pow_IZR 2 24), (pow_IZR 2 149). exact Q.
Qed.
(** so two objects for the same signal, with or without vector code, on any
    platform, however their blocks were cut, agree up to twice this error *)
Theorem C07_ratio_2_agree plat1 plat2 st1 st2 (m1 m2 : mem F32) id1 id2 o1 o2 j :
  reach plat1 st1 m1 -> st1 id1 = Some o1 -> reach plat2 st2 m2 -> st2 id2 = Some o2 ->
  let r := o_res o1 in let r2 := o_res o2 in
  r_filter r = FILTER_FIR -> r_ratio r = 2 ->
  r_filter r2 = FILTER_FIR -> r_ratio r2 = 2 -> r_mode r2 = r_mode r -> r_prec r2 = r_prec r -> o_in o2 = o_in o1 ->
  0 <= j < size (o_out o1) -> is_finite (smp (o_out o1) j : b32) = true -> is_finite (smp (o_out o2) j : b32) = true ->
  let t := coeffs (A := RA) FILTER_FIR (r_mode r) (r_prec r) 2 in
  (Rabs (B2R (smp (o_out o1) j : b32) - B2R (smp (o_out o2) j : b32))
   <= 2 * (IZR (size t + 6) * / 2 ^ 24 * weight (r_mode r) t (vals (o_in o1)) j + IZR (size t + 1) * / 2 ^ 149))%R.
Proof.
  intros H1 E1 H2 E2 r r2 Hf Hr Hf2 Hr2 Hm Hp Hi Hj F1 F2 t.
  pose proof (C07_ratio_2_accuracy plat1 _ _ _ _ j H1 E1 Hf Hr Hj F1) as Q1.
  assert (Hj2 : 0 <= j < size (o_out o2)).
  { pose proof (reach_size plat1 _ _ _ _ H1 E1) as S1. pose proof (reach_size plat2 _ _ _ _ H2 E2) as S2. fold r in S1. fold r2 in S2.
    rewrite Hm, Hr2, Hi in S2. rewrite Hr in S1. lia. }
  pose proof (C07_ratio_2_accuracy plat2 _ _ _ _ j H2 E2 Hf2 Hr2 Hj2 F2) as Q2.
  cbn zeta in Q1, Q2. fold r in Q1. fold r2 in Q2. unfold exact_fir in Q1, Q2. rewrite Hm, Hp, Hi, Hr2 in Q2. rewrite Hr in Q1. fold t in Q1, Q2.
  set (z := smp (resample (A := RA) _ _ _ _ _ _) j) in Q1, Q2.
  replace (B2R (smp (o_out o1) j : b32) - B2R (smp (o_out o2) j : b32))%R with ((B2R (smp (o_out o1) j : b32) - z) + - (B2R (smp (o_out o2) j : b32) - z))%R by (change (T RA) with R; lra).
  eapply Rle_trans; [apply Rabs_triang|]. rewrite Rabs_Ropp. lra.
Qed.

(** every ratio: error relative to the largest input *)
Theorem C07_accuracy plat st (m : mem F32) id o M :
  reach plat st m -> st id = Some o ->
  let r := o_res o in
  r_filter r = FILTER_FIR -> (M <= 2 ^ 109)%R ->
  (forall k, 0 <= k < size (o_in o) -> is_finite (smp (o_in o) k : b32) = true /\ (Rabs (B2R (smp (o_in o) k : b32)) <= M)%R) ->
  forall j, 0 <= j < size (o_out o) ->
  is_finite (smp (o_out o) j : b32) = true /\
  (Rabs (B2R (smp (o_out o) j : b32) - smp (exact_fir r (o_in o)) j) <= IZR (fir_units (r_mode r) (r_ratio r) (r_prec r)) * / 2 ^ 24 * M + / 2 ^ 140)%R.
Proof.
  intros H E r Hf HM Hx j Hj. destruct (reach_built plat _ _ _ _ H E) as [_ V]. fold r in V. rewrite Hf in V.
  pose proof (reach_resample_any plat _ _ _ _ H E) as R. cbn zeta in R. fold r in R. rewrite Hf in R.
  assert (I0 : 0 < size (o_in o)).
  { destruct (Z_lt_le_dec 0 (size (o_in o))) as [|L]; [assumption|]. exfalso. pose proof (reach_size plat _ _ _ _ H E) as Sz. fold r in Sz.
    assert (size (o_in o) = 0) as Z0 by (unfold size in *; lia). rewrite Z0 in Sz. unfold out_size in Sz. destruct (r_mode r); [lia|].
    destruct V as [Vr _]. rewrite Z.div_0_l in Sz by (destruct Vr as [?|[?|[?|?]]]; lia). lia. }
  assert (M0 : (0 <= M)%R) by (destruct (Hx 0 ltac:(lia)) as [_ B]; eapply Rle_trans; [apply Rabs_pos | exact B]).
  assert (Hx' : forall i, is_finite (smp (o_in o) i : b32) = true /\ (Rabs (B2R (smp (o_in o) i : b32)) <= M)%R).
  { intros i. destruct (Z_lt_le_dec i 0); [rewrite smp_neg by lia; cbn; rewrite Rabs_R0; auto|].
    destruct (Z_lt_le_dec i (size (o_in o))); [apply Hx; lia | rewrite smp_over by lia; cbn; rewrite Rabs_R0; auto]. }
  assert (HM' : (M <= bpow radix2 109)%R) by (rewrite (pow_IZR 2 109) in HM; exact HM).
  destruct (resample_tracks _ _ _ _ _ _ M V HM' Hx' R j) as [F Q]. split; [exact F|].
  change (bpow radix2 (-24)) with (/ IZR (2 ^ 24))%R in Q. change (bpow radix2 (-140)) with (/ IZR (2 ^ 140))%R in Q.
  rewrite (pow_IZR 2 24), (pow_IZR 2 140). exact Q.
Qed.
Theorem C07_agree plat1 plat2 st1 st2 (m1 m2 : mem F32) id1 id2 o1 o2 M :
  reach plat1 st1 m1 -> st1 id1 = Some o1 -> reach plat2 st2 m2 -> st2 id2 = Some o2 ->
  let r := o_res o1 in let r2 := o_res o2 in
  r_filter r = FILTER_FIR -> r_filter r2 = FILTER_FIR -> r_ratio r2 = r_ratio r -> r_mode r2 = r_mode r -> r_prec r2 = r_prec r ->
  o_in o2 = o_in o1 -> (M <= 2 ^ 109)%R ->
  (forall k, 0 <= k < size (o_in o1) -> is_finite (smp (o_in o1) k : b32) = true /\ (Rabs (B2R (smp (o_in o1) k : b32)) <= M)%R) ->
  size (o_out o2) = size (o_out o1) /\
  forall j, 0 <= j < size (o_out o1) ->
  (Rabs (B2R (smp (o_out o1) j : b32) - B2R (smp (o_out o2) j : b32)) <= 2 * (IZR (fir_units (r_mode r) (r_ratio r) (r_prec r)) * / 2 ^ 24 * M + / 2 ^ 140))%R.
Proof.
  intros H1 E1 H2 E2 r r2 Hf Hf2 Hr Hm Hp Hi HM Hx.
  assert (Sz : size (o_out o2) = size (o_out o1)).
  { pose proof (reach_size plat1 _ _ _ _ H1 E1) as S1. pose proof (reach_size plat2 _ _ _ _ H2 E2) as S2. fold r in S1. fold r2 in S2.
    rewrite Hm, Hr, Hi in S2. congruence. }
  split; [exact Sz|]. intros j Hj.
  destruct (C07_accuracy plat1 _ _ _ _ M H1 E1 Hf HM Hx j Hj) as [_ Q1].
  destruct (C07_accuracy plat2 _ _ _ _ M H2 E2 Hf2 HM ltac:(rewrite Hi; exact Hx) j ltac:(lia)) as [_ Q2].
  fold r in Q1. fold r2 in Q2. unfold exact_fir in Q1, Q2. rewrite Hm, Hp, Hi, Hr in Q2.
  set (z := smp (resample (A := RA) _ _ _ _ _ _) j) in Q1, Q2.
  replace (B2R (smp (o_out o1) j : b32) - B2R (smp (o_out o2) j : b32))%R with ((B2R (smp (o_out o1) j : b32) - z) + - (B2R (smp (o_out o2) j : b32) - z))%R by (change (T RA) with R; lra).
  eapply Rle_trans; [apply Rabs_triang|]. rewrite Rabs_Ropp. lra.
Qed.

(** ** C28 *)
Theorem C28_no_overflow plat st (m : mem F32) id o :
  reach plat st m -> st id = Some o -> r_filter (o_res o) = FILTER_FIR ->
  (forall k, 0 <= k < size (o_in o) -> is_finite (smp (o_in o) k : b32) = true /\ (Rabs (B2R (smp (o_in o) k : b32)) <= 2 ^ 109)%R) ->
  forall j, 0 <= j < size (o_out o) -> is_finite (smp (o_out o) j : b32) = true.
Proof. intros H E Hf Hx j Hj. exact (proj1 (C07_accuracy plat _ _ _ _ (2 ^ 109) H E Hf (Rle_refl _) Hx j Hj)). Qed.
(** a finite sum has finite terms, so nothing infinite or NaN came up on the way *)
Theorem C28_intermediates (a b : b32) :
  (is_finite (b32_plus a b) = true -> is_finite a = true /\ is_finite b = true) /\
  (is_finite (b32_mult a b) = true -> is_finite a = true /\ is_finite b = true).
Proof. split; [apply plus_fin_inv | apply mult_fin_inv]. Qed.

(** alternating large samples *)
Definition big (n : Z) : list F32 := tab (A := F32) n (fun k => b32_dy (if Z.even k then 3 else -5) 100).
Lemma big_ok n k : 0 <= k < size (big n) -> is_finite (smp (big n) k : b32) = true /\ (Rabs (B2R (smp (big n) k : b32)) <= 2 ^ 109)%R.
Proof.
  intros Hk. unfold big in *. rewrite smp_tab by (unfold size, tab in Hk; rewrite map_length, seq_length in Hk; lia).
  assert (B : (5 * bpow radix2 100 <= 2 ^ 109)%R).
  { rewrite (pow_IZR 2 109). change (5 * bpow radix2 100)%R with (5 * IZR (2 ^ 100))%R. rewrite <- mult_IZR. apply IZR_le. discriminate. }
  pose proof (bpow_gt_0 radix2 100) as P.
  destruct (Z.even k).
  - destruct (b32_dy_exact 3 100) as [E F]; [lia | lia |]. split; [exact F|]. rewrite E, Rabs_mult, (Rabs_pos_eq (bpow radix2 100)), Rabs_pos_eq by lra. lra.
  - destruct (b32_dy_exact (-5) 100) as [E F]; [lia | lia |]. split; [exact F|]. rewrite E, Rabs_mult, (Rabs_pos_eq (bpow radix2 100)) by lra.
    rewrite Rabs_left by lra. lra.
Qed.
Example C28_case plat (sse : bool) md : exists st (m : mem F32) o, reach plat st m /\ st 0 = Some o /\ r_filter (o_res o) = FILTER_FIR /\
  r_mode (o_res o) = md /\ r_ratio (o_res o) = 8 /\ r_prec (o_res o) = PREC_144DB /\ r_use_sse (o_res o) = sse /\ o_in o = big 800 /\
  forall k, 0 <= k < size (o_in o) -> is_finite (smp (o_in o) k : b32) = true /\ (Rabs (B2R (smp (o_in o) k : b32)) <= 2 ^ 109)%R.
Proof.
  destruct (some_obj (A := F32) plat md 8 PREC_144DB sse FILTER_FIR 0 [(0, big 800)] ltac:(destruct md; reflexivity)) as (st & m & o & H & E & Er & Ei).
  cbn [map concat snd] in Ei. rewrite app_nil_r in Ei.
  exists st, m, o. rewrite Er, Ei. repeat split; try assumption; now apply big_ok.
Qed.
(** two such objects, one using vector code and getting its input in two blocks *)
Example C07_case plat1 plat2 md ratio prec : ratio = 2 \/ ratio = 8 -> prec = PREC_72DB \/ prec = PREC_144DB ->
  exists st1 st2 (m1 m2 : mem F32) o1 o2,
  reach plat1 st1 m1 /\ st1 0 = Some o1 /\ reach plat2 st2 m2 /\ st2 0 = Some o2 /\
  r_filter (o_res o1) = FILTER_FIR /\ r_filter (o_res o2) = FILTER_FIR /\ r_ratio (o_res o1) = ratio /\ r_ratio (o_res o2) = ratio /\
  r_mode (o_res o1) = md /\ r_mode (o_res o2) = md /\ r_prec (o_res o1) = prec /\ r_prec (o_res o2) = prec /\
  r_use_sse (o_res o1) = true /\ r_use_sse (o_res o2) = false /\ o_in o2 = o_in o1 /\ size (o_in o1) = 800 /\
  (forall k, 0 <= k < size (o_in o1) -> is_finite (smp (o_in o1) k : b32) = true /\ (Rabs (B2R (smp (o_in o1) k : b32)) <= 2 ^ 109)%R) /\
  forall j, 0 <= j < size (o_out o1) -> is_finite (smp (o_out o1) j : b32) = true /\ is_finite (smp (o_out o2) j : b32) = true.
Proof.
  intros Hr Hp.
  assert (L1 : length (firstn 200 (big 800)) = 200%nat) by reflexivity. assert (L2 : length (skipn 200 (big 800)) = 600%nat) by reflexivity.
  destruct (some_obj (A := F32) plat1 md ratio prec true FILTER_FIR 0 [(0, firstn 200 (big 800)); (1, skipn 200 (big 800))]) as (st1 & m1 & o1 & H1 & E1 & Er1 & Ei1).
  { cbn [forallb fst snd]. rewrite L1, L2. destruct md, Hr as [->| ->], Hp as [->| ->]; reflexivity. }
  destruct (some_obj (A := F32) plat2 md ratio prec false FILTER_FIR 0 [(0, big 800)]) as (st2 & m2 & o2 & H2 & E2 & Er2 & Ei2).
  { destruct md, Hr as [->| ->], Hp as [->| ->]; reflexivity. }
  cbn [map concat snd] in Ei1, Ei2. rewrite app_nil_r in Ei1, Ei2. rewrite firstn_skipn in Ei1.
  exists st1, st2, m1, m2, o1, o2. rewrite Er1, Er2, Ei1, Ei2.
  do 16 (split; [first [assumption | reflexivity]|]). split; [apply big_ok|]. intros j Hj.
  assert (Sz : size (o_out o2) = size (o_out o1)).
  { pose proof (reach_size plat1 _ _ _ _ H1 E1) as S1. pose proof (reach_size plat2 _ _ _ _ H2 E2) as S2. rewrite Er1, Ei1 in S1. rewrite Er2, Ei2 in S2.
    cbn [r_mode r_ratio built] in S1, S2. congruence. }
  split.
  - apply (C28_no_overflow plat1 _ _ _ _ H1 E1); [now rewrite Er1 | rewrite Ei1; apply big_ok | exact Hj].
  - apply (C28_no_overflow plat2 _ _ _ _ H2 E2); [now rewrite Er2 | rewrite Ei2; apply big_ok | lia].
Qed.

(** ** C40 *)
Theorem C40_silence plat st (m : mem F32) id o :
  reach plat st m -> st id = Some o ->
  Forall (fun v : b32 => exists s, v = B754_zero s) (o_in o) -> Forall (fun v : b32 => exists s, v = B754_zero s) (o_out o).
Proof.
  intros H E Hx. destruct (reach_built plat _ _ _ _ H E) as [_ V].
  pose proof (reach_resample_any plat _ _ _ _ H E) as R. cbn zeta in R. exact (resample_zero _ _ _ _ _ _ _ V Hx R).
Qed.
Example C40_case plat (sse : bool) f md : exists st (m : mem F32) o, reach plat st m /\ st 0 = Some o /\
  r_filter (o_res o) = f /\ r_mode (o_res o) = md /\ r_ratio (o_res o) = 8 /\ r_prec (o_res o) = PREC_48DB /\ r_use_sse (o_res o) = sse /\
  o_in o = repeat (B754_zero true : b32) 64 /\ Forall (fun v : b32 => exists s, v = B754_zero s) (o_in o).
Proof.
  destruct (some_obj (A := F32) plat md 8 PREC_48DB sse f 0 [(0, repeat (B754_zero true : b32) 64)] ltac:(destruct f, md; reflexivity)) as (st & m & o & H & E & Er & Ei).
  cbn [map concat snd] in Ei. rewrite app_nil_r in Ei.
  exists st, m, o. rewrite Er, Ei. repeat split; try assumption. apply Forall_forall. intros v Hv. apply repeat_spec in Hv. now exists true.
Qed.

Print Assumptions C07_ratio_2_accuracy.
Print Assumptions C07_ratio_2_agree.
Print Assumptions C07_accuracy.
Print Assumptions C07_agree.
Print Assumptions C28_no_overflow.
Print Assumptions C28_intermediates.
Print Assumptions C40_silence.
