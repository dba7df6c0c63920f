(** * Properties: after NaN, infinities and overflow *)
From Coq Require Import ZArith Reals List Lia Lra Bool ZifyNat ZifyBool.
From Flocq Require Import Core BinarySingleNaN.
From Verif Require Import Arith ArithR ArithF Mem FirModel IirModel Tables ResamplerModel Wp Stage Cascade
  ResamplerProof ResamplerOk Spec SpecOk SpecR Client Feed StreamFacts DelayFacts ConfigFacts TablesF TableFacts FirReal FloatSum FloatFir FloatErr Cases PropsFloat
  Recover NanIir.
Import ListNotations.
Open Scope Z_scope.

(** ** C74 *)

(** FIR resamplers recover, with vector code too.  If the samples from P up to Q (at the lower
    rate) are finite and at most M, and the others are anything (NaN, infinities, huge), then the
    outputs from P + after to Q - before are as accurate as ever.  [after] and [before] are a
    fixed number of samples; see the example below for all their values. *)
Theorem C74_fir_recovers plat st (m : mem F32) id o M P Q :
  reach plat st m -> st id = Some o ->
  let r := o_res o in let n := r_ratio r in
  r_filter r = FILTER_FIR -> (0 <= M <= 2 ^ 109)%R ->
  (forall k, (match r_mode r with UP => P | DOWN => n * P end) <= k < (match r_mode r with UP => Q | DOWN => n * Q end) -> 0 <= k < size (o_in o) ->
     is_finite (smp (o_in o) k : b32) = true /\ (Rabs (B2R (smp (o_in o) k : b32)) <= M)%R) ->
  forall j, (match r_mode r with UP => n * (P + after n (r_prec r)) | DOWN => P + after n (r_prec r) end) <= j
            < (match r_mode r with UP => n * (Q - before n) | DOWN => Q - before n end) ->
  is_finite (smp (o_out o) j : b32) = true /\
  (Rabs (B2R (smp (o_out o) j : b32) - smp (exact_fir r (o_in o)) j) <= IZR (fir_units (r_mode r) n (r_prec r)) * / 2 ^ 24 * M + / 2 ^ 140)%R.
Proof.
  intros H E r n Hf HM Hx j Hj. destruct (reach_built plat _ _ _ _ H E) as [_ V]. fold r in V. rewrite Hf in V.
  pose proof (reach_resample_any plat _ _ _ _ H E) as R. cbn zeta in R. fold r in R. rewrite Hf in R.
  assert (HM' : (0 <= M <= bpow radix2 109)%R) by (rewrite (pow_IZR 2 109) in HM; exact HM).
  destruct (resample_recovers _ _ _ _ _ _ M P Q V HM' Hx R j Hj) as [F D]. split; [exact F|].
  change (bpow radix2 (-24)) with (/ IZR (2 ^ 24))%R in D. change (bpow radix2 (-140)) with (/ IZR (2 ^ 140))%R in D.
  rewrite (pow_IZR 2 24), (pow_IZR 2 140). exact D.
Qed.
Example C74_reach_of_a_sample :
  map (fun ratio => map (after ratio) [PREC_LINEAR; PREC_48DB; PREC_72DB; PREC_96DB; PREC_120DB; PREC_144DB]) [1; 2; 4; 8] =
    [[0; 0; 0; 0; 0; 0]; [4; 18; 26; 34; 44; 54]; [6; 22; 31; 40; 52; 63]; [7; 24; 33; 43; 55; 67]] /\
  map before [1; 2; 4; 8] = [0; 6; 9; 11].
Proof. split; reflexivity. Qed.

(** IIR resamplers do not: after one NaN or infinity all outputs are NaN, with or without vector
    code, whatever follows. *)
Theorem C74_iir_never_recovers plat st (m : mem F32) id o k :
  reach plat st m -> st id = Some o ->
  let r := o_res o in let n := r_ratio r in
  r_filter r = FILTER_IIR -> 2 <= n -> 0 <= k < size (o_in o) -> is_finite (smp (o_in o) k : b32) = false ->
  let first := match r_mode r with UP => n * k | DOWN => k / n end in
  let all := match r_mode r with UP => n * (k + 1) | DOWN => k / n + 1 end in
  (forall j, first <= j < size (o_out o) -> is_finite (smp (o_out o) j : b32) = false) /\
  (forall j, all <= j < size (o_out o) -> smp (o_out o) j = (B754_nan : b32)).
Proof.
  intros H E r n Hf H2 Hk B first all. destruct (reach_built plat _ _ _ _ H E) as [_ V]. fold r in V. rewrite Hf in V.
  pose proof (reach_resample plat _ _ _ _ H E) as R. cbn zeta in R. fold r in R. rewrite Hf in R. specialize (R ltac:(discriminate)).
  pose proof (resample_dies (r_mode r) (r_prec r) (vector plat FILTER_IIR (r_use_sse r)) n (o_in o) k V H2 (reach_multiple plat _ _ _ _ H E) Hk B) as D.
  assert (D' : dead (o_out o) first all) by (unfold first, all; rewrite R; destruct (r_mode r); exact D).
  destruct D' as (_ & D1 & D2). split; [exact D1|]. intros j Hj. specialize (D2 j Hj). destruct (smp (o_out o) j : b32); try discriminate D2. reflexivity.
Qed.

(** Nor do they recover from overflow: two samples, finite but too large, are enough. *)
Theorem C74_iir_overflow plat st (m : mem F32) id o rest :
  reach plat st m -> st id = Some o ->
  let r := o_res o in
  r_filter r = FILTER_IIR -> r_mode r = UP -> 2 <= r_ratio r -> o_in o = huge :: Bopp huge :: rest ->
  forall j, r_ratio r <= j < size (o_out o) -> is_finite (smp (o_out o) j : b32) = false.
Proof.
  intros H E r Hf Hm H2 Hi j Hj. destruct (reach_built plat _ _ _ _ H E) as [_ V]. fold r in V. rewrite Hf in V.
  pose proof (reach_resample plat _ _ _ _ H E) as R. cbn zeta in R. fold r in R. rewrite Hf in R. specialize (R ltac:(discriminate)).
  pose proof (reach_size plat _ _ _ _ H E) as Sz. fold r in Sz. rewrite Hm in Sz, R. rewrite Hi in Sz, R. rewrite R.
  apply resample_explodes; [exact V | exact H2|]. cbn [out_size] in Sz. unfold size in *. cbn [length] in Sz. lia.
Qed.
Example C74_huge : is_finite huge = true /\ B2R huge = (2 ^ 128 - 2 ^ 104)%R.
Proof.
  pose proof (binary_normalize_correct 24 128 Hprec32 Hmax32 mode_NE (2 ^ 24 - 1) 104 false) as H. cbn zeta in H.
  change (binary_normalize 24 128 Hprec32 Hmax32 mode_NE (2 ^ 24 - 1) 104 false) with huge in H.
  rewrite (round_generic radix2 _ (round_mode mode_NE)) in H
    by (apply generic_format_FLT; exists (Float radix2 (2 ^ 24 - 1) 104); cbn [Fnum Fexp]; [reflexivity | reflexivity | discriminate]).
  assert (V : F2R (Float radix2 (2 ^ 24 - 1) 104) = IZR (2 ^ 128 - 2 ^ 104))
    by (unfold F2R; cbn [Fnum Fexp]; change (bpow radix2 104) with (IZR (2 ^ 104)); rewrite <- mult_IZR; apply f_equal; reflexivity).
  rewrite V in H. rewrite Rlt_bool_true in H.
  - destruct H as (H1 & H2 & _). split; [exact H2|]. rewrite H1, (pow_IZR 2 128), (pow_IZR 2 104), <- minus_IZR. reflexivity.
  - rewrite Rabs_pos_eq by (apply IZR_le; lia). change (bpow radix2 128) with (IZR (2 ^ 128)). apply IZR_lt. lia.
Qed.

(** streams as in the hypotheses: NaN and an infinity among the first eight of 24 (48) samples *)
Example C74_case plat f md vec : exists st (m : mem F32) o, reach plat st m /\ st 0 = Some o /\
  r_filter (o_res o) = f /\ r_mode (o_res o) = md /\ r_ratio (o_res o) = 2 /\ r_prec (o_res o) = PREC_48DB /\ r_use_sse (o_res o) = vec /\
  size (o_in o) = 88 /\ smp (o_in o) 2 = (B754_nan : b32) /\ smp (o_in o) 3 = (B754_infinity false : b32) /\
  forall k, 8 <= k < 88 -> smp (o_in o) k = @f1 F32.
Proof.
  destruct (some_obj (A := F32) plat md 2 PREC_48DB vec f 0
    [(0, [@f1 F32; @f1 F32; B754_nan; B754_infinity false; @f1 F32; @f1 F32; @f1 F32; @f1 F32] : list F32); (1, repeat (@f1 F32) 80)]) as (st & m & o & H & E & R & I).
  { destruct f, md; reflexivity. }
  exists st, m, o. rewrite R, I. repeat split; try assumption; try reflexivity.
  intros k Hk. unfold smp. replace (k <? 0) with false by lia. cbn [map concat snd]. rewrite app_nil_r.
  change ([@f1 F32; @f1 F32; B754_nan; B754_infinity false; @f1 F32; @f1 F32; @f1 F32; @f1 F32] ++ repeat (@f1 F32) 80)
    with (([@f1 F32; @f1 F32; B754_nan; B754_infinity false; @f1 F32; @f1 F32; @f1 F32; @f1 F32] : list (T F32)) ++ repeat (@f1 F32) 80).
  rewrite app_nth2 by (cbn [length]; lia). rewrite (nth_indep _ _ (@f1 F32)) by (rewrite repeat_length; cbn [length]; lia). apply nth_repeat.
Qed.
Example C74_case_overflow plat ratio vec : ratio = 2 \/ ratio = 4 \/ ratio = 8 -> exists st (m : mem F32) o, reach plat st m /\ st 0 = Some o /\
  o_res o = built plat 0 UP ratio PREC_96DB vec FILTER_IIR /\ o_in o = huge :: Bopp huge :: repeat (@f0 F32) 100.
Proof.
  intros Hr. destruct (some_obj (A := F32) plat UP ratio PREC_96DB vec FILTER_IIR 0 [(0, huge :: Bopp huge :: repeat (@f0 F32) 100)]) as (st & m & o & H & E & R & I).
  { destruct Hr as [->|[->| ->]]; reflexivity. }
  exists st, m, o. rewrite I. cbn [map concat snd]. rewrite app_nil_r. auto.
Qed.

Print Assumptions C74_fir_recovers.
Print Assumptions C74_iir_never_recovers.
Print Assumptions C74_iir_overflow.
