(** * Properties: accuracy of single precision resamplers for sinusoids

    The input is a sinusoid up to an error d per sample (for instance its own
    rounding to single precision, see [C61_correctly_rounded_input]). *)
From Coq Require Import ZArith Reals List Lia Lra Bool ZifyNat ZifyBool.
From Flocq Require Import Core BinarySingleNaN Relative.
From Interval Require Import Tactic.
From Verif Require Import Arith ArithR ArithF Mem FirModel IirModel Tables ResamplerModel Wp Stage Cascade
  ResamplerProof ResamplerOk Spec SpecOk SpecR Client Feed StreamFacts DelayFacts TablesF TableFacts FirReal FreqFir FloatComm FloatSum FloatFir FloatErr
  Cases PropsStream PropsFir PropsFreq PropsFloat IirFreq IirDelay IirSine PropsIir PropsIirFreq FloatIir FloatDrift PropsLimits PropsFloatIir FloatFreq.
Import ListNotations.
Open Scope Z_scope.

(** the samples from n0 on are finite and, up to d, those of a sinusoid *)
Definition tone (x : list F32) (n0 : Z) (amp w ph d : R) : Prop :=
  forall k, n0 <= k < size x -> is_finite (smp x k : b32) = true /\ (Rabs (B2R (smp x k : b32) - amp * sin (w * IZR k + ph)) <= d)%R.

Definition tone_exact (x : list F32) (n0 : Z) (amp w ph : R) : list RA :=
  tab (A := RA) (size x) (fun k => if k <? n0 then B2R (smp x k : b32) : RA else (amp * sin (w * IZR k + ph))%R : RA).
Lemma tone_close x n0 amp w ph d : (0 <= d)%R -> 0 <= n0 -> tone x n0 amp w ph d ->
  let z := tone_exact x n0 amp w ph in
  size z = size x /\ (forall k, 0 <= k < size z -> (Rabs (B2R (smp x k : b32) - smp z k) <= d)%R) /\
  (forall k, n0 <= k < size z -> smp z k = (amp * sin (w * IZR k + ph))%R) /\
  (forall k, 0 <= k < n0 -> k < size z -> smp z k = B2R (smp x k : b32)).
Proof.
  intros Hd Hn H z. assert (S : size z = size x) by (unfold z, tone_exact; rewrite size_tab; [reflexivity | unfold size; lia]).
  rewrite S. unfold z, tone_exact. repeat split; intros k Hk.
  - rewrite smp_tab by lia. destruct (Z.ltb_spec k n0); [rewrite Rminus_eq_0, Rabs_R0; exact Hd | apply H; lia].
  - rewrite smp_tab by lia. destruct (Z.ltb_spec k n0); [lia | reflexivity].
  - intros Hk2. rewrite smp_tab by lia. destruct (Z.ltb_spec k n0); [reflexivity | lia].
Qed.

Lemma sine_amp amp u d v : (Rabs (v - amp * sin u) <= d -> Rabs v <= Rabs amp + d)%R.
Proof.
  intros H. replace v with ((v - amp * sin u) + amp * sin u)%R by ring. eapply Rle_trans; [apply Rabs_triang|].
  rewrite (Rabs_mult amp). pose proof (SIN_bound u). assert (Rabs (sin u) <= 1)%R by (apply Rabs_le; lra). pose proof (Rabs_pos amp).
  assert (Rabs amp * Rabs (sin u) <= Rabs amp * 1)%R by (apply Rmult_le_compat_l; lra). lra.
Qed.
Lemma close3 (a b c t e1 e2 e3 : R) : (Rabs (a - b) <= e1 -> Rabs (b - c) <= e2 -> Rabs (c - t) <= e3 -> Rabs (a - t) <= e3 + e2 + e1)%R.
Proof. intros H1 H2 H3. apply Rabs_le_inv in H1, H2, H3. apply Rabs_le. lra. Qed.

(** ** C61 *)

(** the part of the error that does not come from the filter: error of the input and rounding *)
Definition fir_noise (r : resampler) (amp d : R) : R :=
  (fir_bound (r_mode r) (r_ratio r) * d + (IZR (fir_units (r_mode r) (r_ratio r) (r_prec r)) * / 2 ^ 24 * (Rabs amp + d) + / 2 ^ 140))%R.

Lemma fir_transfer plat st (m : mem F32) id o amp w ph d :
  reach plat st m -> st id = Some o ->
  let r := o_res o in let x := o_in o in let y := o_out o in
  r_filter r = FILTER_FIR -> (0 <= d)%R -> (Rabs amp + d <= 2 ^ 109)%R -> tone x 0 amp w ph d ->
  exists st' (m' : mem RA) o', reach plat st' m' /\ st' id = Some o' /\ o_res o' = r /\ size (o_out o') = size y /\
    (forall k, 0 <= k < size (o_in o') -> smp (o_in o') k = (amp * sin (w * IZR k + ph))%R) /\
    forall j t e, 0 <= j < size y -> (Rabs (smp (o_out o') j - t) <= e)%R ->
      is_finite (smp y j : b32) = true /\ (Rabs (B2R (smp y j : b32) - t) <= e + fir_noise r amp d)%R.
Proof.
  intros H E r x y Hf Hd HM Hx. destruct (tone_close x 0 amp w ph d Hd ltac:(lia) Hx) as (Sz & Cz & Tz & _). set (z := tone_exact x 0 amp w ph) in *.
  destruct (exact_twin plat _ _ _ _ z d H E Sz Hd Cz) as (st' & m' & o' & H' & E' & Er & Ei & So & Q).
  exists st', m', o'. split; [exact H'|]. split; [exact E'|]. split; [exact Er|]. split; [exact So|]. rewrite Ei. split; [exact Tz|].
  intros j t e Hj He. cbn zeta in Q. fold r in Q. rewrite Hf in Q. specialize (Q j Hj).
  destruct (C07_accuracy plat _ _ _ _ (Rabs amp + d) H E Hf HM) with (j := j) as [F Q1]; [|exact Hj|].
  - intros k Hk. destruct (Hx k Hk) as [F D]. split; [exact F | exact (sine_amp _ _ _ _ D)].
  - split; [exact F|]. unfold fir_noise. cbn [filter_bound] in Q. fold r x in Q1. unfold exact_fir in Q1.
    pose proof (close3 _ _ _ _ _ _ _ Q1 Q He) as C. fold y in C. lra.
Qed.

Theorem C61_fir_upsampling plat st (m : mem F32) id o D amp w ph d :
  reach plat st m -> st id = Some o ->
  let r := o_res o in let x := o_in o in let y := o_out o in
  r_filter r = FILTER_FIR -> r_mode r = UP -> r_prec r <> PREC_LINEAR -> delay_is r D ->
  (0 <= d)%R -> (Rabs amp + d <= 2 ^ 109)%R -> tone x 0 amp w ph d -> (Rabs w <= band)%R ->
  forall j, (2 * D <= IZR j)%R -> 0 <= j < size y ->
  is_finite (smp y j : b32) = true /\
  (Rabs (B2R (smp y j : b32) - amp * sin (w * ((IZR j - D) / IZR (r_ratio r)) + ph)) <= up_factor (r_ratio r) * error_of (r_prec r) * Rabs amp + fir_noise r amp d)%R.
Proof.
  intros H E r x y Hf Hm HL HD Hd HM Hx Hw j Hj Hjy.
  destruct (fir_transfer plat _ _ _ _ amp w ph d H E Hf Hd HM Hx) as (st' & m' & o' & H' & E' & Er & So & Tz & G).
  pose proof (C48_upsampling_accuracy plat _ _ _ _ D amp w ph H' E') as Q. cbn zeta in Q. rewrite Er, So in Q.
  apply (G j _ _ Hjy). apply Q; assumption || apply Hjy.
Qed.
Theorem C61_fir_downsampling plat st (m : mem F32) id o D amp w ph d :
  reach plat st m -> st id = Some o ->
  let r := o_res o in let x := o_in o in let y := o_out o in
  r_filter r = FILTER_FIR -> r_mode r = DOWN -> r_prec r <> PREC_LINEAR -> delay_is r D ->
  (0 <= d)%R -> (Rabs amp + d <= 2 ^ 109)%R -> tone x 0 amp w ph d -> (Rabs (IZR (r_ratio r) * w) <= band)%R ->
  forall j, (2 * D <= IZR j)%R -> 0 <= j < size y ->
  is_finite (smp y j : b32) = true /\
  (Rabs (B2R (smp y j : b32) - amp * sin (w * ((IZR j - D) * IZR (r_ratio r)) + ph)) <= down_factor (r_ratio r) * error_of (r_prec r) * Rabs amp + fir_noise r amp d)%R.
Proof.
  intros H E r x y Hf Hm HL HD Hd HM Hx Hw j Hj Hjy.
  destruct (fir_transfer plat _ _ _ _ amp w ph d H E Hf Hd HM Hx) as (st' & m' & o' & H' & E' & Er & So & Tz & G).
  pose proof (C48_downsampling_accuracy plat _ _ _ _ D amp w ph H' E') as Q. cbn zeta in Q. rewrite Er, So in Q.
  apply (G j _ _ Hjy). apply Q; assumption || apply Hjy.
Qed.
Theorem C61_fir_alias_rejection plat st (m : mem F32) id o D amp w ph d k :
  reach plat st m -> st id = Some o ->
  let r := o_res o in let x := o_in o in let y := o_out o in
  r_filter r = FILTER_FIR -> r_mode r = DOWN -> r_prec r <> PREC_LINEAR -> delay_is r D ->
  (0 <= d)%R -> (Rabs amp + d <= 2 ^ 109)%R -> tone x 0 amp w ph d ->
  (Rabs (IZR (r_ratio r) * w - 2 * PI * IZR k) <= band)%R -> k mod r_ratio r <> 0 ->
  forall j, (2 * D <= IZR j)%R -> 0 <= j < size y ->
  is_finite (smp y j : b32) = true /\ (Rabs (B2R (smp y j : b32)) <= error_of (r_prec r) * Rabs amp + fir_noise r amp d)%R.
Proof.
  intros H E r x y Hf Hm HL HD Hd HM Hx Hw Hk j Hj Hjy.
  destruct (fir_transfer plat _ _ _ _ amp w ph d H E Hf Hd HM Hx) as (st' & m' & o' & H' & E' & Er & So & Tz & G).
  pose proof (C48_alias_rejection plat _ _ _ _ D amp w ph k H' E') as Q. cbn zeta in Q. rewrite Er, So in Q.
  destruct (G j 0%R (error_of (r_prec r) * Rabs amp)%R Hjy) as [F B].
  - rewrite Rminus_0_r. apply Q; assumption || apply Hjy.
  - rewrite Rminus_0_r in B. split; assumption.
Qed.

(** rounding the samples of a sinusoid to nearest gives d = 2^-24 amp + 2^-150 *)
Theorem C61_correctly_rounded_input (x : list F32) n0 amp w ph :
  (forall k, n0 <= k < size x -> is_finite (smp x k : b32) = true /\
    B2R (smp x k : b32) = round radix2 (FLT_exp (-149) 24) ZnearestE (amp * sin (w * IZR k + ph))) ->
  tone x n0 amp w ph (/ 2 ^ 24 * Rabs amp + / 2 ^ 150).
Proof.
  intros H k Hk. destruct (H k Hk) as [F E]. split; [exact F|]. rewrite E. set (v := (amp * sin (w * IZR k + ph))%R).
  assert (V : (Rabs v <= Rabs amp)%R).
  { unfold v. rewrite Rabs_mult. pose proof (SIN_bound (w * IZR k + ph)). assert (Rabs (sin (w * IZR k + ph)) <= 1)%R by (apply Rabs_le; lra). pose proof (Rabs_pos amp).
    assert (Rabs amp * Rabs (sin (w * IZR k + ph)) <= Rabs amp * 1)%R by (apply Rmult_le_compat_l; lra). lra. }
  destruct (error_N_FLT radix2 (-149) 24 ltac:(lia) (fun t => negb (Z.even t)) v) as (eps & eta & He & Ht & _ & Ev).
  rewrite Ev. replace (v * (1 + eps) + eta - v)%R with (v * eps + eta)%R by ring.
  eapply Rle_trans; [apply Rabs_triang|]. rewrite Rabs_mult.
  apply Rplus_le_compat.
  - rewrite Rmult_comm. apply Rmult_le_compat; try apply Rabs_pos; [|exact V]. eapply Rle_trans; [exact He|]. right.
    rewrite (pow_IZR 2 24). change (-24 + 1) with (-23). cbn. lra.
  - eapply Rle_trans; [exact Ht|]. right. rewrite (pow_IZR 2 150). cbn. lra.
Qed.

(** signal to error ratios in dB for correctly rounded sinusoids, for every precision except PREC_LINEAR *)
Definition pick_dB (p : Z) (a b c d e : R) : R := if p =? PREC_48DB then a else if p =? PREC_72DB then b else if p =? PREC_96DB then c else if p =? PREC_120DB then d else e.
Definition fir_snr (md : rmode) (ratio p : Z) : R :=
  match md with
  | UP => if ratio =? 2 then pick_dB p 44.7 66.4 87.8 100.6 100.9 else if ratio =? 4 then pick_dB p 39.4 61.0 82.1 93.1 93.2 else pick_dB p 36.7 58.3 78.6 87.6 87.3
  | DOWN => if ratio =? 2 then pick_dB p 50.7 72.4 93.4 104.2 104 else if ratio =? 4 then pick_dB p 45.4 67 87.9 98.5 98.4 else pick_dB p 42.7 64.3 84.9 94.5 94.4
  end%R.
Lemma fir_noise_rel r amp : valid FILTER_FIR (r_ratio r) (r_prec r) -> (/ 2 ^ 100 <= Rabs amp)%R ->
  (fir_noise r amp (/ 2 ^ 24 * Rabs amp + / 2 ^ 150) <= (fir_bound (r_mode r) (r_ratio r) * (/ 2 ^ 24 + / 2 ^ 50) + (IZR (fir_units (r_mode r) (r_ratio r) (r_prec r)) * / 2 ^ 24 * (1 + / 2 ^ 23) + / 2 ^ 40)) * Rabs amp)%R.
Proof.
  intros V Ha. unfold fir_noise. set (a := Rabs amp) in *.
  assert (P : forall n, (0 < / 2 ^ n)%R) by (intros; apply Rinv_0_lt_compat, pow_lt; lra).
  assert (S : forall n k l, l = (n + k)%nat -> (/ 2 ^ l = / 2 ^ n * / 2 ^ k)%R) by (intros n k l ->; rewrite pow_add, Rinv_mult; reflexivity).
  assert (E150 : (/ 2 ^ 150 <= / 2 ^ 50 * a)%R).
  { rewrite (S 50%nat 100%nat 150%nat eq_refl). apply Rmult_le_compat_l; [apply Rlt_le, P | exact Ha]. }
  assert (E140 : (/ 2 ^ 140 <= / 2 ^ 40 * a)%R).
  { rewrite (S 40%nat 100%nat 140%nat eq_refl). apply Rmult_le_compat_l; [apply Rlt_le, P | exact Ha]. }
  assert (E50 : (/ 2 ^ 50 <= / 2 ^ 24)%R).
  { apply Rinv_le_contravar; [apply pow_lt; lra | apply Rle_pow; [lra | lia]]. }
  assert (E23 : (/ 2 ^ 23 = 2 * / 2 ^ 24)%R) by (rewrite (S 23%nat 1%nat 24%nat eq_refl), pow_1; field; apply pow_nonzero; lra).
  assert (A0 : (0 < a)%R) by (eapply Rlt_le_trans; [apply P | exact Ha]).
  assert (D : (/ 2 ^ 24 * a + / 2 ^ 150 <= (/ 2 ^ 24 + / 2 ^ 50) * a)%R) by lra.
  assert (D2 : (a + (/ 2 ^ 24 * a + / 2 ^ 150) <= (1 + / 2 ^ 23) * a)%R).
  { rewrite E23. assert (/ 2 ^ 50 * a <= / 2 ^ 24 * a)%R by (apply Rmult_le_compat_r; lra). lra. }
  assert (B0 : (0 <= fir_bound (r_mode r) (r_ratio r))%R) by (unfold fir_bound; destruct (r_mode r), (r_ratio r =? 1), (r_ratio r =? 2), (r_ratio r =? 4); lra).
  assert (U0 : (0 <= IZR (fir_units (r_mode r) (r_ratio r) (r_prec r)) * / 2 ^ 24)%R).
  { apply Rmult_le_pos; [|apply Rlt_le, P]. apply IZR_le. unfold fir_units, pick.
    destruct (r_ratio r =? 1), (r_mode r), (r_ratio r =? 2), (r_ratio r =? 4), (r_prec r =? 1), (r_prec r =? 8), (r_prec r =? 12), (r_prec r =? 16), (r_prec r =? 20); lia. }
  rewrite Rmult_plus_distr_r, Rmult_plus_distr_r. apply Rplus_le_compat; [rewrite Rmult_assoc; now apply Rmult_le_compat_l|].
  apply Rplus_le_compat; [|exact E140]. rewrite (Rmult_assoc _ _ a). now apply Rmult_le_compat_l.
Qed.

Lemma snr_numbers md ratio p : 2 <= ratio -> ratio_no ratio -> hq_prec p ->
  (match md with UP => up_factor ratio | DOWN => down_factor ratio end * error_of p +
    (fir_bound md ratio * (/ 2 ^ 24 + / 2 ^ 50) + (IZR (fir_units md ratio p) * / 2 ^ 24 * (1 + / 2 ^ 23) + / 2 ^ 40)) <= Rpower 10 (- fir_snr md ratio p / 20))%R.
Proof.
  unfold ratio_no, hq_prec. intros H2 Hr Hp. destruct Hr as [->|Hr]; [lia|].
  unfold up_factor, down_factor, error_of, fir_bound, fir_units, fir_snr, pick, pick_dB, Rpower, PREC_48DB, PREC_72DB, PREC_96DB, PREC_120DB.
  destruct md, Hr as [->|[->| ->]], Hp as [->|[->|[->|[->| ->]]]]; cbn [Z.eqb Pos.eqb]; interval with (i_prec 60).
Qed.

Theorem C61_fir_upsampling_snr plat st (m : mem F32) id o D amp w ph :
  reach plat st m -> st id = Some o ->
  let r := o_res o in let x := o_in o in let y := o_out o in
  r_filter r = FILTER_FIR -> r_mode r = UP -> 2 <= r_ratio r -> r_prec r <> PREC_LINEAR -> delay_is r D ->
  (/ 2 ^ 100 <= Rabs amp <= 2 ^ 100)%R -> (Rabs w <= band)%R ->
  (forall k, 0 <= k < size x -> is_finite (smp x k : b32) = true /\
    B2R (smp x k : b32) = round radix2 (FLT_exp (-149) 24) ZnearestE (amp * sin (w * IZR k + ph))) ->
  forall j, (2 * D <= IZR j)%R -> 0 <= j < size y ->
  is_finite (smp y j : b32) = true /\
  (Rabs (B2R (smp y j : b32) - amp * sin (w * ((IZR j - D) / IZR (r_ratio r)) + ph)) <= Rpower 10 (- fir_snr UP (r_ratio r) (r_prec r) / 20) * Rabs amp)%R.
Proof.
  intros H E r x y Hf Hm H2 HL HD Ha Hw Hx j Hj Hjy. destruct (reach_built plat _ _ _ _ H E) as [_ V]. fold r in V. rewrite Hf in V.
  assert (P : forall n, (0 < / 2 ^ n)%R) by (intros; apply Rinv_0_lt_compat, pow_lt; lra).
  destruct (C61_fir_upsampling plat _ _ _ _ D amp w ph (/ 2 ^ 24 * Rabs amp + / 2 ^ 150)%R H E Hf Hm HL HD) with (j := j) as [F B]; try assumption; [| |exact (C61_correctly_rounded_input x 0 amp w ph Hx)|].
  - pose proof (P 24%nat). pose proof (P 150%nat). pose proof (Rabs_pos amp). assert (0 <= / 2 ^ 24 * Rabs amp)%R by (apply Rmult_le_pos; lra). lra.
  - assert (/ 2 ^ 24 <= 1)%R by (rewrite <- Rinv_1; apply Rinv_le_contravar; [lra | apply pow_R1_Rle; lra]).
    assert (/ 2 ^ 150 <= 1)%R by (rewrite <- Rinv_1; apply Rinv_le_contravar; [lra | apply pow_R1_Rle; lra]).
    assert (/ 2 ^ 24 * Rabs amp <= 1 * Rabs amp)%R by (apply Rmult_le_compat_r; [apply Rabs_pos | assumption]).
    assert (4 * 2 ^ 100 <= 2 ^ 109)%R by (rewrite (pow_IZR 2 100), (pow_IZR 2 109), <- mult_IZR; apply IZR_le; lia).
    assert (1 <= 2 ^ 100)%R by (apply pow_R1_Rle; lra). lra.
  - split; [exact F|]. fold r y in B. eapply Rle_trans; [exact B|].
    pose proof (fir_noise_rel r amp V (proj1 Ha)) as N. rewrite Hm in N.
    pose proof (snr_numbers UP (r_ratio r) (r_prec r) H2 (proj1 V) (prec_hq r V ltac:(lia) HL)) as Q.
    apply (Rmult_le_compat_r (Rabs amp)) in Q; [|apply Rabs_pos]. rewrite Rmult_plus_distr_r in Q. lra.
Qed.
Theorem C61_fir_downsampling_snr plat st (m : mem F32) id o D amp w ph :
  reach plat st m -> st id = Some o ->
  let r := o_res o in let x := o_in o in let y := o_out o in
  r_filter r = FILTER_FIR -> r_mode r = DOWN -> 2 <= r_ratio r -> r_prec r <> PREC_LINEAR -> delay_is r D ->
  (/ 2 ^ 100 <= Rabs amp <= 2 ^ 100)%R -> (Rabs (IZR (r_ratio r) * w) <= band)%R ->
  (forall k, 0 <= k < size x -> is_finite (smp x k : b32) = true /\
    B2R (smp x k : b32) = round radix2 (FLT_exp (-149) 24) ZnearestE (amp * sin (w * IZR k + ph))) ->
  forall j, (2 * D <= IZR j)%R -> 0 <= j < size y ->
  is_finite (smp y j : b32) = true /\
  (Rabs (B2R (smp y j : b32) - amp * sin (w * ((IZR j - D) * IZR (r_ratio r)) + ph)) <= Rpower 10 (- fir_snr DOWN (r_ratio r) (r_prec r) / 20) * Rabs amp)%R.
Proof.
  intros H E r x y Hf Hm H2 HL HD Ha Hw Hx j Hj Hjy. destruct (reach_built plat _ _ _ _ H E) as [_ V]. fold r in V. rewrite Hf in V.
  assert (P : forall n, (0 < / 2 ^ n)%R) by (intros; apply Rinv_0_lt_compat, pow_lt; lra).
  destruct (C61_fir_downsampling plat _ _ _ _ D amp w ph (/ 2 ^ 24 * Rabs amp + / 2 ^ 150)%R H E Hf Hm HL HD) with (j := j) as [F B]; try assumption; [| |exact (C61_correctly_rounded_input x 0 amp w ph Hx)|].
  - pose proof (P 24%nat). pose proof (P 150%nat). pose proof (Rabs_pos amp). assert (0 <= / 2 ^ 24 * Rabs amp)%R by (apply Rmult_le_pos; lra). lra.
  - assert (/ 2 ^ 24 <= 1)%R by (rewrite <- Rinv_1; apply Rinv_le_contravar; [lra | apply pow_R1_Rle; lra]).
    assert (/ 2 ^ 150 <= 1)%R by (rewrite <- Rinv_1; apply Rinv_le_contravar; [lra | apply pow_R1_Rle; lra]).
    assert (/ 2 ^ 24 * Rabs amp <= 1 * Rabs amp)%R by (apply Rmult_le_compat_r; [apply Rabs_pos | assumption]).
    assert (4 * 2 ^ 100 <= 2 ^ 109)%R by (rewrite (pow_IZR 2 100), (pow_IZR 2 109), <- mult_IZR; apply IZR_le; lia).
    assert (1 <= 2 ^ 100)%R by (apply pow_R1_Rle; lra). lra.
  - split; [exact F|]. fold r y in B. eapply Rle_trans; [exact B|].
    pose proof (fir_noise_rel r amp V (proj1 Ha)) as N. rewrite Hm in N.
    pose proof (snr_numbers DOWN (r_ratio r) (r_prec r) H2 (proj1 V) (prec_hq r V ltac:(lia) HL)) as Q.
    apply (Rmult_le_compat_r (Rabs amp)) in Q; [|apply Rabs_pos]. rewrite Rmult_plus_distr_r in Q. lra.
Qed.

(** IIR.  n0: where the sinusoid begins; M: bound of all samples; n: half the number of samples at the higher rate (only needed for vector code) *)
Definition iir_noise (plat : platform) (r : resampler) (M d : R) (n : Z) : R :=
  let u := iir_units_sse (r_ratio r) (r_prec r) in
  (iir_bound (r_ratio r) * d + IZR (if vector plat FILTER_IIR (r_use_sse r) then fst u + snd u * n else iir_units (r_ratio r) (r_prec r)) * / 2 ^ 24 * M)%R.
Definition long_enough (plat : platform) (r : resampler) (x : list F32) (n : Z) : Prop :=
  vector plat FILTER_IIR (r_use_sse r) = true -> high_rate r x <= 2 * n /\ (snd (iir_units_sse (r_ratio r) (r_prec r)) <> 0 -> 6 * n <= 2 ^ 24).

Lemma iir_transfer plat st (m : mem F32) id o amp w ph d M n n0 :
  reach plat st m -> st id = Some o ->
  let r := o_res o in let x := o_in o in let y := o_out o in
  r_filter r = FILTER_IIR -> 0 <= n0 -> (0 <= d)%R -> (/ 2 ^ 100 <= M <= 2 ^ 100)%R -> (Rabs amp <= M)%R -> inputs_below M x -> long_enough plat r x n ->
  tone x n0 amp w ph d ->
  exists st' (m' : mem RA) o', reach plat st' m' /\ st' id = Some o' /\ o_res o' = r /\ size (o_out o') = size y /\
    (forall k, 0 <= k < size (o_in o') -> (Rabs (smp (o_in o') k) <= M)%R) /\
    (forall k, n0 <= k < size (o_in o') -> smp (o_in o') k = (amp * sin (w * IZR k + ph))%R) /\
    forall j t e, 0 <= j < size y -> (Rabs (smp (o_out o') j - t) <= e)%R ->
      is_finite (smp y j : b32) = true /\ (Rabs (B2R (smp y j : b32) - t) <= e + iir_noise plat r M d n)%R.
Proof.
  intros H E r x y Hf Hn0 Hd HM Ham Hb Hn Hx. destruct (tone_close x n0 amp w ph d Hd Hn0 Hx) as (Sz & Cz & Tz & Bz). set (z := tone_exact x n0 amp w ph) in *.
  destruct (exact_twin plat _ _ _ _ z d H E Sz Hd Cz) as (st' & m' & o' & H' & E' & Er & Ei & So & Q).
  exists st', m', o'. split; [exact H'|]. split; [exact E'|]. split; [exact Er|]. split; [exact So|]. rewrite Ei. split; [|split; [exact Tz|]].
  - intros k Hk. destruct (Z_lt_le_dec k n0) as [L|L].
    + rewrite Bz by lia. apply Hb. rewrite Sz in Hk. lia.
    + rewrite Tz by lia. rewrite Rabs_mult. pose proof (SIN_bound (w * IZR k + ph)). assert (Rabs (sin (w * IZR k + ph)) <= 1)%R by (apply Rabs_le; lra). pose proof (Rabs_pos amp).
      assert (Rabs amp * Rabs (sin (w * IZR k + ph)) <= Rabs amp * 1)%R by (apply Rmult_le_compat_l; lra). lra.
  - intros j t e Hj He. cbn zeta in Q. fold r in Q. rewrite Hf in Q. specialize (Q j Hj). cbn [filter_bound] in Q. unfold iir_noise, long_enough in *.
    assert (Q1 : is_finite (smp y j : b32) = true /\ (Rabs (B2R (smp y j : b32) - smp (exact_iir r x) j) <=
      IZR (if vector plat FILTER_IIR (r_use_sse r) then fst (iir_units_sse (r_ratio r) (r_prec r)) + snd (iir_units_sse (r_ratio r) (r_prec r)) * n else iir_units (r_ratio r) (r_prec r)) * / 2 ^ 24 * M)%R).
    { destruct (vector plat FILTER_IIR (r_use_sse r)) eqn:Ev.
      - destruct (Hn eq_refl) as [N1 N2]. exact (C58_sse_accuracy plat _ _ _ _ M n H E Hf Ev HM Hb N1 N2 j Hj).
      - exact (C58_accuracy plat _ _ _ _ M H E Hf Ev HM Hb j Hj). }
    destruct Q1 as [F Q1]. split; [exact F|]. unfold exact_iir in Q1. fold x in Q. pose proof (close3 _ _ _ _ _ _ _ Q1 Q He) as C. lra.
Qed.

Theorem C61_iir_upsampling plat st (m : mem F32) id o amp w ph d M n n0 :
  reach plat st m -> st id = Some o ->
  let r := o_res o in let x := o_in o in let y := o_out o in
  r_filter r = FILTER_IIR -> r_mode r = UP -> 0 <= n0 -> (0 <= d)%R -> (/ 2 ^ 100 <= M <= 2 ^ 100)%R -> (Rabs amp <= M)%R -> inputs_below M x -> long_enough plat r x n ->
  tone x n0 amp w ph d -> (Rabs w <= iband)%R ->
  forall j, 0 <= j < size y ->
  is_finite (smp y j : b32) = true /\
  (Rabs (B2R (smp y j : b32) - amp * sin (w / IZR (r_ratio r) * IZR j + (ph - up_shift (r_prec r) (r_ratio r) w)))
   <= iir_up_factor (r_ratio r) * iir_error (r_prec r) * Rabs amp + transient r M n0 j + iir_noise plat r M d n)%R.
Proof.
  intros H E r x y Hf Hm Hn0 Hd HM Ha Hb Hn Hx Hw j Hj.
  destruct (iir_transfer plat _ _ _ _ amp w ph d M n n0 H E Hf Hn0 Hd HM Ha Hb Hn Hx) as (st' & m' & o' & H' & E' & Er & So & Bz & Tz & G).
  pose proof (C56_upsampling_accuracy plat _ _ _ _ M amp w ph n0 H' E') as Q. cbn zeta in Q. rewrite Er, So in Q.
  apply (G j _ _ Hj). apply Q; assumption.
Qed.
Theorem C61_iir_downsampling plat st (m : mem F32) id o amp w ph d M n n0 :
  reach plat st m -> st id = Some o ->
  let r := o_res o in let x := o_in o in let y := o_out o in
  r_filter r = FILTER_IIR -> r_mode r = DOWN -> 0 <= n0 -> (0 <= d)%R -> (/ 2 ^ 100 <= M <= 2 ^ 100)%R -> (Rabs amp <= M)%R -> inputs_below M x -> long_enough plat r x n ->
  tone x n0 amp w ph d -> (Rabs (IZR (r_ratio r) * w) <= iband)%R ->
  forall j, 0 <= j < size y ->
  is_finite (smp y j : b32) = true /\
  (Rabs (B2R (smp y j : b32) - amp * sin (IZR (r_ratio r) * w * IZR j + (ph - down_shift (r_prec r) (r_ratio r) w)))
   <= iir_down_factor (r_ratio r) * (iir_error (r_prec r) * iir_error (r_prec r)) * Rabs amp + transient r M n0 j + iir_noise plat r M d n)%R.
Proof.
  intros H E r x y Hf Hm Hn0 Hd HM Ha Hb Hn Hx Hw j Hj.
  destruct (iir_transfer plat _ _ _ _ amp w ph d M n n0 H E Hf Hn0 Hd HM Ha Hb Hn Hx) as (st' & m' & o' & H' & E' & Er & So & Bz & Tz & G).
  pose proof (C56_downsampling_accuracy plat _ _ _ _ M amp w ph n0 H' E') as Q. cbn zeta in Q. rewrite Er, So in Q.
  apply (G j _ _ Hj). apply Q; assumption.
Qed.
Theorem C61_iir_alias_rejection plat st (m : mem F32) id o amp w ph d M n n0 k :
  reach plat st m -> st id = Some o ->
  let r := o_res o in let x := o_in o in let y := o_out o in
  r_filter r = FILTER_IIR -> r_mode r = DOWN -> 0 <= n0 -> (0 <= d)%R -> (/ 2 ^ 100 <= M <= 2 ^ 100)%R -> (Rabs amp <= M)%R -> inputs_below M x -> long_enough plat r x n ->
  tone x n0 amp w ph d -> (Rabs (IZR (r_ratio r) * w - 2 * PI * IZR k) <= iband)%R -> k mod r_ratio r <> 0 ->
  forall j, 0 <= j < size y ->
  is_finite (smp y j : b32) = true /\
  (Rabs (B2R (smp y j : b32)) <= iir_error (r_prec r) * Rabs amp + transient r M n0 j + iir_noise plat r M d n)%R.
Proof.
  intros H E r x y Hf Hm Hn0 Hd HM Ha Hb Hn Hx Hw Hk j Hj.
  destruct (iir_transfer plat _ _ _ _ amp w ph d M n n0 H E Hf Hn0 Hd HM Ha Hb Hn Hx) as (st' & m' & o' & H' & E' & Er & So & Bz & Tz & G).
  pose proof (C56_alias_rejection plat _ _ _ _ M amp w ph n0 k H' E') as Q. cbn zeta in Q. rewrite Er, So in Q.
  destruct (G j 0%R (iir_error (r_prec r) * Rabs amp + transient r M n0 j)%R Hj) as [F B].
  - rewrite Rminus_0_r. apply Q; assumption.
  - rewrite Rminus_0_r in B. split; assumption.
Qed.

(** non-vacuity: correctly rounded sinusoids exist *)
Definition b32_round (v : R) : b32 :=
  let q := round radix2 (FLT_exp (-149) 24) ZnearestE v in b32_dy (Ztrunc (scaled_mantissa radix2 (FLT_exp (-149) 24) q)) (cexp radix2 (FLT_exp (-149) 24) q).
Lemma b32_round_ok v : (Rabs v <= 2 ^ 100)%R -> is_finite (b32_round v) = true /\ B2R (b32_round v) = round radix2 (FLT_exp (-149) 24) ZnearestE v.
Proof.
  intros Hv. unfold b32_round. cbv zeta. set (q := round radix2 (FLT_exp (-149) 24) ZnearestE v).
  assert (VE : Valid_exp (FLT_exp (-149) 24)) by (apply FLT_exp_valid; reflexivity).
  assert (Fq : generic_format radix2 (FLT_exp (-149) 24) q) by (apply generic_format_round; [exact VE | apply valid_rnd_N]).
  assert (Bq : (Rabs q <= 2 ^ 100)%R).
  { assert (F100 : generic_format radix2 (FLT_exp (-149) 24) (bpow radix2 100)) by (apply generic_format_bpow; unfold FLT_exp; lia).
    change (2 ^ 100)%R with (2 ^ 100)%R. replace (2 ^ 100)%R with (bpow radix2 100) in * by (rewrite (pow_IZR 2 100); reflexivity).
    unfold q. apply abs_round_le_generic; [exact VE | apply valid_rnd_N | exact F100 | exact Hv]. }
  unfold b32_dy. set (mm := Ztrunc _). set (e := cexp _ _ q).
  pose proof (binary_normalize_correct 24 128 Hprec32 Hmax32 mode_NE mm e false) as C.
  assert (EF : F2R (Float radix2 mm e) = q) by (unfold mm, e; symmetry; exact Fq). rewrite EF in C.
  assert (RQ : round radix2 (SpecFloat.fexp 24 128) (round_mode mode_NE) q = q) by (exact (round_generic radix2 (FLT_exp (-149) 24) ZnearestE q Fq)).
  cbn zeta in C. rewrite RQ in C. rewrite Rlt_bool_true in C.
  - destruct C as (C1 & C2 & _). split; [exact C2 | exact C1].
  - eapply Rle_lt_trans; [exact Bq|]. rewrite (pow_IZR 2 100). change (bpow radix2 128) with (IZR (2 ^ 128)). apply IZR_lt. lia.
Qed.
Definition rounded_sine (amp w ph : R) (n : Z) : list F32 := tab (A := F32) n (fun k => b32_round (amp * sin (w * IZR k + ph))).
Lemma rounded_sine_ok amp w ph n : (Rabs amp <= 2 ^ 100)%R -> forall k, 0 <= k < n ->
  is_finite (smp (rounded_sine amp w ph n) k : b32) = true /\
  B2R (smp (rounded_sine amp w ph n) k : b32) = round radix2 (FLT_exp (-149) 24) ZnearestE (amp * sin (w * IZR k + ph)).
Proof.
  intros Ha k Hk. unfold rounded_sine. rewrite smp_tab by exact Hk. apply b32_round_ok. eapply Rle_trans; [|exact Ha].
  rewrite Rabs_mult. pose proof (SIN_bound (w * IZR k + ph)). assert (Rabs (sin (w * IZR k + ph)) <= 1)%R by (apply Rabs_le; lra). pose proof (Rabs_pos amp).
  assert (Rabs amp * Rabs (sin (w * IZR k + ph)) <= Rabs amp * 1)%R by (apply Rmult_le_compat_l; lra). lra.
Qed.

(** 1 radian per sample is 7 kHz *)
Example C61_fir_case plat (sse : bool) : exists st (m : mem F32) o D j, reach plat st m /\ st 0 = Some o /\ r_filter (o_res o) = FILTER_FIR /\
  r_mode (o_res o) = UP /\ r_ratio (o_res o) = 8 /\ r_prec (o_res o) = PREC_96DB /\ r_use_sse (o_res o) = sse /\ delay_is (o_res o) D /\
  o_in o = rounded_sine 3 1 (1 / 3) 400 /\ (Rabs 1 <= band)%R /\ (2 * D <= IZR j)%R /\ 0 <= j < size (o_out o) /\
  (forall k, 0 <= k < size (o_in o) -> is_finite (smp (o_in o) k : b32) = true /\
    B2R (smp (o_in o) k : b32) = round radix2 (FLT_exp (-149) 24) ZnearestE (3 * sin (1 * IZR k + 1 / 3))).
Proof.
  assert (L : length (rounded_sine 3 1 (1 / 3) 400) = 400%nat) by (unfold rounded_sine, tab; rewrite map_length, seq_length; reflexivity).
  destruct (some_obj (A := F32) plat UP 8 PREC_96DB sse FILTER_FIR 0 [(0, rounded_sine 3 1 (1 / 3) 400)]) as (st & m & o & H & E & Er & Ei).
  { cbn [forallb snd fst]. rewrite L. reflexivity. }
  cbn [map concat snd] in Ei. rewrite app_nil_r in Ei.
  assert (Sx : size (rounded_sine 3 1 (1 / 3) 400) = 400) by (unfold size; rewrite L; reflexivity).
  exists st, m, o, (IZR (fir_delay8 UP 8 PREC_96DB) / 8)%R, 3000.
  rewrite (reach_size plat _ _ _ _ H E), Er, Ei, Sx. repeat split; try assumption.
  - apply fir_delay_is. now apply configb_ok.
  - rewrite Rabs_R1. unfold band. interval with (i_prec 60).
  - replace (fir_delay8 UP 8 PREC_96DB) with 1192 by reflexivity. lra.
  - discriminate.
  - apply (rounded_sine_ok 3 1 (1 / 3) 400); [rewrite Rabs_pos_eq by lra; apply Rle_trans with (2 ^ 2)%R; [lra | apply Rle_pow; [lra | lia]] | assumption].
  - apply (rounded_sine_ok 3 1 (1 / 3) 400); [rewrite Rabs_pos_eq by lra; apply Rle_trans with (2 ^ 2)%R; [lra | apply Rle_pow; [lra | lia]] | assumption].
Qed.

(** vector code or not; 100 other samples before the sinusoid *)
Example C61_iir_case plat (sse : bool) : exists st (m : mem F32) o n, reach plat st m /\ st 0 = Some o /\ r_filter (o_res o) = FILTER_IIR /\
  r_mode (o_res o) = DOWN /\ r_ratio (o_res o) = 2 /\ r_prec (o_res o) = PREC_96DB /\ r_use_sse (o_res o) = sse /\
  size (o_in o) = 400 /\ inputs_below 4 (o_in o) /\ long_enough plat (o_res o) (o_in o) n /\ tone (o_in o) 100 3 1 (1 / 3) (/ 2 ^ 22) /\
  (Rabs (2 * 1) <= iband)%R /\ 0 <= 100 < size (o_out o).
Proof.
  set (x := alternating 100 ++ map (fun k => b32_round (3 * sin (1 * IZR (Z.of_nat k) + 1 / 3)) : F32) (seq 100 300)).
  assert (La : length (alternating 100) = 100%nat) by (unfold alternating, tab; rewrite map_length, seq_length; reflexivity).
  assert (L : length x = 400%nat) by (unfold x; rewrite app_length, map_length, seq_length, La; reflexivity).
  destruct (some_obj (A := F32) plat DOWN 2 PREC_96DB sse FILTER_IIR 0 [(0, x)]) as (st & m & o & H & E & Er & Ei).
  { cbn [forallb snd fst]. rewrite L. reflexivity. }
  cbn [map concat snd] in Ei. rewrite app_nil_r in Ei.
  assert (Sx : size x = 400) by (unfold size; rewrite L; reflexivity).
  assert (A3 : (Rabs 3 <= 2 ^ 100)%R) by (rewrite Rabs_pos_eq by lra; apply Rle_trans with (2 ^ 2)%R; [lra | apply Rle_pow; [lra | lia]]).
  assert (X1 : forall k, 0 <= k < 100 -> smp x k = smp (alternating 100) k).
  { intros k Hk. unfold smp. destruct (Z.ltb_spec k 0); [lia|]. unfold x. apply app_nth1. rewrite La. lia. }
  assert (X2 : forall k, 100 <= k < 400 -> smp x k = (b32_round (3 * sin (1 * IZR k + 1 / 3)) : F32)).
  { intros k Hk. unfold smp. destruct (Z.ltb_spec k 0); [lia|]. unfold x. rewrite app_nth2 by (rewrite La; lia). rewrite La.
    rewrite nth_indep with (d' := (fun k => b32_round (3 * sin (1 * IZR (Z.of_nat k) + 1 / 3)) : F32) 0%nat) by (rewrite map_length, seq_length; lia).
    rewrite (map_nth (fun k => b32_round (3 * sin (1 * IZR (Z.of_nat k) + 1 / 3)) : F32)), seq_nth by lia.
    replace (Z.of_nat (100 + (Z.to_nat k - 100))) with k by lia. reflexivity. }
  assert (R3 : forall u, (Rabs (3 * sin u) <= 3)%R).
  { intros u. rewrite Rabs_mult, (Rabs_pos_eq 3) by lra. pose proof (SIN_bound u). assert (Rabs (sin u) <= 1)%R by (apply Rabs_le; lra). lra. }
  assert (TN : tone x 100 3 1 (1 / 3) (/ 2 ^ 24 * Rabs 3 + / 2 ^ 150)).
  { apply C61_correctly_rounded_input. rewrite Sx. intros k Hk. rewrite X2 by lia. apply b32_round_ok. eapply Rle_trans; [apply R3|]. rewrite Rabs_pos_eq in A3 by lra. exact A3. }
  assert (D4 : (/ 2 ^ 24 * Rabs 3 + / 2 ^ 150 <= / 2 ^ 22)%R).
  { rewrite Rabs_pos_eq by lra. rewrite (pow_IZR 2 24), (pow_IZR 2 150), (pow_IZR 2 22).
    apply Rle_trans with (/ IZR (2 ^ 24) * 3 + / IZR (2 ^ 24))%R; [apply Rplus_le_compat_l, Rinv_le_contravar; [apply IZR_lt; reflexivity | apply IZR_le; discriminate]|].
    right. change (IZR (2 ^ 24)) with (16777216)%R. change (IZR (2 ^ Z.of_nat 22)) with 4194304%R. lra. }
  exists st, m, o, 200. rewrite (reach_size plat _ _ _ _ H E), Er, Ei, Sx. split; [exact H|]. split; [exact E|]. repeat (split; [reflexivity|]).
  assert (TN' : tone x 100 3 1 (1 / 3) (/ 2 ^ 22)).
  { intros k Hk. destruct (TN k Hk) as [F B]. split; [exact F|]. eapply Rle_trans; [exact B | exact D4]. }
  split; [|split; [|split; [exact TN'|split]]].
  - intros k Hk. rewrite Sx in Hk. destruct (Z_lt_le_dec k 100).
    + rewrite X1 by lia. destruct (alternating_below 100 k) as [F B]; [unfold size; rewrite La; lia|]. split; [exact F|]. eapply Rle_trans; [exact B | lra].
    + destruct (TN' k ltac:(lia)) as [F B]. split; [exact F|]. pose proof (sine_amp _ _ _ _ B) as S. rewrite (Rabs_pos_eq 3) in S by lra.
      assert (/ 2 ^ 22 <= 1)%R by (rewrite <- Rinv_1; apply Rinv_le_contravar; [lra | apply pow_R1_Rle; lra]). change (T F32) with b32 in *. lra.
  - intros _. split; [unfold high_rate; cbn [r_mode built]; rewrite Sx; lia|]. intros N. exfalso. apply N. reflexivity.
  - rewrite Rabs_pos_eq by lra. unfold iband. interval with (i_prec 60).
  - cbn. lia.
Qed.

Print Assumptions C61_fir_upsampling.
Print Assumptions C61_fir_downsampling.
Print Assumptions C61_fir_alias_rejection.
Print Assumptions C61_correctly_rounded_input.
Print Assumptions C61_fir_upsampling_snr.
Print Assumptions C61_fir_downsampling_snr.
Print Assumptions C61_iir_upsampling.
Print Assumptions C61_iir_downsampling.
Print Assumptions C61_iir_alias_rejection.
