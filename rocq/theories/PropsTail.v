(** * Properties: single precision IIR resamplers after the input has fallen silent *)
From Coq Require Import ZArith Reals List Lia Lra Bool ZifyNat ZifyBool.
From Flocq Require Import Core BinarySingleNaN.
From Verif Require Import Arith ArithR ArithF Mem FirModel IirModel Tables ResamplerModel ResamplerProof ResamplerOk Spec SpecOk SpecR Client Feed Twin
  StreamFacts Session Cases TablesF TableFacts FloatErr IirReal FloatDrift NanIir FloatIir FloatFir Recover Tail Hum PropsLimits.
Import ListNotations.
Open Scope Z_scope.

(** samples at the lower rate: about a tenth of a second at 44.1 kHz for PREC_144DB *)
Definition quiet_after (p : Z) : Z :=
  match p with 8 => 1500 | 12 => 2500 | 16 => 2900 | 20 => 3900 | 24 => 4600 | _ => 0 end.

(** Any input (up to 2^100), then zeros from sample [N] on.  Without vector code, and with it for the configurations with
    even numbers of coefficients, every output sample is finite, and all that follow the last nonzero input by the given
    time or more are at most 2^-139, which is below the normal numbers (the smallest of which is 2^-126). *)
Theorem C83_decay plat st (m : mem F32) id o N :
  reach plat st m -> st id = Some o ->
  let r := o_res o in
  r_filter r = FILTER_IIR ->
  (vector plat FILTER_IIR (r_use_sse r) = false \/ r_ratio r = 2 /\ (r_prec r = PREC_96DB \/ r_prec r = PREC_120DB) \/ r_ratio r = 4 /\ r_prec r = PREC_120DB) ->
  0 <= N ->
  (forall k, 0 <= k < size (o_in o) -> is_finite (smp (o_in o) k : b32) = true /\ (Rabs (B2R (smp (o_in o) k : b32)) <= 2 ^ 100)%R) ->
  (forall k, N <= k < size (o_in o) -> B2R (smp (o_in o) k : b32) = 0%R) ->
  forall j, 0 <= j < size (o_out o) ->
  is_finite (smp (o_out o) j : b32) = true /\
  (match r_mode r with UP => r_ratio r * (N + quiet_after (r_prec r)) | DOWN => N / r_ratio r + quiet_after (r_prec r) end <= j ->
   (Rabs (B2R (smp (o_out o) j : b32)) <= / 2 ^ 139)%R).
Proof.
  intros H E r Hf Hv HN Hx Hz j Hj. destruct (reach_built plat _ _ _ _ H E) as [_ V]. fold r in V. rewrite Hf in V.
  pose proof (reach_resample plat _ _ _ _ H E) as R. cbn zeta in R. fold r in R. rewrite Hf in R. specialize (R ltac:(discriminate)).
  assert (Fd : fades (bpow radix2 100) N 0 (o_in o)).
  { intros k Hk. destruct (Hx k Hk) as [F B]. split; [exact F|]. split; [rewrite (pow_IZR 2 100) in B; exact B|].
    intros Q. change (Rabs (B2R (smp (o_in o) k : b32)) <= 0)%R. rewrite (Hz k) by lia. rewrite Rabs_R0. lra. }
  assert (HP : forall s, stage_no s -> s <= r_ratio r -> padded (vector plat FILTER_IIR (r_use_sse r)) s (r_prec r) = false).
  { intros s Hs Hl. destruct (vector plat FILTER_IIR (r_use_sse r)); [|reflexivity].
    destruct Hv as [Hv|[[Er [Ep|Ep]]|[Er Ep]]]; [discriminate Hv | | |]; rewrite Ep; rewrite Er in Hl; destruct Hs as [->|[->| ->]]; try lia; reflexivity. }
  assert (LB : (low <= bpow radix2 100 <= bpow radix2 100)%R) by (split; [unfold low; apply bpow_le; lia | lra]).
  pose proof (resample_fades (r_mode r) (r_prec r) (vector plat FILTER_IIR (r_use_sse r)) (r_ratio r) (o_in o) _ N V LB (reach_multiple plat _ _ _ _ H E) HP HN Fd) as Q.
  rewrite <- R in Q. destruct (Q j Hj) as (F & _ & D). split; [exact F|]. intros J. specialize (D J).
  rewrite (pow_IZR 2 139). exact D.
Qed.

(** 2 * 2^-149 *)
Definition speck : F32 := b32_dy 2 (-149).
Definition minus_speck : F32 := b32_dy (-2) (-149).
Lemma speck_val : (B2R (speck : b32) = / 2 ^ 148 /\ B2R (minus_speck : b32) = - / 2 ^ 148)%R.
Proof.
  split; rewrite <- SF2R_B2SF.
  - replace (B2SF _) with (SpecFloat.S754_finite false 2 (-149)) by (vm_compute; reflexivity). unfold SF2R, F2R; cbn -[IZR Z.pow_pos]. lra.
  - replace (B2SF _) with (SpecFloat.S754_finite true 2 (-149)) by (vm_compute; reflexivity). unfold SF2R, F2R; cbn -[IZR Z.pow_pos]. lra.
Qed.

(** One sample, then silence of any length: 2^-139 cannot be replaced by 0.  From sample 500 on, every second output
    sample of the upsampler is plus or minus 2^-148, with a sign that alternates forever, with and without vector code. *)
Theorem C83_never_silent plat st (m : mem F32) id o n :
  reach plat st m -> st id = Some o ->
  let r := o_res o in
  r_filter r = FILTER_IIR -> r_mode r = UP -> r_ratio r = 2 -> r_prec r = PREC_48DB ->
  o_in o = f1 :: repeat f0 n ->
  forall j, 500 <= j <= Z.of_nat n ->
    B2R (smp (o_out o) (2 * j) : b32) = (if Z.even j then / 2 ^ 148 else - / 2 ^ 148)%R.
Proof.
  intros H E r Hf Hm Hr Hp Hi j Hj.
  rewrite (reach_resample plat _ _ _ _ H E) by (fold r; rewrite Hf; discriminate). fold r. rewrite Hf, Hm, Hr, Hp, Hi.
  assert (W : forall y, length y = S n -> smp (weave (chain [smp iir48 0; smp iir48 2] (f1 :: repeat (f0 (a := F32)) n)) y) (2 * j) = if Z.even j then speck else minus_speck).
  { intros y Ly. rewrite weave_smp' by (rewrite ?chain_length; cbn [length]; rewrite ?repeat_length; lia).
    replace (Z.even (2 * j)) with true by (rewrite Z.even_mul; reflexivity). replace (2 * j / 2) with j by (rewrite Z.mul_comm, Z.div_mul; lia).
    rewrite chain2_smp by lia.
    rewrite (iter_period _ 500 (f0, f0, speck) (f0, f0, minus_speck) _) by (lia || (apply bits3_inj; vm_compute; reflexivity)).
    rewrite <- even_of_nat. replace (Z.of_nat (Z.to_nat j - 500)) with (j - 500) by lia. rewrite Z.even_sub. now destruct (Z.even j). }
  destruct speck_val as [R1 R2].
  assert (G : smp (resample (A := F32) FILTER_IIR UP PREC_48DB (vector plat FILTER_IIR (r_use_sse r)) 2 (f1 :: repeat f0 n)) (2 * j) = if Z.even j then speck else minus_speck).
  { destruct (vector plat FILTER_IIR (r_use_sse r)).
    - change (resample FILTER_IIR UP PREC_48DB true 2 (f1 :: repeat f0 n)) with
        (weave (chain [smp iir48 0; smp iir48 2] (f1 :: repeat (f0 (a := F32)) n)) (chain [smp iir48 1; f1] (f1 :: repeat f0 n))).
      apply W. rewrite chain_length. cbn [length]. now rewrite repeat_length.
    - change (resample FILTER_IIR UP PREC_48DB false 2 (f1 :: repeat f0 n)) with
        (weave (chain [smp iir48 0; smp iir48 2] (f1 :: repeat (f0 (a := F32)) n)) (chain [smp iir48 1] (f1 :: repeat f0 n))).
      apply W. rewrite chain_length. cbn [length]. now rewrite repeat_length. }
  rewrite G. destruct (Z.even j); assumption.
Qed.

(** With vector code and odd numbers of coefficients there is no decay: for ratio 2 and 48 dB there is an input of 300002
    samples at the lower rate, all between -1 and 1, after which every second output sample of the upsampler and every
    output sample of the downsampler is plus or minus h, alternating forever, where |h| is at least 0.017 or 0.0085,
    however long the silence that follows is. *)
Theorem C83_vector_decay_refuted md : exists x : list F32, size x = match md with UP => 300002 | DOWN => 2 * 300002 end /\
  (forall k, 0 <= k < size x -> is_finite (smp x k : b32) = true /\ (Rabs (B2R (smp x k : b32)) <= 1)%R) /\
  forall n, exists st (m : mem F32) o, reach sse_platform st m /\ st 0 = Some o /\
  let r := o_res o in
  r_filter r = FILTER_IIR /\ r_mode r = md /\ r_ratio r = 2 /\ r_prec r = PREC_48DB /\ vector sse_platform FILTER_IIR (r_use_sse r) = true /\
  o_in o = x ++ repeat f0 (match md with UP => n | DOWN => 2 * n end) /\
  exists h, (match md with UP => 17 / 1000 | DOWN => 17 / 2000 end <= Rabs h <= 19 / 1000)%R /\
  forall j, 300400 <= j < 300002 + Z.of_nat n ->
    B2R (smp (o_out o) (match md with UP => 2 * j + 1 | DOWN => j end) : b32) = (if Z.even j then h else - h)%R.
Proof.
  destruct long_hum as (x & Sx & B & D).
  set (x' := match md with UP => x | DOWN => weave x (repeat (f0 : F32) (length x)) end).
  assert (Sx' : size x' = match md with UP => 300002 | DOWN => 2 * 300002 end).
  { unfold x'. destruct md; [exact Sx|]. unfold size. rewrite weave_length by (now rewrite repeat_length). unfold size in Sx. lia. }
  exists x'. split; [exact Sx'|]. split.
  { unfold x'. destruct md; [exact B|]. intros k Hk. unfold x' in Sx'. rewrite Sx' in Hk.
    rewrite weave_smp' by (rewrite ?repeat_length; lia).
    assert (Hk2 : 0 <= k / 2 < 300002) by (Z.div_mod_to_equations; lia).
    destruct (Z.even k); [apply B; lia|]. rewrite smp_repeat0. split; [reflexivity|]. change (B2R (f0 : F32)) with 0%R. rewrite Rabs_R0. lra. }
  intros n. specialize (D n). cbn zeta in D. destruct D as (h & Hh & D).
  set (zs := match md with UP => [f0] | DOWN => [f0; f0] end : list F32).
  destruct (feed (A := F32) sse_platform md 2 PREC_48DB true FILTER_IIR 0 ((0, x') :: repeat (0, zs) n)) as (st & m & o & H & E & Er & Ei).
  { apply (configb_ok FILTER_IIR 2 PREC_48DB). reflexivity. }
  { constructor.
    - split; [cbn; lia|]. cbn [snd]. change (size_ok FILTER_IIR md 2 (size x')). rewrite Sx'. destruct md; cbn [size_ok]; [lia | split; [lia | reflexivity]].
    - apply Forall_forall. intros c Hc. apply repeat_spec in Hc. subst c. split; [cbn; lia|]. unfold zs. destruct md; cbn; lia. }
  assert (Ei' : o_in o = x' ++ repeat f0 (match md with UP => n | DOWN => 2 * n end)).
  { rewrite Ei. cbn [map concat snd]. f_equal. unfold zs. clear. destruct md; (induction n as [|n IH]; [reflexivity|]); [cbn; now f_equal|].
    replace (2 * S n)%nat with (S (S (2 * n))) by lia. cbn [repeat map concat snd app]. do 2 f_equal. exact IH. }
  pose proof (reach_resample _ _ _ _ _ H E) as R. cbn zeta in R. rewrite Er, Ei' in R. specialize (R ltac:(discriminate)).
  change (o_out o = resample (A := F32) FILTER_IIR md PREC_48DB true 2 (x' ++ repeat f0 (match md with UP => n | DOWN => 2 * n end))) in R.
  exists st, m, o. split; [exact H|]. split; [exact E|]. cbn zeta. rewrite Er. do 5 (split; [reflexivity|]). split; [exact Ei'|].
  assert (SZ : size (x ++ repeat (f0 : F32) n) = 300002 + Z.of_nat n) by (unfold size; rewrite app_length, repeat_length; unfold size in Sx; lia).
  rewrite R. unfold x'. clear x' Sx' zs H E Er Ei Ei' R st m o. destruct md.
  - exists h. split; [exact Hh|]. intros j Hj. rewrite odd_resample by lia. apply D, Hj.
  - exists (h / 2)%R. split; [unfold Rdiv; rewrite Rabs_mult, (Rabs_pos_eq (/ 2)) by lra; lra|]. intros j Hj.
    set (z := x ++ repeat (f0 : F32) n) in *.
    assert (EW : weave x (repeat (f0 : F32) (length x)) ++ repeat f0 (2 * n) = weave z (repeat (f0 : F32) (length z))).
    { unfold z. rewrite app_length, repeat_length. generalize x as l. clear. induction l as [|a l IH].
      - cbn [weave app length plus]. induction n as [|n IH]; [reflexivity|]. replace (2 * S n)%nat with (S (S (2 * n))) by lia. cbn [repeat weave]. do 2 f_equal. exact IH.
      - cbn [length repeat weave app plus]. do 2 f_equal. exact IH. }
    rewrite EW.
    pose proof (weave_evens z (repeat (f0 : F32) (length z)) ltac:(now rewrite repeat_length)) as W1. pose proof (weave_odds z (repeat (f0 : F32) (length z)) ltac:(now rewrite repeat_length)) as W2.
    assert (ER : resample (A := F32) FILTER_IIR DOWN PREC_48DB true 2 (weave z (repeat (f0 : F32) (length z))) =
      zip (fun a b => fmul (fadd b a) fhalf) (chain [smp iir48 0; smp iir48 2] (odds (weave z (repeat (f0 : F32) (length z))))) (chain [c1 : F32; f1] (evens (weave z (repeat (f0 : F32) (length z)))))) by reflexivity.
    rewrite ER, W1, W2. clear EW W1 W2 ER.
    change (chain [smp iir48 0; smp iir48 2] (repeat (f0 : F32) (length z))) with (allpass (A := F32) (smp iir48 2) (allpass (A := F32) (smp iir48 0) (repeat (f0 : F32) (length z)))).
    rewrite allpass_silence by (apply B2SF_inj; vm_compute; reflexivity). rewrite allpass_silence by (apply B2SF_inj; vm_compute; reflexivity).
    change (chain [c1 : F32; f1] z) with (allpass (A := F32) f1 (allpass (A := F32) c1 z)).
    rewrite zip_smp' by (rewrite ?allpass_length, ?repeat_length; (reflexivity || (unfold size in *; rewrite repeat_length; lia))).
    rewrite smp_repeat0. destruct (D j Hj) as [F V].
    destruct (half_exact (smp (A := F32) (allpass (A := F32) f1 (allpass (A := F32) c1 z)) j) F) as [_ Q].
    { rewrite V. destruct (Z.even j); rewrite ?Rabs_Ropp; lra. }
    etransitivity; [exact Q|]. rewrite V. destruct (Z.even j); unfold Rdiv; ring.
Qed.

(** FIR resamplers, in contrast, become exactly silent: whatever the input was before (NaN and infinities included), with
    and without vector code, all output samples are zeros after [after] samples at the lower rate. *)
Theorem C83_fir_silence plat st (m : mem F32) id o P :
  reach plat st m -> st id = Some o ->
  let r := o_res o in let n := r_ratio r in
  r_filter r = FILTER_FIR ->
  (forall k, (match r_mode r with UP => P | DOWN => n * P end) <= k < size (o_in o) -> exists s, smp (o_in o) k = (B754_zero s : b32)) ->
  forall j, (match r_mode r with UP => n * (P + after n (r_prec r)) | DOWN => P + after n (r_prec r) end) <= j -> exists s, smp (o_out o) j = (B754_zero s : b32).
Proof.
  intros H E r n Hf Hx j Hj. destruct (reach_built plat _ _ _ _ H E) as [_ V]. fold r n in V. rewrite Hf in V.
  pose proof (reach_resample_any plat _ _ _ _ H E) as R. cbn zeta in R. fold r n in R. rewrite Hf in R.
  set (x := o_in o) in *. set (y := o_out o) in *. pose proof (Nat2Z.is_nonneg (length x)) as L0. fold (size x) in L0.
  set (P' := match r_mode r with UP => P | DOWN => n * P end) in *.
  set (x' := tab (A := F32) (size x) (fun i => if P' <=? i then smp x i else f0)).
  assert (S' : size x' = size x) by (unfold x'; now rewrite size_tab by lia).
  assert (N1 : 1 <= n) by (destruct V as [Hr _]; destruct Hr as [->|[->|[->| ->]]]; lia).
  set (Q := size x + Z.abs j + 100). set (Q' := match r_mode r with UP => Q | DOWN => n * Q end).
  assert (HA : agree x x' P' Q').
  { split; [lia|]. intros k Hk. destruct (Z_lt_le_dec k 0); [now rewrite !smp_neg by lia|]. destruct (Z_lt_le_dec k (size x)); [|now rewrite !smp_over by lia].
    unfold x'. rewrite smp_tab by lia. replace (P' <=? k) with true by lia. reflexivity. }
  assert (HZ : Forall (fun v : b32 => exists s, v = B754_zero s) x').
  { apply Forall_forall. intros v Hv. apply (In_nth _ _ (@f0 F32)) in Hv. destruct Hv as (i & Hi & Ei).
    assert (Ev : smp x' (Z.of_nat i) = v) by (rewrite smp_nth by lia; rewrite Nat2Z.id; exact Ei). rewrite <- Ev. unfold size in S'.
    unfold x'. rewrite smp_tab by (unfold size; lia). destruct (P' <=? Z.of_nat i) eqn:B; [apply Hx; unfold size; lia | now exists false]. }
  destruct (resample_local (r_mode r) (r_prec r) _ n x x' y P Q V HA R) as (y' & Hy' & [_ EY]).
  rewrite EY.
  - pose proof (resample_zero _ _ _ _ _ _ _ V HZ Hy') as Z. rewrite Forall_forall in Z.
    destruct (Z_lt_le_dec j 0); [rewrite smp_neg by lia; now exists false|]. destruct (Z_lt_le_dec j (size y')); [|rewrite smp_over by lia; now exists false].
    rewrite smp_nth by lia. apply Z. apply nth_In. unfold size in *. lia.
  - split; [exact Hj|]. assert (B : 0 <= before n <= 11) by (unfold before; repeat destruct (_ =? _); lia). unfold Q. destruct (r_mode r); nia.
Qed.

(** non-vacuity: all modes, ratios and precisions; 800 samples that alternate between 3/8 and -5/8, then silence *)
Definition then_silent (n : Z) : list F32 := tab (A := F32) n (fun k => if k <? 800 then b32_dy (if Z.even k then 3 else -5) (-3) else f0).
Example C83_decay_case plat (sse : bool) md ratio prec k : stage_no ratio -> iir_prec prec -> 100 <= k <= 2 ^ 20 ->
  exists st (m : mem F32) o, reach plat st m /\ st 0 = Some o /\ r_filter (o_res o) = FILTER_IIR /\
  r_mode (o_res o) = md /\ r_ratio (o_res o) = ratio /\ r_prec (o_res o) = prec /\ r_use_sse (o_res o) = sse /\ size (o_in o) = 8 * k /\
  (forall k, 0 <= k < size (o_in o) -> is_finite (smp (o_in o) k : b32) = true /\ (Rabs (B2R (smp (o_in o) k : b32)) <= 2 ^ 100)%R) /\
  (forall k, 800 <= k < size (o_in o) -> B2R (smp (o_in o) k : b32) = 0%R) /\
  B2R (smp (o_in o) 0 : b32) = (3 / 8)%R /\ B2R (smp (o_in o) 799 : b32) = (-5 / 8)%R.
Proof.
  intros Hr Hp Hk.
  assert (Sz : size (then_silent (8 * k)) = 8 * k) by (unfold size, then_silent, tab; rewrite map_length, seq_length; lia).
  destruct (feed (A := F32) plat md ratio prec sse FILTER_IIR 0 [(0, then_silent (8 * k))]) as (st & m & o & H & E & Er & Ei).
  { apply configb_ok. unfold stage_no in Hr. unfold iir_prec in Hp. destruct Hr as [->|[->| ->]], Hp as [->|[->|[->|[->| ->]]]]; reflexivity. }
  { constructor; [|constructor]. split; [cbn; lia|]. cbn [snd]. change (size_ok FILTER_IIR md ratio (size (then_silent (8 * k)))).
    unfold stage_no in Hr. assert (D : (8 * k) mod ratio = 0) by (destruct Hr as [->|[->| ->]]; apply Z.mod_divide; [lia | exists (4 * k); lia | lia | exists (2 * k); lia | lia | exists k; lia]).
    rewrite Sz. destruct Hr as [->|[->| ->]], md; cbn [size_ok]; lia. }
  cbn [map concat snd] in Ei. rewrite app_nil_r in Ei.
  assert (V3 : B2R (b32_dy 3 (-3)) = (3 / 8)%R /\ is_finite (b32_dy 3 (-3)) = true) by (destruct (b32_dy_exact 3 (-3)) as [V F]; [lia | lia |]; split; [rewrite V; change (bpow radix2 (-3)) with (/ 8)%R; lra | exact F]).
  assert (V5 : B2R (b32_dy (-5) (-3)) = (-5 / 8)%R /\ is_finite (b32_dy (-5) (-3)) = true) by (destruct (b32_dy_exact (-5) (-3)) as [V F]; [lia | lia |]; split; [rewrite V; change (bpow radix2 (-3)) with (/ 8)%R; lra | exact F]).
  assert (P1 : (1 <= 2 ^ 100)%R) by (apply pow_R1_Rle; lra).
  exists st, m, o. rewrite Er, Ei, Sz. split; [exact H|]. split; [exact E|]. do 6 (split; [reflexivity|]).
  unfold then_silent. split; [|split; [|split]].
  - intros i Hi. rewrite smp_tab by exact Hi. destruct (i <? 800); [|split; [reflexivity|]; change (B2R (f0 : F32)) with 0%R; rewrite Rabs_R0; lra].
    destruct (Z.even i); [destruct V3 as [V F] | destruct V5 as [V F]]; (split; [exact F|]; rewrite V; apply Rabs_le; lra).
  - intros i Hi. rewrite smp_tab by lia. replace (i <? 800) with false by lia. reflexivity.
  - rewrite smp_tab by lia. apply V3.
  - rewrite smp_tab by lia. apply V5.
Qed.
(** infinities, then zeros of both signs *)
Definition loud_then_silent (n : Z) : list F32 := tab (A := F32) n (fun k => if k <? 800 then B754_infinity (Z.even k) : b32 else B754_zero (Z.even k) : b32).
Example C83_fir_case plat (sse : bool) md ratio prec k : stage_no ratio -> fir_prec prec -> 200 <= k <= 2 ^ 20 ->
  exists st (m : mem F32) o, reach plat st m /\ st 0 = Some o /\ r_filter (o_res o) = FILTER_FIR /\
  r_mode (o_res o) = md /\ r_ratio (o_res o) = ratio /\ r_prec (o_res o) = prec /\ r_use_sse (o_res o) = sse /\ size (o_in o) = 8 * k /\
  (forall k, 800 <= k < size (o_in o) -> exists s, smp (o_in o) k = (B754_zero s : b32)) /\ smp (o_in o) 799 = (B754_infinity false : b32).
Proof.
  intros Hr Hp Hk.
  assert (Sz : size (loud_then_silent (8 * k)) = 8 * k) by (unfold size, loud_then_silent, tab; rewrite map_length, seq_length; lia).
  destruct (feed (A := F32) plat md ratio prec sse FILTER_FIR 0 [(0, loud_then_silent (8 * k))]) as (st & m & o & H & E & Er & Ei).
  { apply configb_ok. unfold stage_no in Hr. unfold fir_prec in Hp. destruct Hr as [->|[->| ->]], Hp as [->|[->|[->|[->|[->| ->]]]]]; reflexivity. }
  { constructor; [|constructor]. split; [cbn; lia|]. cbn [snd]. change (size_ok FILTER_FIR md ratio (size (loud_then_silent (8 * k)))).
    unfold stage_no in Hr. assert (D : (8 * k) mod ratio = 0) by (destruct Hr as [->|[->| ->]]; apply Z.mod_divide; [lia | exists (4 * k); lia | lia | exists (2 * k); lia | lia | exists k; lia]).
    rewrite Sz. destruct Hr as [->|[->| ->]], md; cbn [size_ok]; lia. }
  cbn [map concat snd] in Ei. rewrite app_nil_r in Ei.
  exists st, m, o. rewrite Er, Ei, Sz. split; [exact H|]. split; [exact E|]. do 6 (split; [reflexivity|]).
  unfold loud_then_silent. split.
  - intros i Hi. rewrite smp_tab by lia. replace (i <? 800) with false by lia. now exists (Z.even i).
  - now rewrite smp_tab by lia.
Qed.
Example C83_never_silent_case b k : (0 < b)%nat ->
  exists st (m : mem F32) o, reach sse_platform st m /\ st 0 = Some o /\
    r_filter (o_res o) = FILTER_IIR /\ r_mode (o_res o) = UP /\ r_ratio (o_res o) = 2 /\ r_prec (o_res o) = PREC_48DB /\
    o_in o = f1 :: repeat f0 (k * b).
Proof. intros Hb. destruct (C33_up_case b k Hb) as (st & m & o & H & E & _ & R). exists st, m, o. tauto. Qed.

Print Assumptions C83_decay.
Print Assumptions C83_never_silent.
Print Assumptions C83_vector_decay_refuted.
Print Assumptions C83_fir_silence.
