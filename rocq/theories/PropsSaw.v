(** * Properties: tests/testsawquality.cc *)
From Coq Require Import String ZArith Reals List Lia Lra Bool ZifyNat ZifyBool.
From Flocq Require Import Core BinarySingleNaN.
From Verif Require Import Arith ArithR ArithF Mem FirModel IirModel Tables ResamplerModel Wp Stage Cascade
  ResamplerProof ResamplerOk Spec SpecOk SpecR Client StreamFacts FirReal TablesF FloatSum PropsFloatFreq AccuracyModel AccuracySine PropsExample ToolsModel ToolsArrays
  PropsTools ErrorModel Blackman SawModel SawProof SawReal.
Import ListNotations.
Open Scope list_scope.
Open Scope Z_scope.

(** ** C82: every arithmetic *)
(** the arguments *)
Theorem C82_usage {A : arith} plat addr gu gd gt ndebug to_double to_float shape partial zita fft atof args (m : mem A) :
  (forall freq mode, args = [freq; mode] -> mode <> "zita"%string /\ mode <> "panda"%string) ->
  saw_main (A := A) plat addr gu gd gt ndebug to_double to_float shape partial zita fft atof args m = Ok (Usage, m).
Proof. apply saw_usage. Qed.

(** If p * freq is below 24000 for every p of type int, the loop over p has undefined behaviour. *)
Theorem C82_overflow {A : arith} plat addr gu gd gt ndebug to_double to_float shape partial zita fft atof freq mode (m : mem A) :
  mode = "zita"%string \/ mode = "panda"%string ->
  (forall p, 1 <= p <= 2147483647 -> xlt (to_double (fmul (to_float (Fin (IZR p))) (atof freq))) (Fin 24000) = true) ->
  exists m', saw_main (A := A) plat addr gu gd gt ndebug to_double to_float shape partial zita fft atof [freq; mode] m = Ok (Overflow, m').
Proof. apply saw_overflow. Qed.

(** Otherwise the program ends without error: the sawtooth, 8 times the rate, the function, the original rate, and one
    line for each of 4097 frequencies. *)
Theorem C82_panda {A : arith} plat addr gu gd gt ndebug to_double to_float shape partial zita fft atof freq p0 (m : mem A) :
  far_saw addr -> stops to_double to_float (atof freq) p0 ->
  exists u y lines m', saw_main (A := A) plat addr gu gd gt ndebug to_double to_float shape partial zita fft atof [freq; "panda"%string] m = Ok (Lines lines, m') /\
    len u = 65536 /\ len y = 8192 /\
    resample_any (A := A) FILTER_FIR UP PREC_96DB (vector plat FILTER_FIR true) 8 (saw_of to_double to_float partial (atof freq) p0) u /\
    resample_any (A := A) FILTER_FIR DOWN PREC_96DB (vector plat FILTER_FIR true) 8 (map shape u) y /\
    lines = lines_for to_double to_float fft y /\ length lines = Z.to_nat 4097.
Proof.
  intros HA HS. destruct (saw_panda plat addr gu gd gt ndebug to_double to_float shape partial zita fft atof freq p0 m HA HS) as (u & y & m' & E & H).
  exists u, y. eexists. exists m'. split; [exact E|]. destruct H as (H1 & H2 & H3 & H4). repeat (split; [assumption|]). split; [reflexivity|].
  unfold lines_for, saw_lines. rewrite map_length, seq_length. reflexivity.
Qed.
(** the mode zita analyses whatever that library made of the same sawtooth in the same way *)
Theorem C82_zita {A : arith} plat addr gu gd gt ndebug to_double to_float shape partial zita fft atof freq p0 (m : mem A) :
  stops to_double to_float (atof freq) p0 ->
  exists m', saw_main (A := A) plat addr gu gd gt ndebug to_double to_float shape partial zita fft atof [freq; "zita"%string] m =
    Ok (Lines (lines_for to_double to_float fft (tab 8192 (zita (saw_of to_double to_float partial (atof freq) p0)))), m').
Proof. apply saw_zita. Qed.

(** ** C82: exact arithmetic *)
(** The number of partials is that of those below 24000 Hz; each line has the frequency and the amplitude, in dB but at
    least -160 dB, of that part of the windowed output; no line is above 16.1 dB. *)
Definition exact_run plat addr gu gd gt ndebug zita atof args : M RA saw_outcome :=
  saw_main (A := RA) plat addr gu gd gt ndebug Fin real_of exact_shape exact_partial zita exact_fft atof args.
Lemma db_638 : (db (2 * (319 / 100)) <= 16.1)%R.
Proof.
  unfold db. pose proof ln10 as L. apply (Rmult_le_reg_r (ln 10)); [exact L|]. unfold Rdiv at 1. rewrite Rmult_assoc, Rinv_l, Rmult_1_r by lra.
  assert (Q : (10 * ln (2 * (319 / 100)) <= 8.05 * ln 10)%R); [|lra].
  apply (Rmult_le_reg_l 20); [lra|].
  replace (20 * (10 * ln (2 * (319 / 100))))%R with (ln ((2 * (319 / 100)) ^ 200)) by (rewrite ln_pow by lra; replace (INR 200) with 200%R by (rewrite INR_IZR_INZ; reflexivity); ring).
  replace (20 * (8.05 * ln 10))%R with (ln (10 ^ 161)) by (rewrite ln_pow by lra; replace (INR 161) with 161%R by (rewrite INR_IZR_INZ; reflexivity); lra).
  apply Rlt_le, ln_increasing; [apply pow_lt; lra|].
  replace (2 * (319 / 100))%R with (319 / 50)%R by lra. unfold Rdiv. rewrite Rpow_mult_distr, pow_inv.
  apply (Rmult_lt_reg_r (50 ^ 200)); [apply pow_lt; lra|]. rewrite Rmult_assoc, Rinv_l, Rmult_1_r by (apply pow_nonzero; lra).
  rewrite !pow_IZR, <- mult_IZR. apply IZR_lt. vm_compute. reflexivity.
Qed.
Theorem C82_exact plat addr gu gd gt ndebug zita atof arg (m : mem RA) : let freq : R := atof arg in
  far_saw addr -> (24000 <= 2147483647 * freq)%R ->
  exists (P : nat) lines m', exact_run plat addr gu gd gt ndebug zita atof [arg; "panda"%string] m = Ok (Lines lines, m') /\
    ((0 < P)%nat -> (IZR (Z.of_nat P) * freq < 24000)%R) /\ (24000 <= IZR (Z.of_nat P + 1) * freq)%R /\
    let x := tab (A := RA) 8192 (sawtooth freq P) in
    let y := resample (A := RA) FILTER_FIR DOWN PREC_96DB false 8 (map exact_shape (resample (A := RA) FILTER_FIR UP PREC_96DB false 8 x)) in
    length lines = Z.to_nat 4097 /\
    forall i f v, nth_error lines i = Some (f, v) -> f = Fin (IZR (Z.of_nat i) * 48000 / 8192)%R /\
      v = Fin (in_line (fun n => smp y n) (Z.of_nat i)) /\ (-160 <= in_line (fun n => smp y n) (Z.of_nat i) <= 16.1)%R.
Proof.
  intros freq HA HF. destruct (exact_stops freq HF) as (P & HS & HP1 & HP2).
  destruct (saw_panda (A := RA) plat addr gu gd gt ndebug Fin real_of exact_shape exact_partial zita exact_fft atof arg (Z.of_nat P + 1) m HA HS) as (u & y & m' & E & Lu & Ly & H1 & H2).
  exists P. eexists. exists m'. split; [exact E|]. split; [exact HP1|]. split; [exact HP2|]. cbv zeta.
  assert (EX : saw_of (A := RA) Fin real_of exact_partial (atof arg) (Z.of_nat P + 1) = tab (A := RA) 8192 (sawtooth freq P)).
  { unfold saw_of. unfold tab. apply map_ext. intros i. replace (Z.to_nat (Z.of_nat P + 1 - 1)) with P by (clear; lia). apply first_exact. }
  rewrite EX in H1. apply resample_any_R in H1. apply resample_any_R in H2. rewrite <- H1, <- H2.
  rewrite (exact_lines y Ly). split; [rewrite map_length, seq_length; reflexivity|]. intros i f v Ei.
  rewrite nth_error_map in Ei. destruct (nth_error (seq 0 _) i) as [j|] eqn:Ej; [|discriminate]. cbn [option_map] in Ei.
  assert (Lj : (i < Z.to_nat 4097)%nat) by (rewrite <- (seq_length (Z.to_nat 4097) 0); apply nth_error_Some; congruence).
  pose proof (nth_error_nth _ _ 0%nat Ej) as Ej'. rewrite seq_nth in Ej' by exact Lj. cbn in Ej'. subst j.
  injection Ei as <- <-. split; [reflexivity|]. split; [reflexivity|]. split; [apply in_line_floor|].
  eapply Rle_trans; [|apply db_638]. apply in_line_le; [lra|]. intros n Hn. rewrite H2. apply shaped_bounded.
Qed.
(** frequencies of at most 24000 / (2^31 - 1), also 0 and negative ones *)
Theorem C82_exact_overflow plat addr gu gd gt ndebug zita atof arg mode (m : mem RA) : mode = "zita"%string \/ mode = "panda"%string ->
  (2147483647 * atof arg < 24000)%R -> exists m', exact_run plat addr gu gd gt ndebug zita atof [arg; mode] m = Ok (Overflow, m').
Proof. intros Hm HF. apply saw_overflow; [exact Hm|]. apply exact_overflows. exact HF. Qed.

(** the number of a line for a sine whose frequency is that of line j: its amplitude in line j, known fractions of it in the two
    lines on each side, nothing in all others *)
Theorem C82_sine a u j i : 0 <= i <= 4096 -> 3 <= j <= 4093 ->
  in_line (fun n => a * sin (2 * PI * (IZR j * 48000 / 8192) * (IZR n / 48000) + u))%R i =
    db (Rmax (Rabs a * (if i =? j then 1 else if Z.abs (i - j) =? 1 then 25 / 42 else if Z.abs (i - j) =? 2 then 4 / 42 else 0)) (1 / 100000000)).
Proof. exact (in_line_sine a u j i). Qed.

(** ** C82: single precision *)
(** A frequency that is negative, 0 (for instance, no number was given) or minus infinity: undefined behaviour. *)
Theorem C82_float_overflow plat addr gu gd gt ndebug shape partial zita fft atof arg mode (m : mem F32) : mode = "zita"%string \/ mode = "panda"%string ->
  (is_finite (atof arg : b32) = true /\ (B2R (atof arg : b32) <= 0)%R \/ atof arg = B754_infinity true) ->
  exists m', saw_main (A := F32) plat addr gu gd gt ndebug b32_double b32_of shape partial zita fft atof [arg; mode] m = Ok (Overflow, m').
Proof. intros Hm HF. apply saw_overflow; [exact Hm|]. apply float_overflows. exact HF. Qed.
(** For every frequency of at least 24000 / 2^24, about 0.0015 Hz: no error, and no sample of the output is infinite, NaN or above 3.2. *)
Theorem C82_float plat addr gu gd gt ndebug (shape : b32 -> b32) (angle : F32 -> Z -> Z -> R) zita fft atof arg (m : mem F32) :
  let freq : b32 := atof arg in
  let partial := fun f p i => Fin (sin (angle f p i) / IZR p) in
  far_saw addr -> is_finite freq = true -> (24000 <= 2 ^ 24 * B2R freq)%R ->
  float_fun shape (fun v => tanh (v * 3)) (/ 2 ^ 22) ->
  exists p0 u y lines m', saw_main (A := F32) plat addr gu gd gt ndebug b32_double b32_of shape partial zita fft atof [arg; "panda"%string] m = Ok (Lines lines, m') /\
    1 <= p0 <= 2 ^ 24 /\ stops (A := F32) b32_double b32_of freq p0 /\ len y = 8192 /\
    resample_any (A := F32) FILTER_FIR UP PREC_96DB (vector plat FILTER_FIR true) 8 (saw_of (A := F32) b32_double b32_of partial freq p0) u /\
    resample_any (A := F32) FILTER_FIR DOWN PREC_96DB (vector plat FILTER_FIR true) 8 (map (shape : F32 -> F32) u) y /\
    lines = lines_for (A := F32) b32_double b32_of fft y /\
    forall j, is_finite (smp y j : b32) = true /\ (Rabs (B2R (smp y j : b32)) <= 3.2)%R.
Proof.
  intros freq partial HA Ff HF HT. destruct (float_stops freq Ff HF) as (p0 & B0 & HS). assert (B1 : 1 <= p0) by apply HS.
  destruct (saw_panda (A := F32) plat addr gu gd gt ndebug b32_double b32_of shape partial zita fft atof arg p0 m HA HS) as (u & y & m' & E & Lu & Ly & H1 & H2).
  exists p0, u, y. eexists. exists m'. split; [exact E|]. split; [lia|]. split; [exact HS|]. split; [exact Ly|]. split; [exact H1|]. split; [exact H2|]. split; [reflexivity|].
  intros j. replace 3.2%R with (32 / 10)%R by lra. apply (panda_bounded (vector plat FILTER_FIR true) partial shape freq p0 u y B0 B1); [|exact HT|exact H1|exact H2].
  intros p i. eexists. split; [reflexivity|]. destruct (Z.eq_dec p 0) as [->|Np]; [unfold Rdiv; rewrite Rinv_0, Rmult_0_r, Rabs_R0; lra|].
  unfold Rdiv. rewrite Rabs_mult. assert (A1 : (Rabs (sin (angle freq p i)) <= 1)%R) by (apply Rabs_le; pose proof (SIN_bound (angle freq p i)); lra).
  assert (A2 : (Rabs (/ IZR p) <= 1)%R).
  { assert (IZR p <> 0)%R by (now apply not_0_IZR). rewrite Rabs_inv, <- abs_IZR, <- Rinv_1. apply Rinv_le_contravar; [lra | apply IZR_le; lia]. }
  pose proof (Rabs_pos (sin (angle freq p i))). pose proof (Rabs_pos (/ IZR p)).
  replace 1%R with (1 * 1)%R by ring. apply Rmult_le_compat; assumption.
Qed.
(** the frequencies in single precision are exact *)
Theorem C82_float_frequencies (fft : list F32 -> Z -> F32 * F32) y i f v : nth_error (lines_for (A := F32) b32_double b32_of fft y) i = Some (f, v) ->
  f = Fin (IZR (Z.of_nat i) * 48000 / 8192)%R.
Proof.
  unfold lines_for, saw_lines. intros Ei. rewrite nth_error_map in Ei. destruct (nth_error (seq 0 _) i) as [j|] eqn:Ej; [|discriminate]. cbn [option_map] in Ei.
  change ((SAW_SIZE + 2) / 2) with 4097 in Ej.
  assert (Lj : (i < Z.to_nat 4097)%nat) by (rewrite <- (seq_length (Z.to_nat 4097) 0); apply nth_error_Some; congruence).
  pose proof (nth_error_nth _ _ 0%nat Ej) as Ej'. rewrite seq_nth in Ej' by exact Lj. cbn in Ej'. subst j.
  assert (Ef : fst (saw_line (A := F32) b32_double b32_of (0.42 * 8192 / 2) (fft (window_all (A := F32) b32_double b32_of y) (Z.of_nat i)) (Z.of_nat i)) = f) by (apply (f_equal (fun o => match o with Some l => fst l | None => f end)) in Ei; exact Ei).
  rewrite <- Ef. unfold saw_line. cbn [fst]. change (IZR SAW_SIZE) with 8192%R. clear - Lj. assert (R : 0 <= Z.of_nat i <= 4096) by lia. set (k := Z.of_nat i) in *. clearbody k.
  replace (IZR k / 8192 * 48000)%R with (IZR k * 48000 / 8192)%R by field. cbn [b32_of].
  destruct (b32_round_ok (IZR k * 48000 / 8192)) as [F E].
  - assert (0 <= IZR k <= 4096)%R by (split; apply IZR_le; lia). rewrite Rabs_pos_eq by lra. apply Rle_trans with (2 ^ 20)%R; [rewrite (pow_IZR 2 20); change (IZR (2 ^ Z.of_nat 20)) with 1048576%R; lra | apply Rle_pow; [lra | lia]].
  - rewrite b32_double_fin by exact F. f_equal. rewrite E. apply round_generic; [apply valid_rnd_N|].
    replace (IZR k * 48000 / 8192)%R with (IZR (k * 375) * bpow radix2 (-6))%R by (rewrite mult_IZR; change (bpow radix2 (-6)) with (/ 64)%R; field). apply atmost_format; lia.
Qed.

(** non-vacuity: 440 Hz has 54 partials *)
Example C82_addresses : far_saw perf_addr.
Proof.
  constructor.
  - constructor; intros; try reflexivity. right. unfold paddr. cbn. lia.
  - right. unfold paddr. cbn. lia.
  - left. unfold paddr. cbn. lia.
  - intros t [->| ->]; repeat split; left; unfold paddr; cbn; lia.
Qed.
Example C82_exact_case : (24000 <= 2147483647 * 440)%R /\ stops (A := RA) Fin real_of 440%R 55 /\ (2147483647 * 0 < 24000)%R.
Proof.
  split; [lra|]. split; [|lra]. split; [unfold INT_MAX; lia|]. split.
  - intros p Hp. rewrite below_exact. assert (IZR p <= 54)%R by (apply IZR_le; lia). destruct (Rlt_dec (IZR p * 440) 24000); [reflexivity | lra].
  - rewrite below_exact. destruct (Rlt_dec (IZR 55 * 440) 24000); [lra | reflexivity].
Qed.
Example C82_float_case : is_finite (b32_dy 440 0) = true /\ (24000 <= 2 ^ 24 * B2R (b32_dy 440 0))%R /\ float_fun tanh3 (fun v => tanh (v * 3)) (/ 2 ^ 22) /\
  is_finite (b32_dy (-3) 0) = true /\ (B2R (b32_dy (-3) 0) <= 0)%R.
Proof.
  assert (E1 : B2R (b32_dy 440 0) = 440%R) by (destruct (b32_dy_exact 440 0 ltac:(lia) ltac:(lia)) as [E _]; rewrite E; unfold F2R; cbn; lra).
  assert (E2 : B2R (b32_dy (-3) 0) = (-3)%R) by (destruct (b32_dy_exact (-3) 0 ltac:(lia) ltac:(lia)) as [E _]; rewrite E; unfold F2R; cbn; lra).
  split; [reflexivity|]. split; [rewrite E1, (pow_IZR 2 24); change (IZR (2 ^ Z.of_nat 24)) with 16777216%R; lra|]. split; [|split; [reflexivity | rewrite E2; lra]].
  destruct (C62_case (Platform true true)) as (_ & _ & _ & _ & _ & H & _). exact H.
Qed.

Print Assumptions C82_usage.
Print Assumptions C82_overflow.
Print Assumptions C82_panda.
Print Assumptions C82_zita.
Print Assumptions C82_exact.
Print Assumptions C82_exact_overflow.
Print Assumptions C82_sine.
Print Assumptions C82_float_overflow.
Print Assumptions C82_float.
Print Assumptions C82_float_frequencies.
