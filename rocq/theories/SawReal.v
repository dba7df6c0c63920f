(** * testsawquality.cc in exact arithmetic and in single precision *)
From Coq Require Import String ZArith Reals List Lia Lra Bool ZifyNat ZifyBool.
From Flocq Require Import Core BinarySingleNaN.
From Verif Require Import Arith ArithR ArithF Mem FirModel IirModel Tables ResamplerModel Wp Stage Cascade
  ResamplerProof ResamplerOk Spec SpecOk SpecR Client Feed StreamFacts Cases FirReal FirEnergy FloatSum FloatErr PropsFloatFreq AccuracyModel AccuracySine ExampleModel ExampleProof PropsExample ToolsModel ToolsArrays
  ConfigFacts ErrorModel Blackman ErrorProof SawModel SawProof.
Import ListNotations.
Open Scope list_scope.
Open Scope Z_scope.

(** ** Exact arithmetic *)
Definition real_of (x : xdouble) : RA := match x with Fin r => r | _ => 0%R end.
Definition exact_partial (freq : RA) (p i : Z) : xdouble := Fin (sin (freq * IZR p * IZR i / 48000 * 2 * PI) / IZR p).
Definition exact_shape (v : RA) : RA := tanh (v * 3).
Definition exact_fft (l : list RA) (i : Z) : RA * RA :=
  (dft_re (length l) (fun j => nth (Z.to_nat j) l 0%R) i, dft_im (length l) (fun j => nth (Z.to_nat j) l 0%R) i).

(** a sawtooth made of P partials, at the time i/48000 *)
Definition sawtooth (freq : R) (P : nat) (i : Z) : R := sumR P (fun k => sin (2 * PI * freq * IZR (k + 1) * (IZR i / 48000)) / IZR (k + 1))%R.
Lemma first_exact freq P i : first_partials (A := RA) Fin real_of exact_partial P freq i = sawtooth freq P i.
Proof.
  induction P as [|P IH]; [reflexivity|]. cbn [first_partials]. rewrite IH. unfold exact_partial. cbn [xadd real_of]. unfold sawtooth. cbn [sumR].
  replace (Z.of_nat (S P)) with (Z.of_nat P + 1) by lia. do 3 f_equal. field.
Qed.
Lemma below_exact (freq : R) p : below_half (A := RA) Fin real_of freq p = if Rlt_dec (IZR p * freq) 24000 then true else false.
Proof. reflexivity. Qed.
Lemma exact_stops (freq : R) : (24000 <= IZR INT_MAX * freq)%R -> exists P : nat, stops (A := RA) Fin real_of freq (Z.of_nat P + 1) /\
  ((0 < P)%nat -> (IZR (Z.of_nat P) * freq < 24000)%R) /\ (24000 <= IZR (Z.of_nat P + 1) * freq)%R.
Proof.
  intros H. assert (F0 : (0 < freq)%R).
  { destruct (Rlt_le_dec 0 freq) as [|C]; [assumption|]. assert (IZR INT_MAX * freq <= IZR INT_MAX * 0)%R by (apply Rmult_le_compat_l; [apply IZR_le; unfold INT_MAX; lia | exact C]). lra. }
  assert (X : forall n p, 1 <= p -> (24000 <= IZR (p + Z.of_nat n) * freq)%R -> (forall q, 1 <= q < p -> (IZR q * freq < 24000)%R) ->
    exists p0, p <= p0 <= p + Z.of_nat n /\ (forall q, 1 <= q < p0 -> (IZR q * freq < 24000)%R) /\ (24000 <= IZR p0 * freq)%R).
  { induction n as [|n IH]; intros p Hp E Q.
    - exists p. rewrite Z.add_0_r in E. split; [lia|]. split; [exact Q | exact E].
    - destruct (Rlt_le_dec (IZR p * freq) 24000) as [L|L]; [|exists p; split; [lia | split; assumption]].
      destruct (IH (p + 1)) as (p0 & R & Q1 & Q2); [lia | replace (p + 1 + Z.of_nat n) with (p + Z.of_nat (S n)) by lia; exact E | |].
      + intros q Hq. destruct (Z.eq_dec q p) as [->|]; [exact L | apply Q; lia].
      + exists p0. split; [lia | split; assumption]. }
  destruct (X (Z.to_nat (INT_MAX - 1)) 1) as (p0 & R & Q1 & Q2); [lia | | intros q Hq; lia |].
  { rewrite Z2Nat.id by (unfold INT_MAX; lia). replace (1 + (INT_MAX - 1)) with INT_MAX by lia. exact H. }
  rewrite Z2Nat.id in R by (unfold INT_MAX; lia). exists (Z.to_nat (p0 - 1)). replace (Z.of_nat (Z.to_nat (p0 - 1)) + 1) with p0 by lia. split; [|split; [|exact Q2]].
  - split; [lia|]. split.
    + intros p Hp. rewrite below_exact. destruct (Rlt_dec (IZR p * freq) 24000) as [|C]; [reflexivity | destruct C; apply Q1; lia].
    + rewrite below_exact. destruct (Rlt_dec (IZR p0 * freq) 24000); [lra | reflexivity].
  - intros HP. apply Q1. lia.
Qed.
Lemma exact_overflows (freq : R) : (IZR INT_MAX * freq < 24000)%R -> forall p, 1 <= p <= INT_MAX -> below_half (A := RA) Fin real_of freq p = true.
Proof.
  intros H p [P1 P2]. rewrite below_exact. destruct (Rlt_dec (IZR p * freq) 24000) as [|C]; [reflexivity|]. exfalso. apply Rnot_lt_le in C.
  apply IZR_le in P1, P2. destruct (Rlt_le_dec 0 freq) as [F|F].
  - assert (IZR p * freq <= IZR INT_MAX * freq)%R by (apply Rmult_le_compat_r; lra). lra.
  - assert (0 <= IZR p * - freq)%R by (apply Rmult_le_pos; lra). lra.
Qed.

(** the number in line i for the signal a *)
Definition db (v : R) : R := (20 * ln v / ln 10)%R.
Definition amplitude (a : Z -> R) (i : Z) : R := (dft_abs (Z.to_nat SAW_SIZE) (fun n => a n * blackman (Z.to_nat SAW_SIZE) n) i / (0.42 * 8192 / 2))%R.
Definition in_line (a : Z -> R) (i : Z) : R := db (Rmax (amplitude a i) (1 / 100000000)).

Lemma dft_nonneg N a i : (0 <= dft_abs N a i)%R.
Proof. apply sqrt_pos. Qed.
Lemma amplitude_nonneg a i : (0 <= amplitude a i)%R.
Proof. unfold amplitude, Rdiv. apply Rmult_le_pos; [apply dft_nonneg | apply Rlt_le, Rinv_0_lt_compat; lra]. Qed.
Lemma saw_db_fin v : (0 <= v)%R -> saw_db (Fin v) = Fin (db (Rmax v (1 / 100000000))).
Proof.
  intros H. unfold saw_db, xmax, xlt. unfold Rmax. destruct (Rlt_dec v (1 / 100000000)) as [L|L], (Rle_dec v (1 / 100000000)) as [L'|L']; try lra; cbn [xdb].
  - destruct (Rlt_dec 0 (1 / 100000000)); [reflexivity | lra].
  - assert (v = 1 / 100000000)%R as -> by lra. destruct (Rlt_dec 0 (1 / 100000000)); [reflexivity | lra].
  - destruct (Rlt_dec 0 v); [reflexivity | lra].
Qed.

Lemma exact_lines (y : list RA) : len y = SAW_SIZE ->
  lines_for (A := RA) Fin real_of exact_fft y = map (fun j => (Fin (IZR (Z.of_nat j) * 48000 / 8192), Fin (in_line (fun n => smp y n) (Z.of_nat j)))%R) (seq 0 (Z.to_nat 4097)).
Proof.
  intros L. unfold lines_for, saw_lines. change ((SAW_SIZE + 2) / 2) with 4097. apply map_ext. intros j. set (i := Z.of_nat j).
  unfold saw_line. cbn [real_of].
  remember (Z.to_nat SAW_SIZE) as N eqn:EN. assert (HN : Z.of_nat N = 8192) by (rewrite EN; unfold SAW_SIZE; lia).
  assert (LW : length (window_all (A := RA) Fin real_of y) = N).
  { pose proof (len_tab (A := RA) (len y) (fun i => real_of (xscale (Fin (nthZ y i)) (saw_window i))) ltac:(rewrite L; discriminate)) as Q.
    fold (window_all (A := RA) Fin real_of y) in Q. unfold len in Q, L. rewrite EN. lia. }
  f_equal.
  - f_equal. unfold SAW_SIZE. field.
  - set (ri := exact_fft (window_all (A := RA) Fin real_of y) i).
    assert (RE : fst ri = dft_re N (fun n => smp y n * blackman N n)%R i /\ snd ri = dft_im N (fun n => smp y n * blackman N n)%R i).
    { unfold ri, exact_fft. cbn [fst snd]. rewrite LW. apply dft_ext. intros n Hn. unfold window_all.
      assert (R1 : 0 <= n < len y) by (rewrite L; unfold SAW_SIZE; lia).
      pose proof (smp_tab (A := RA) (len y) (fun i => real_of (xscale (Fin (nthZ y i)) (saw_window i))) n R1) as Q.
      unfold smp in Q at 1. destruct (Z.ltb_spec n 0); [lia|]. etransitivity; [exact Q|]. cbn [xscale real_of]. rewrite saw_blackman, <- EN.
      unfold smp, nthZ. destruct (Z.ltb_spec n 0); [lia|]. reflexivity. }
    destruct RE as [R1 R2]. rewrite R1, R2. cbn [fadd fmul RA].
    set (re := dft_re N _ i). set (im := dft_im N _ i).
    assert (S0 : (0 <= re * re + im * im)%R) by (pose proof (Rle_0_sqr re); pose proof (Rle_0_sqr im); unfold Rsqr in *; lra).
    unfold xsqrt_div. destruct (Rlt_dec (re * re + im * im) 0); [lra|]. cbn [real_of].
    rewrite saw_db_fin; [|unfold Rdiv; apply Rmult_le_pos; [apply sqrt_pos | apply Rlt_le, Rinv_0_lt_compat; lra]].
    unfold in_line, amplitude, dft_abs. rewrite <- EN. reflexivity.
Qed.

Lemma ln10 : (0 < ln 10)%R.
Proof. rewrite <- ln_1. apply ln_increasing; lra. Qed.
Lemma db_le a b : (0 < a -> a <= b -> db a <= db b)%R.
Proof.
  intros H1 H2. unfold db, Rdiv. apply Rmult_le_compat_r; [apply Rlt_le, Rinv_0_lt_compat, ln10|]. apply Rmult_le_compat_l; [lra|].
  destruct (Rle_lt_or_eq_dec a b H2) as [Q|Q]; [apply Rlt_le, ln_increasing; assumption | rewrite Q; apply Rle_refl].
Qed.
Lemma db_floor : db (1 / 100000000) = (-160)%R.
Proof.
  unfold db. replace (1 / 100000000)%R with (/ 10 ^ 8)%R by (rewrite (pow_IZR 10 8); change (IZR (10 ^ Z.of_nat 8)) with 100000000%R; lra). rewrite ln_Rinv by (apply pow_lt; lra). rewrite ln_pow by lra.
  pose proof ln10. replace (INR 8) with 8%R by (cbn; lra). field. lra.
Qed.
Lemma in_line_floor a i : (-160 <= in_line a i)%R.
Proof. rewrite <- db_floor. apply db_le; [lra | apply Rmax_r]. Qed.
Lemma in_line_le a i E : (/ 2 <= E)%R -> (forall n, 0 <= n < SAW_SIZE -> (Rabs (a n) <= E)%R) -> (in_line a i <= db (2 * E))%R.
Proof.
  intros HE H. unfold in_line. apply db_le; [apply Rlt_le_trans with (1 / 100000000)%R; [lra | apply Rmax_r]|]. apply Rmax_lub; [|lra].
  remember (Z.to_nat SAW_SIZE) as N eqn:EN. assert (HN : Z.of_nat N = 8192) by (rewrite EN; unfold SAW_SIZE; lia).
  unfold amplitude. rewrite <- EN. pose proof (windowed_bound N ltac:(lia) a E i) as B.
  apply (Rmult_le_reg_r (0.42 * 8192 / 2)); [lra|]. unfold Rdiv at 1. rewrite Rmult_assoc, Rinv_l, Rmult_1_r by lra.
  eapply Rle_trans; [apply B; intros n Hn; apply H; unfold SAW_SIZE; lia|]. rewrite INR_IZR_INZ, HN. lra.
Qed.
(** a sine whose frequency is that of line j *)
Lemma in_line_sine a u j i : 0 <= i <= 4096 -> 3 <= j <= 4093 ->
  in_line (fun n => a * sin (2 * PI * (IZR j * 48000 / 8192) * (IZR n / 48000) + u))%R i = db (Rmax (Rabs a * (if i =? j then 1 else if Z.abs (i - j) =? 1 then 25 / 42 else if Z.abs (i - j) =? 2 then 4 / 42 else 0)) (1 / 100000000)).
Proof.
  intros Hi Hj. unfold in_line. f_equal. f_equal. unfold amplitude.
  remember (Z.to_nat SAW_SIZE) as N eqn:EN. assert (HN : Z.of_nat N = 8192) by (rewrite EN; unfold SAW_SIZE; lia).
  assert (RN : INR N = 8192%R) by (rewrite INR_IZR_INZ, HN; reflexivity).
  assert (E : dft_abs N (fun n => a * sin (2 * PI * (IZR j * 48000 / 8192) * (IZR n / 48000) + u) * blackman N n)%R i =
              dft_abs N (fun n => a * sin (2 * PI * IZR j * IZR n / INR N + u) * blackman N n)%R i).
  { unfold dft_abs. destruct (dft_ext N (fun n => a * sin (2 * PI * (IZR j * 48000 / 8192) * (IZR n / 48000) + u) * blackman N n)%R (fun n => a * sin (2 * PI * IZR j * IZR n / INR N + u) * blackman N n)%R i) as [E1 E2].
    - intros n _. do 3 f_equal. rewrite RN. field.
    - now rewrite E1, E2. }
  rewrite E, windowed_sine by lia. rewrite RN. unfold lobe.
  destruct (Z.eqb_spec i j) as [Eij|N1].
  - rewrite Eij, Z.sub_diag. cbn [Z.eqb]. rewrite (Rabs_pos_eq 0.42) by lra. lra.
  - replace (i - j =? 0) with false by lia. destruct (Z.abs (i - j) =? 1); [rewrite (Rabs_left (-0.25)) by lra; lra|].
    destruct (Z.abs (i - j) =? 2); [rewrite (Rabs_pos_eq 0.04) by lra; lra | rewrite Rabs_R0; lra].
Qed.

(** the output is bounded *)
Lemma bounded_below (x : list RA) B : (0 <= B)%R -> (forall k, 0 <= k < size x -> (Rabs (smp x k) <= B)%R) -> bounded x B.
Proof.
  intros HB HL k. destruct (Z_lt_le_dec k 0); [rewrite smp_neg by lia; cbn; rewrite Rabs_R0; lra|].
  destruct (Z_lt_le_dec k (size x)); [now apply HL | rewrite smp_over by lia; cbn; rewrite Rabs_R0; lra].
Qed.
Lemma saw_valid : valid FILTER_FIR 8 PREC_96DB.
Proof. apply configb_ok. reflexivity. Qed.
Lemma smp_map_lt {A B : arith} (f : A -> B) (x : list A) k : 0 <= k < size x -> smp (map f x) k = f (smp x k).
Proof.
  intros Hk. unfold smp. destruct (Z.ltb_spec k 0); [lia|]. rewrite nth_indep with (d' := f f0) by (rewrite map_length; unfold size in Hk; lia). apply map_nth.
Qed.
Lemma shaped_bounded (u : list RA) : forall j, (Rabs (smp (resample (A := RA) FILTER_FIR DOWN PREC_96DB false 8 (map exact_shape u)) j) <= 319 / 100)%R.
Proof.
  intros j. replace (319 / 100)%R with (cascade_gain DOWN 8 * 1)%R by (unfold cascade_gain; cbn; lra).
  apply (resample_bounded DOWN PREC_96DB 8 _ 1 saw_valid Rle_0_1). apply bounded_below; [lra|].
  intros k Hk. unfold size in Hk. rewrite map_length in Hk. rewrite (smp_map_lt (A := RA) (B := RA) exact_shape u k Hk). apply tanh_le1.
Qed.

(** ** Single precision *)
Definition b32_of (x : xdouble) : F32 :=
  match x with Fin r => b32_round r | PInf => B754_infinity false | MInf => B754_infinity true | NaN => B754_nan end.

Lemma int_format n : 0 <= n <= 2 ^ 24 -> generic_format radix2 fexp32 (IZR n).
Proof. intros H. rewrite <- (Rmult_1_r (IZR n)). change 1%R with (bpow radix2 0). apply atmost_format; lia. Qed.
Lemma round_le_int v n : 0 <= n <= 2 ^ 24 -> (Rabs v <= IZR n)%R -> fin (b32_round v) /\ (Rabs (val (b32_round v)) <= IZR n)%R.
Proof.
  intros Hn Hv. destruct (b32_round_ok v) as [F E].
  - eapply Rle_trans; [exact Hv|]. rewrite (pow_IZR 2 100). apply IZR_le. lia.
  - split; [exact F|]. rewrite E. apply abs_round_le_generic; [apply FLT_exp_valid; reflexivity | apply valid_rnd_N | now apply int_format | exact Hv].
Qed.
Lemma round_int n : 0 <= n <= 2 ^ 24 -> fin (b32_round (IZR n)) /\ val (b32_round (IZR n)) = IZR n.
Proof.
  intros Hn. destruct (b32_round_ok (IZR n)) as [F E].
  - rewrite Rabs_pos_eq by (apply IZR_le; lia). rewrite (pow_IZR 2 100). apply IZR_le. lia.
  - split; [exact F|]. rewrite E. apply round_generic; [apply valid_rnd_N | now apply int_format].
Qed.
Lemma round_nonneg v : (0 <= v <= 2 ^ 100)%R -> fin (b32_round v) /\ (0 <= val (b32_round v))%R.
Proof.
  intros Hv. destruct (b32_round_ok v) as [F E]; [rewrite Rabs_pos_eq; lra|]. split; [exact F|]. rewrite E.
  apply round_ge_generic; [apply FLT_exp_valid; reflexivity | apply valid_rnd_N | apply generic_format_0 | lra].
Qed.

(** a product of a positive number and freq *)
Lemma mult_nonpos (a freq : b32) : fin a -> (0 <= val a)%R -> fin freq -> (val freq <= 0)%R ->
  xlt (b32_double (b32_mult a freq)) (Fin 24000) = true.
Proof.
  intros Fa Pa Ff Pf. pose proof (Bmult_correct 24 128 Hprec32 Hmax32 mode_NE a freq) as H. rewrite rnd_eq in H. fold (b32_mult a freq) in H.
  assert (PR : (val a * val freq <= 0)%R) by (replace (val a * val freq)%R with (- (val a * - val freq))%R by ring; assert (0 <= val a * - val freq)%R by (apply Rmult_le_pos; lra); lra).
  destruct (Rlt_bool _ _) eqn:EB in H.
  - destruct H as (H1 & H2 & _). rewrite Fa, Ff in H2. cbn [andb] in H2. rewrite b32_double_fin by exact H2. cbn [xlt].
    rewrite H1. assert (rnd (val a * val freq) <= 0)%R by (apply round_le_generic; [apply FLT_exp_valid; reflexivity | apply valid_rnd_N | apply generic_format_0 | exact PR]).
    destruct (Rlt_dec _ 24000); [reflexivity | lra].
  - assert (NZ : (val a * val freq <> 0)%R).
    { intros Q. rewrite Q, round_0, Rabs_R0 in EB by apply valid_rnd_N. rewrite Rlt_bool_true in EB by apply bpow_gt_0. discriminate. }
    assert (SA : Bsign a = false /\ Bsign freq = true).
    { destruct a as [sa|sa| |sa ma ea Ha], freq as [sb|sb| |sb mb eb Hb]; try discriminate; cbn [B2R] in NZ; rewrite ?Rmult_0_l, ?Rmult_0_r in NZ; try (now destruct NZ).
      cbn [Bsign]. split.
      - destruct sa; [|reflexivity]. exfalso. cbn [B2R cond_Zopp] in Pa. pose proof (F2R_lt_0 radix2 (Float radix2 (Z.neg ma) ea) ltac:(reflexivity)). cbn in *. lra.
      - destruct sb; [reflexivity|]. exfalso. cbn [B2R cond_Zopp] in Pf. pose proof (F2R_gt_0 radix2 (Float radix2 (Z.pos mb) eb) ltac:(reflexivity)). cbn in *. lra. }
    destruct SA as [S1 S2]. rewrite S1, S2 in H. cbn in H. unfold b32_mult in *. destruct (Bmult _ a freq) as [s|s| |s mm e He]; cbn in H; try discriminate.
    injection H as ->. reflexivity.
Qed.

Lemma float_overflows (freq : b32) : (fin freq /\ (val freq <= 0)%R \/ freq = B754_infinity true) -> forall p, 1 <= p <= INT_MAX ->
  below_half (A := F32) b32_double b32_of freq p = true.
Proof.
  intros HF p [P1 P2]. unfold below_half. cbn [b32_of fmul F32].
  assert (PB : (1 <= IZR p <= 2 ^ 31)%R) by (rewrite (pow_IZR 2 31); split; apply IZR_le; unfold INT_MAX in *; lia).
  destruct (b32_round_ok (IZR p)) as [F E]; [rewrite Rabs_pos_eq by lra; eapply Rle_trans; [apply PB|]; apply Rle_pow; [lra | lia]|].
  assert (V1 : (1 <= val (b32_round (IZR p)))%R).
  { rewrite E. apply round_ge_generic; [apply FLT_exp_valid; reflexivity | apply valid_rnd_N | | apply PB]. apply (int_format 1). lia. }
  destruct HF as [[F1 F2]| ->]; [apply mult_nonpos; [exact F | lra | exact F1 | exact F2]|].
  destruct (b32_round (IZR p)) as [s|s| |s mm e He]; try discriminate; [cbn [B2R] in V1; lra|]. destruct s; [|reflexivity].
  exfalso. cbn [B2R cond_Zopp] in V1. pose proof (F2R_lt_0 radix2 (Float radix2 (Z.neg mm) e) ltac:(reflexivity)). cbn in *. lra.
Qed.

Lemma float_stops (freq : b32) : fin freq -> (24000 <= 2 ^ 24 * val freq)%R -> exists p0, p0 <= 2 ^ 24 /\ stops (A := F32) b32_double b32_of freq p0.
Proof.
  intros Ff HF. assert (P24 : (2 ^ 24 = 16777216)%R) by (rewrite (pow_IZR 2 24); reflexivity).
  assert (EX : below_half (A := F32) b32_double b32_of freq (2 ^ 24) = false).
  { unfold below_half. cbn [b32_of fmul F32]. destruct (round_int (2 ^ 24)) as [F E]; [lia|].
    change (IZR (2 ^ 24)) with 16777216%R in *. set (a := b32_round 16777216) in *. clearbody a.
    pose proof (Bmult_correct 24 128 Hprec32 Hmax32 mode_NE a freq) as H. rewrite rnd_eq in H. fold (b32_mult a freq) in H.
    destruct (Rlt_bool _ _) eqn:EB in H.
    - destruct H as (H1 & H2 & _). rewrite F, Ff in H2. cbn [andb] in H2. rewrite b32_double_fin by exact H2. cbn [xlt]. rewrite H1, E.
      assert (24000 <= rnd (16777216 * val freq))%R by (apply round_ge_generic; [apply FLT_exp_valid; reflexivity | apply valid_rnd_N | apply (int_format 24000); lia | lra]).
      destruct (Rlt_dec _ 24000); [lra | reflexivity].
    - assert (SA : Bsign a = false /\ Bsign freq = false).
      { assert (PA : (0 < val a)%R) by (rewrite E; lra). assert (PF : (0 < val freq)%R) by lra. clear - PA PF F Ff. split.
        - destruct a as [sa|sa| |sa ma ea Ha]; try discriminate; [cbn [B2R] in PA; lra|]. destruct sa; [|reflexivity]. exfalso. cbn [B2R cond_Zopp] in PA. pose proof (F2R_lt_0 radix2 (Float radix2 (Z.neg ma) ea) ltac:(reflexivity)). cbn in *. lra.
        - destruct freq as [sa|sa| |sa ma ea Ha]; try discriminate; [cbn [B2R] in PF; lra|]. destruct sa; [|reflexivity]. exfalso. cbn [B2R cond_Zopp] in PF. pose proof (F2R_lt_0 radix2 (Float radix2 (Z.neg ma) ea) ltac:(reflexivity)). cbn in *. lra. }
      destruct SA as [S1 S2]. rewrite S1, S2 in H. cbn in H. unfold b32_mult in *. destruct (Bmult _ a freq) as [s|s| |s mm e He]; cbn in H; try discriminate.
      injection H as ->. reflexivity. }
  assert (X : forall n p, 1 <= p -> p + Z.of_nat n = 2 ^ 24 -> (forall q, 1 <= q < p -> below_half (A := F32) b32_double b32_of freq q = true) ->
    exists p0, 1 <= p0 <= 2 ^ 24 /\ (forall q, 1 <= q < p0 -> below_half (A := F32) b32_double b32_of freq q = true) /\ below_half (A := F32) b32_double b32_of freq p0 = false).
  { induction n as [|n IH]; intros p Hp En Q.
    - exists (2 ^ 24). split; [lia|]. split; [|exact EX]. intros q Hq. apply Q. lia.
    - destruct (below_half (A := F32) b32_double b32_of freq p) eqn:EP; [|exists p; split; [lia | split; assumption]].
      apply (IH (p + 1)); [lia | lia |]. intros q Hq. destruct (Z.eq_dec q p) as [->|]; [exact EP | apply Q; lia]. }
  destruct (X (Z.to_nat (2 ^ 24 - 1)) 1) as (p0 & R & Q1 & Q2); [lia | rewrite Z2Nat.id by lia; lia | intros q Hq; lia|].
  exists p0. split; [lia|]. split; [unfold INT_MAX; lia|]. split; assumption.
Qed.

(** sin (..) / p is at most 1 *)
Lemma first_float partial freq P i : Z.of_nat P <= 2 ^ 24 -> (forall p i, exists t, partial freq p i = Fin t /\ (Rabs t <= 1)%R) ->
  fin (first_partials (A := F32) b32_double b32_of partial P freq i) /\ (Rabs (val (first_partials (A := F32) b32_double b32_of partial P freq i)) <= IZR (Z.of_nat P))%R.
Proof.
  intros HP HT. induction P as [|P IH]; [cbn; rewrite Rabs_R0; split; [reflexivity | lra]|].
  destruct IH as [F B]; [lia|]. cbn [first_partials]. destruct (HT (Z.of_nat (S P)) i) as (t & -> & T1). rewrite b32_double_fin by exact F. cbn [xadd b32_of].
  apply round_le_int; [lia|]. eapply Rle_trans; [apply Rabs_triang|]. rewrite Nat2Z.inj_succ. unfold Z.succ. rewrite plus_IZR. lra.
Qed.

Lemma panda_bounded vec partial (shape : b32 -> b32) freq p0 (u y : list F32) : p0 <= 2 ^ 24 -> 1 <= p0 -> (forall p i, exists t, partial freq p i = Fin t /\ (Rabs t <= 1)%R) ->
  float_fun shape (fun v => tanh (v * 3)) (/ 2 ^ 22) ->
  resample_any (A := F32) FILTER_FIR UP PREC_96DB vec 8 (saw_of (A := F32) b32_double b32_of partial freq p0) u ->
  resample_any (A := F32) FILTER_FIR DOWN PREC_96DB vec 8 (map (shape : F32 -> F32) u) y ->
  forall j, fin (smp y j) /\ (Rabs (val (smp y j)) <= 32 / 10)%R.
Proof.
  intros HP P1 HT HS H1 H2 j.
  assert (U : forall k, fin (smp u k) /\ True).
  { intros k. destruct (resample_tracks UP PREC_96DB vec 8 (saw_of (A := F32) b32_double b32_of partial freq p0) u (2 ^ 24)%R saw_valid) with (j := k) as [F _]; [| |exact H1|split; [exact F | trivial]].
    - rewrite (pow_IZR 2 24). change (bpow radix2 109) with (IZR (2 ^ 109)). apply IZR_le. lia.
    - intros i. destruct (Z_lt_le_dec i 0); [rewrite smp_neg by lia; cbn [f0 F32]; cbn [B2R is_finite]; rewrite Rabs_R0; split; [reflexivity | apply pow_le; lra]|].
      destruct (Z_lt_le_dec i SAW_SIZE).
      + unfold saw_of. rewrite smp_tab by lia. destruct (first_float partial freq (Z.to_nat (p0 - 1)) i) as [F B]; [lia | exact HT|]. split; [exact F|].
        eapply Rle_trans; [exact B|]. rewrite (pow_IZR 2 24). apply IZR_le. lia.
      + rewrite smp_over; [cbn [f0 F32]; cbn [B2R is_finite]; rewrite Rabs_R0; split; [reflexivity | apply pow_le; lra]|].
        unfold saw_of. rewrite size_tab by (unfold SAW_SIZE; lia). lia. }
  set (G := (1 + / 4194304)%R).
  assert (P22 : (/ 2 ^ 22 = / 4194304)%R) by (rewrite (pow_IZR 2 22); reflexivity).
  assert (W : forall k, fin (smp (map (shape : F32 -> F32) u) k) /\ (Rabs (val (smp (map (shape : F32 -> F32) u) k)) <= G)%R).
  { intros k. destruct (Z_lt_le_dec k 0); [rewrite smp_neg by lia; cbn [f0 F32]; cbn [B2R is_finite]; rewrite Rabs_R0; split; [reflexivity | unfold G; lra]|].
    destruct (Z_lt_le_dec k (size u)).
    - rewrite (smp_map_lt (A := F32) (B := F32) shape u k) by lia. destruct (HS _ (proj1 (U k))) as [F B]. split; [exact F|].
      rewrite P22 in B. unfold G. eapply near_bound; [exact B | apply tanh_le1].
    - rewrite smp_over by (unfold size in *; rewrite map_length; lia). cbn [f0 F32]; cbn [B2R is_finite]; rewrite Rabs_R0; split; [reflexivity | unfold G; lra]. }
  destruct (resample_tracks DOWN PREC_96DB vec 8 (map (shape : F32 -> F32) u) y G saw_valid) with (j := j) as [F B]; [|exact W|exact H2|].
  - unfold G. change (bpow radix2 109) with (IZR (2 ^ 109)). assert (2 <= IZR (2 ^ 109))%R by (apply IZR_le; lia). lra.
  - split; [exact F|].
    assert (C : (Rabs (smp (resample (A := RA) FILTER_FIR DOWN PREC_96DB false 8 (vals (map (shape : F32 -> F32) u))) j) <= 319 / 100 * G)%R).
    { replace (319 / 100)%R with (cascade_gain DOWN 8) by (unfold cascade_gain; cbn; lra).
      apply (resample_bounded DOWN PREC_96DB 8 _ G saw_valid); [unfold G; lra|]. intros k. rewrite smp_vals. apply W. }
    pose proof (near_bound _ _ _ _ B C) as Q. eapply Rle_trans; [exact Q|]. change (fir_units DOWN 8 PREC_96DB) with 217.
    change (bpow radix2 (-24)) with (/ IZR (2 ^ 24))%R. assert (Q0 : (bpow radix2 (-140) <= bpow radix2 (-24))%R) by (apply bpow_le; lia). change (bpow radix2 (-24)) with (/ IZR (2 ^ 24))%R in Q0.
    set (z := bpow radix2 (-140)) in *. clearbody z. change (IZR (2 ^ 24)) with 16777216%R in *. unfold G. lra.
Qed.
