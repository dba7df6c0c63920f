(** * Properties: the error table and error spectrum tests of tests/testresampler.cc *)
From Coq Require Import ZArith Reals List Lia Lra Bool ZifyNat ZifyBool.
From Flocq Require Import Core BinarySingleNaN.
From Verif Require Import Arith ArithR ArithF Mem FirModel IirModel Tables ResamplerModel Wp Stage Cascade
  ResamplerProof ResamplerOk Spec SpecOk SpecR Client Feed StreamFacts DelayFacts ConfigFacts TablesF FirReal FreqFir Cases PropsConfig PropsFreq PropsFloatFreq
  AccuracyModel AccuracyProof AccuracySine PropsAccuracy ErrorModel Blackman ErrorProof.
Import ListNotations.
Open Scope Z_scope.

(** the arguments of a test *)
Record settings := Settings {
  t_type : resample_type; t_block : Z; t_prec : Z; t_sse : bool; t_freq : R; t_min : R; t_max : R; t_inc : R }.
(** the frequencies: a range if the increment is above 1 *)
Definition lowest (s : settings) : R := one_or (t_inc s) (t_min s) (t_freq s).
Definition highest (s : settings) : R := one_or (t_inc s) (t_max s) (1.5 * t_freq s).
Definition increment (s : settings) : R := one_or (t_inc s) (t_inc s) (t_freq s).
Definition nth_freq (s : settings) (i : Z) : R := (lowest s + IZR i * increment s)%R.
(** exactly the first n frequencies are tested *)
Definition tests (s : settings) (n : Z) : Prop :=
  0 <= n /\ (forall i, 0 <= i < n -> (nth_freq s i < highest s + 1)%R) /\ (highest s + 1 <= nth_freq s n)%R.

(** the sample number k of a sine with the frequency freq, delayed as the documentation says, after the change of the
    sample rate; 0 if it should be removed *)
Definition rate_factor (rt : resample_type) : R := match rt with RES_UPSAMPLE => 1 / 2 | RES_DOWNSAMPLE => 2 | _ => 1 end.
Definition delay_of (rt : resample_type) (p : Z) : R :=
  let up := (IZR (fir_delay8 UP 2 p) / 8)%R in let down := (IZR (fir_delay8 DOWN 2 p) / 8)%R in
  match rt with RES_UPSAMPLE => up | RES_DOWNSAMPLE => down | RES_OVERSAMPLE => up / 2 + down | RES_SUBSAMPLE => down * 2 + up end%R.
Definition ideal (rt : resample_type) (p : Z) (freq : R) (k : Z) : R :=
  let v := sin (2 * PI * freq / 44100 * rate_factor rt * (IZR k - delay_of rt p)) in
  match rt with
  | RES_DOWNSAMPLE | RES_SUBSAMPLE => if Rlt_dec freq 11025 then v else 0
  | RES_UPSAMPLE | RES_OVERSAMPLE => v
  end%R.
Lemma ideal_ok rt p freq k : correct rt p freq k = ideal rt p freq k.
Proof.
  unfold correct, ideal, omega, factor, shift, vol, volume, downs_first, rate_factor, delay_of.
  destruct rt; try destruct (Rlt_dec freq 11025); rewrite ?Rmult_1_r, ?Rmult_0_r; try reflexivity; f_equal; unfold Rdiv; lra.
Qed.

(** line of the table *)
Definition describes (rt : resample_type) (p : Z) (freq : R) (k : Z) (r : row) : Prop :=
  row_k r = k /\ row_correct r = ideal rt p freq k /\ row_error r = xrsub (row_correct r) (row_value r).
(** one block of lines for each frequency: the samples from the number [from] on, to the number 19999 at least *)
Definition table_of (s : settings) (P : R -> Z -> row -> Prop) (rows : list row) : Prop :=
  exists n blocks, tests s n /\ rows = concat blocks /\ Z.of_nat (length blocks) = n /\
    forall j b, nth_error blocks j = Some b ->
      let from := 4 * fir_len 2 (t_prec s) + 1 in
      20000 - from <= Z.of_nat (length b) /\
      forall i r, nth_error b i = Some r -> P (nth_freq s (Z.of_nat j)) (from + Z.of_nat i) r.

(** the state of the program at the start, and numbers that let the loops end *)
Record runnable {A : arith} plat (addr : blk -> Z) idu idd (s : settings) (pos : Z) st (m : mem A) : Prop := {
  rn_reach : reach plat st m;
  rn_up : st idu = None;
  rn_down : st idd = None;
  rn_ne : idu <> idd;
  rn_prec : fir_prec (t_prec s);
  rn_addr : addresses addr (t_block s);
  rn_block : 0 <= t_block s < 2 ^ 29;
  rn_sse : t_sse s = true -> sse_available plat = true;
  rn_pos : 0 <= pos }.
Definition ending (rnd : Z -> Z) (fuel : nat) (W nf : Z) (s : settings) : Prop :=
  fair rnd (t_block s) W /\ W * 20000 <= Z.of_nat fuel /\ nf <= Z.of_nat fuel /\
  (0 <= lowest s /\ highest s <= 44099 /\ 0 < increment s /\ highest s + 1 <= nth_freq s nf)%R.

Section Run.
Context {A : arith} (plat : platform) (to_float : R -> A) (to_double : A -> xdouble).
Context (rnd : Z -> Z) (garbage : Z -> Z -> Z -> Z -> Z -> A) (ndebug : bool) (fuel : nat).
Context {X : Type} (g : Z -> A -> R -> X).

Definition good_samples idu idd (s : settings) (Q : R -> Z -> X -> Prop) (i : Z) : Prop :=
  forall st (m : mem A) x y lo k, reach plat st m -> streams plat (t_type s) idu idd (t_prec s) (t_sse s) st x y -> all_sin to_float x -> 0 <= lo <= size x -> (downs_first (t_type s) = true -> lo mod 2 = 0) ->
    tail_sin to_float (nth_freq s i) x lo -> 4 * fir_len 2 (t_prec s) < k -> outn (t_type s) lo + k < size y ->
    Q (nth_freq s i) k (g k (smp y (outn (t_type s) lo + k)) (correct (t_type s) (t_prec s) (nth_freq s i) k)).

Lemma collect_ok (t : Prop) addr idu idd s pos st (m : mem A) (Q : R -> Z -> X -> Prop) W nf :
  runnable plat addr idu idd s pos st m -> (t -> ending rnd fuel W nf s) ->
  (forall i, 0 <= i -> (nth_freq s i < highest s + 1)%R -> good_samples idu idd s Q i) ->
  goes t (perform_scan plat to_float rnd garbage ndebug fuel (collect g) (t_type s) addr idu idd (t_block s) (t_prec s) (t_sse s) (t_freq s) (t_min s) (t_max s) (t_inc s) [] pos) m
    (fun r m' => exists n, tests s n /\ gathered (t_prec s) (fun i => Q (nth_freq s i)) n 0 (snd r)).
Proof.
  intros [H Eu Ed Ne HP HA HB HS Hp] HE HQ. eapply goes_mono.
  - apply (scan_perform_ok plat to_float to_double rnd garbage ndebug fuel (collect g) t (gathered (t_prec s) (fun i => Q (nth_freq s i))) (t_type s) addr idu idd (t_block s) (t_prec s) (t_sse s)
      (t_freq s) (t_min s) (t_max s) (t_inc s) [] pos st m W nf H Eu Ed Ne HP HA HB HS Hp).
    + apply gathered_0.
    + intros i k l. apply gathered_next.
    + fold (lowest s) (highest s) (increment s). intros i Hi L. split.
      * apply looks_collect. exact (HQ i Hi L).
      * intros T. destruct (HE T) as (_ & _ & _ & Q1 & Q2 & Q3 & _). apply IZR_le in Hi. assert (0 <= IZR i * increment s)%R by (apply Rmult_le_pos; lra). lra.
    + fold (lowest s) (highest s) (increment s). intros T. destruct (HE T) as (F & N1 & N2 & Q1 & Q2 & Q3 & Q4). split; [exact F|]. split; [exact N1|]. split; [exact N2|].
      intros i Hi. unfold nth_freq in Q4. apply IZR_le in Hi. assert (IZR nf * increment s <= IZR i * increment s)%R by (apply Rmult_le_compat_r; lra). lra.
  - intros r m' (n & pos' & l & st' & -> & _ & HN & HG & _). exists n. split; [exact HN | exact HG].
Qed.
End Run.

Definition error_table {A : arith} plat (to_float : R -> A) to_double rnd garbage ndebug fuel addr idu idd (s : settings) (pos : Z) : M A (Z * list row) :=
  perform_error_table plat to_float to_double rnd garbage ndebug fuel (t_type s) addr idu idd (t_block s) (t_prec s) (t_sse s) (t_freq s) (t_min s) (t_max s) (t_inc s) pos.
Definition error_spectrum {A : arith} plat (to_float : R -> A) to_double rnd garbage ndebug fuel fft addr idu idd (s : settings) (pos : Z) : M A (Z * option (list (R * xdouble))) :=
  perform_error_spectrum plat to_float to_double rnd garbage ndebug fuel fft (t_type s) addr idu idd (t_block s) (t_prec s) (t_sse s) (t_freq s) (t_min s) (t_max s) (t_inc s) pos.

Lemma gathered_table s (P : R -> Z -> row -> Prop) n rows : tests s n -> gathered (t_prec s) (fun i => P (nth_freq s i)) n 0 rows -> table_of s P rows.
Proof.
  intros HT (bs & cur & -> & [Lb HB] & [Lc _]). assert (cur = []) as -> by (pose proof (start_pos (t_prec s)); destruct cur; [reflexivity | cbn in Lc; lia]).
  rewrite app_nil_r. exists n, bs. split; [exact HT|]. split; [reflexivity|]. split; [exact Lb|]. intros j b E. cbv zeta. fold (start (t_prec s)).
  destruct (HB j b E) as (k & Hk & Lk & HE). split; [lia|]. exact HE.
Qed.

(** ** C81: the error table, for every arithmetic *)
Theorem C81_table {A : arith} plat (to_float : R -> A) to_double rnd garbage ndebug fuel addr idu idd s pos st (m : mem A) :
  runnable plat addr idu idd s pos st m ->
  match error_table plat to_float to_double rnd garbage ndebug fuel addr idu idd s pos m with
  | Ok ((_, rows), _) => table_of s (describes (t_type s) (t_prec s)) rows
  | Err e => e = OutOfFuel
  end /\
  forall W nf, ending rnd fuel W nf s -> exists r m', error_table plat to_float to_double rnd garbage ndebug fuel addr idu idd s pos m = Ok (r, m').
Proof.
  intros HR.
  assert (G : forall (t : Prop) W nf, (t -> ending rnd fuel W nf s) -> goes t (error_table plat to_float to_double rnd garbage ndebug fuel addr idu idd s pos) m
    (fun r _ => table_of s (describes (t_type s) (t_prec s)) (snd r))).
  { intros t W nf HE. eapply goes_mono.
    - apply (collect_ok plat to_float to_double rnd garbage ndebug fuel (fun k c v => Row k (to_double c) v (xrsub v (to_double c))) t addr idu idd s pos st m (describes (t_type s) (t_prec s)) W nf HR HE).
      intros i Hi L st1 m1 x y lo k _ _ _ _ _ _ _ _. split; [reflexivity|]. split; [apply ideal_ok | reflexivity].
    - intros r m' (n & HT & HG). now apply (gathered_table s _ n). }
  split.
  - pose proof (goes_partial _ _ _ _ (G False 0 0 ltac:(tauto))) as Q. destruct (error_table _ _ _ _ _ _ _ _ _ _ _ _ m) as [[[z rows] m']|e]; exact Q.
  - intros W nf HE. destruct (goes_ok _ _ _ _ (G True W nf (fun _ => HE)) I) as (r & m' & E & _). now exists r, m'.
Qed.

(** a line with a finite error of at most E *)
Definition small_error (E : R) (r : row) : Prop := exists v, row_value r = Fin v /\ row_error r = Fin (row_correct r - v) /\ (Rabs (row_correct r - v) <= E)%R.

Lemma table_close {A : arith} plat (to_float : R -> A) to_double rnd garbage ndebug fuel addr idu idd s pos st (m : mem A) (E : R -> R) :
  runnable plat addr idu idd s pos st m ->
  (forall i, 0 <= i -> (nth_freq s i < highest s + 1)%R -> values_close plat to_float to_double (t_type s) idu idd (t_prec s) (t_sse s) (E (nth_freq s i)) (nth_freq s i)) ->
  match error_table plat to_float to_double rnd garbage ndebug fuel addr idu idd s pos m with
  | Ok ((_, rows), _) => table_of s (fun f k r => describes (t_type s) (t_prec s) f k r /\ small_error (E f) r) rows
  | Err e => e = OutOfFuel
  end.
Proof.
  intros HR HV.
  assert (G : goes False (error_table plat to_float to_double rnd garbage ndebug fuel addr idu idd s pos) m
    (fun r _ => table_of s (fun f k r => describes (t_type s) (t_prec s) f k r /\ small_error (E f) r) (snd r))).
  { eapply goes_mono.
    - apply (collect_ok plat to_float to_double rnd garbage ndebug fuel (fun k c v => Row k (to_double c) v (xrsub v (to_double c))) False addr idu idd s pos st m
        (fun f k r => describes (t_type s) (t_prec s) f k r /\ small_error (E f) r) 0 0 HR ltac:(tauto)).
      intros i Hi L st1 m1 x y lo k H1 S1 X1 L1 V1 T1 K1 J1. split; [split; [reflexivity|]; split; [apply ideal_ok | reflexivity]|].
      destruct (HV i Hi L st1 m1 x y lo k H1 S1 X1 L1 V1 T1 K1 J1) as (v & Ev & B). exists v. cbn [row_value row_error row_correct]. rewrite Ev.
      split; [reflexivity|]. split; [reflexivity|]. rewrite <- Rabs_Ropp, Ropp_minus_distr. exact B.
    - intros r m' (n & HT & HG). now apply (gathered_table s _ n). }
  pose proof (goes_partial _ _ _ _ G) as Q. destruct (error_table _ _ _ _ _ _ _ _ _ _ _ _ m) as [[[z rows] m']|e]; exact Q.
Qed.

Theorem C81_table_exact plat rnd garbage ndebug fuel addr idu idd s pos st (m : mem RA) :
  runnable plat addr idu idd s pos st m -> hq_prec (t_prec s) ->
  (forall i, 0 <= i -> (nth_freq s i < highest s + 1)%R -> covered (t_type s) (nth_freq s i)) ->
  match error_table (A := RA) plat (fun r => r) Fin rnd garbage ndebug fuel addr idu idd s pos m with
  | Ok ((_, rows), _) => table_of s (fun f k r => describes (t_type s) (t_prec s) f k r /\ small_error (exact_bound (t_type s) (t_prec s) f) r) rows
  | Err e => e = OutOfFuel
  end.
Proof. intros HR HQ HC. apply table_close with (st := st); [exact HR|]. intros i Hi L. apply exact_value; [exact HQ | now apply HC | apply Rle_refl]. Qed.

Theorem C81_table_single_precision plat rnd garbage ndebug fuel addr idu idd s pos st (m : mem F32) :
  runnable plat addr idu idd s pos st m -> hq_prec (t_prec s) ->
  (forall i, 0 <= i -> (nth_freq s i < highest s + 1)%R -> kept (t_type s) (nth_freq s i)) ->
  match error_table (A := F32) plat (fun r => b32_round r : F32) b32_double rnd garbage ndebug fuel addr idu idd s pos m with
  | Ok ((_, rows), _) => table_of s (fun f k r => describes (t_type s) (t_prec s) f k r /\ small_error (Rpower 10 (- guaranteed (t_type s) (t_prec s) / 20)) r) rows
  | Err e => e = OutOfFuel
  end.
Proof.
  intros HR HQ HC. apply (table_close plat (fun r => b32_round r : F32) b32_double rnd garbage ndebug fuel addr idu idd s pos st m (fun _ => Rpower 10 (- guaranteed (t_type s) (t_prec s) / 20)) HR).
  intros i Hi L. apply float_value; [exact HQ | left; now apply HC|]. apply float_numbers; [exact HQ | now apply HC].
Qed.

(** ** C81: the error spectrum *)
(** a line of the spectrum for every frequency below half of the sample rate of the output *)
Definition bin_freq (rt : resample_type) (i : Z) : R :=
  (IZR i / 16384 * match rt with RES_UPSAMPLE => 88200 | RES_DOWNSAMPLE => 22050 | _ => 44100 end)%R.
Definition lines_of (rt : resample_type) (P : Z -> xdouble -> Prop) (lines : list (R * xdouble)) : Prop :=
  length lines = Z.to_nat 8192 /\ forall i f v, nth_error lines i = Some (f, v) -> f = bin_freq rt (Z.of_nat i) /\ P (Z.of_nat i) v.

Lemma fir_len_le p : fir_prec p -> fir_len 2 p <= 52.
Proof. unfold fir_prec. intros [->|[->|[->|[->|[->| ->]]]]]; vm_compute; discriminate. Qed.

Lemma nth_line {X} (h : nat -> X) n i y : nth_error (map h (seq 0 n)) i = Some y -> y = h i /\ (i < n)%nat.
Proof.
  intros E. rewrite nth_error_map in E. destruct (nth_error (seq 0 n) i) as [j|] eqn:Ej; [|discriminate]. injection E as <-.
  assert (L : (i < n)%nat) by (rewrite <- (seq_length n 0); apply nth_error_Some; congruence).
  pose proof (nth_error_nth _ _ 0%nat Ej) as Ej'. rewrite seq_nth in Ej' by exact L. cbn in Ej'. subst j. auto.
Qed.

Lemma spectrum_shape fft rt e : FFT_SIZE <= Z.of_nat (length e) -> exists lines, spectrum fft rt e = Some lines /\ lines_of rt (fun _ _ => True) lines.
Proof.
  intros H. unfold spectrum. destruct (Z.ltb_spec (Z.of_nat (length e)) FFT_SIZE) as [C|_]; [lia|]. destruct (windowed _ _ _ _) as [e' nm].
  eexists. split; [reflexivity|]. split; [rewrite map_length, seq_length; reflexivity|]. intros i f v E.
  rewrite nth_error_map in E. destruct (nth_error (seq 0 _) i) as [j|] eqn:Ej; [|discriminate]. cbn [option_map] in E.
  assert (Lj : (i < Z.to_nat (FFT_SIZE / 2))%nat) by (rewrite <- (seq_length (Z.to_nat (FFT_SIZE / 2)) 0); apply nth_error_Some; congruence).
  pose proof (nth_error_nth _ _ 0%nat Ej) as Ej'. rewrite seq_nth in Ej' by exact Lj. cbn in Ej'. subst j.
  destruct (fft _ _) as [re im]. injection E as <- <-. split; [|exact I]. unfold bin_freq, FFT_SIZE, freq_scale. destruct rt; lra.
Qed.

Lemma spectrum_collect {A : arith} plat (to_float : R -> A) to_double rnd garbage ndebug fuel fft addr idu idd s pos st (m : mem A) (t : Prop) W nf (Q : R -> Z -> xdouble -> Prop) :
  runnable plat addr idu idd s pos st m -> (t -> ending rnd fuel W nf s) ->
  (forall i, 0 <= i -> (nth_freq s i < highest s + 1)%R -> good_samples plat to_float (fun _ c v => xrsub v (to_double c)) idu idd s Q i) ->
  goes t (error_spectrum plat to_float to_double rnd garbage ndebug fuel fft addr idu idd s pos) m
    (fun r _ => exists n e, tests s n /\ gathered (t_prec s) (fun i => Q (nth_freq s i)) n 0 e /\ snd r = spectrum fft (t_type s) e).
Proof.
  intros HR HE HQ. unfold error_spectrum, perform_error_spectrum. apply goes_bind. eapply goes_mono.
  - apply (collect_ok plat to_float to_double rnd garbage ndebug fuel (fun _ c v => xrsub v (to_double c)) t addr idu idd s pos st m Q W nf HR HE HQ).
  - intros r m' (n & HT & HG). apply goes_ret. exists n, (snd r). auto.
Qed.

(** the message "too few values" appears if and only if no frequency is tested, whatever the block size *)
Theorem C81_enough_values {A : arith} plat (to_float : R -> A) to_double rnd garbage ndebug fuel fft addr idu idd s pos st (m : mem A) :
  runnable plat addr idu idd s pos st m ->
  match error_spectrum plat to_float to_double rnd garbage ndebug fuel fft addr idu idd s pos m with
  | Ok ((_, lines), _) =>
      ((lowest s < highest s + 1)%R -> exists l, lines = Some l /\ lines_of (t_type s) (fun _ _ => True) l) /\
      ((highest s + 1 <= lowest s)%R -> lines = None)
  | Err e => e = OutOfFuel
  end /\
  forall W nf, ending rnd fuel W nf s -> exists r m', error_spectrum plat to_float to_double rnd garbage ndebug fuel fft addr idu idd s pos m = Ok (r, m').
Proof.
  intros HR.
  assert (G : forall (t : Prop) W nf, (t -> ending rnd fuel W nf s) -> goes t (error_spectrum plat to_float to_double rnd garbage ndebug fuel fft addr idu idd s pos) m
    (fun r _ => exists n e, tests s n /\ gathered (t_prec s) (fun _ _ _ => True) n 0 e /\ snd r = spectrum fft (t_type s) e)).
  { intros t W nf HE. apply (spectrum_collect plat to_float to_double rnd garbage ndebug fuel fft addr idu idd s pos st m t W nf (fun _ _ _ => True) HR HE).
    intros i Hi L st1 m1 x y lo k _ _ _ _ _ _ _ _. exact I. }
  split.
  - pose proof (goes_partial _ _ _ _ (G False 0 0 ltac:(tauto))) as Q. destruct (error_spectrum _ _ _ _ _ _ _ _ _ _ _ _ _ m) as [[[z lines] m']|e]; [|exact Q].
    destruct Q as (n & e & (T0 & T1 & T2) & HG & El). cbn [snd] in El. subst lines. unfold nth_freq in T2. split.
    + intros L. assert (N0 : 0 < n) by (destruct (Z.eq_dec n 0) as [->|]; [rewrite Rmult_0_l in T2; lra | lia]).
      destruct (gathered_first (t_prec s) (fun _ _ _ => True) n e N0 HG) as [LE _]. apply spectrum_shape.
      pose proof (fir_len_le _ (rn_prec _ _ _ _ _ _ _ _ HR)). unfold start in LE. unfold FFT_SIZE. lia.
    + intros L. assert (N0 : n = 0) by (destruct (Z.eq_dec n 0) as [|Nn]; [assumption|]; specialize (T1 0 ltac:(lia)); unfold nth_freq in T1; rewrite Rmult_0_l in T1; lra).
      subst n. destruct HG as (bs & cur & -> & [Lb _] & [Lc _]). pose proof (start_pos (t_prec s)).
      destruct bs; [|cbn in Lb; lia]. destruct cur; [reflexivity | cbn in Lc; lia].
  - intros W nf HE. destruct (goes_ok _ _ _ _ (G True W nf (fun _ => HE)) I) as (r & m' & E & _). now exists r, m'.
Qed.

(** dB of at most 20 log10 (B) *)
Definition at_most (B : R) (v : xdouble) : Prop := v = MInf \/ exists d, v = Fin d /\ (d <= 20 * ln B / ln 10)%R.
Lemma xdb_at_most v B : (0 <= v <= B)%R -> at_most B (xdb (Fin v)).
Proof.
  intros H. unfold xdb. destruct (Rlt_dec 0 v) as [L|L].
  - right. eexists. split; [reflexivity|]. assert (0 < ln 10)%R by (rewrite <- ln_1; apply ln_increasing; lra).
    unfold Rdiv. apply Rmult_le_compat_r; [apply Rlt_le, Rinv_0_lt_compat; lra|]. apply Rmult_le_compat_l; [lra|].
    destruct (Rle_lt_or_eq_dec v B (proj2 H)) as [Q|Q]; [apply Rlt_le, ln_increasing; assumption | rewrite Q; apply Rle_refl].
  - destruct (Rlt_dec v 0); [lra | now left].
Qed.

(** if the first frequency is one that is kept, no line of the spectrum is above twice the guaranteed error *)
Lemma spectrum_small {A : arith} plat (to_float : R -> A) to_double rnd garbage ndebug fuel fft addr idu idd s pos st (m : mem A) E :
  runnable plat addr idu idd s pos st m -> transforms fft -> (lowest s < highest s + 1)%R ->
  values_close plat to_float to_double (t_type s) idu idd (t_prec s) (t_sse s) E (lowest s) ->
  match error_spectrum plat to_float to_double rnd garbage ndebug fuel fft addr idu idd s pos m with
  | Ok ((_, lines), _) => exists l, lines = Some l /\ lines_of (t_type s) (fun _ => at_most (2 * E)) l
  | Err e => e = OutOfFuel
  end.
Proof.
  intros HR HF L0 HV.
  set (Q := fun (f : R) (k : Z) (x : xdouble) => f = lowest s -> exists r, x = Fin r /\ (Rabs r <= E)%R).
  pose proof (spectrum_collect plat to_float to_double rnd garbage ndebug fuel fft addr idu idd s pos st m False 0 0 Q HR ltac:(tauto)) as G.
  apply goes_partial in G.
  - destruct (error_spectrum _ _ _ _ _ _ _ _ _ _ _ _ _ m) as [[[z lines] m']|e]; [|exact G].
    destruct G as (n & e & (T0 & T1 & T2) & HG & El). cbn [snd] in El. subst lines. unfold nth_freq in T2.
    assert (N0 : 0 < n) by (destruct (Z.eq_dec n 0) as [->|]; [rewrite Rmult_0_l in T2; lra | lia]).
    destruct (gathered_first (t_prec s) _ n e N0 HG) as [LE HE].
    pose proof (fir_len_le _ (rn_prec _ _ _ _ _ _ _ _ HR)) as F52. unfold start in LE, HE.
    remember (Z.to_nat FFT_SIZE) as N eqn:EN0. assert (HN : Z.of_nat N = 16384) by (rewrite EN0; unfold FFT_SIZE; lia).
    assert (FI : forall j, (j < N)%nat -> exists r, nth_error e j = Some (Fin r) /\ (Rabs r <= E)%R).
    { intros j Hj. destruct (nth_error e j) as [x|] eqn:Ex; [|apply nth_error_None in Ex; lia].
      destruct (HE j x ltac:(lia) Ex) as (r & -> & B); [unfold nth_freq; rewrite Rmult_0_l; lra|]. exists r. split; [reflexivity | exact B]. }
    set (l := map (fun x => match x with Fin r => r | _ => 0%R end) (firstn N e)).
    assert (Ll : length l = N) by (unfold l; rewrite map_length, firstn_length; lia).
    assert (EE : spectrum fft (t_type s) e = spectrum fft (t_type s) (map Fin l)).
    { assert (EN : firstn N e = map Fin l).
      { unfold l. rewrite map_map. rewrite <- (map_id (firstn N e)) at 1. apply map_ext_in. intros x Hx. apply In_nth_error in Hx. destruct Hx as [j Hj].
        assert (Lj : (j < N)%nat) by (assert (j < length (firstn N e))%nat by (apply nth_error_Some; congruence); rewrite firstn_length in *; lia).
        destruct (FI j Lj) as (r & Er & _). assert (nth_error (firstn N e) j = nth_error e j).
        { rewrite <- (firstn_skipn N e) at 2. rewrite nth_error_app1; [reflexivity | rewrite firstn_length; lia]. }
        replace x with (Fin r) by congruence. reflexivity. }
      unfold spectrum. rewrite map_length, Ll. destruct (Z.ltb_spec (Z.of_nat (length e)) FFT_SIZE) as [C|_]; [unfold FFT_SIZE in C; lia|].
      destruct (Z.ltb_spec (Z.of_nat N) FFT_SIZE) as [C|_]; [unfold FFT_SIZE in C; lia|]. rewrite <- EN0.
      rewrite <- (firstn_skipn N e), EN.
      assert (W : forall n i (a b : list xdouble) w, length a = n -> windowed n i (a ++ b) w = (fst (windowed n i a w) ++ b, snd (windowed n i a w))).
      { clear. induction n as [|n IH]; intros i [|x a] b w H; try discriminate; [reflexivity|]. cbn [windowed app]. cbn in H. rewrite IH by lia. reflexivity. }
      assert (WL : forall n i (a : list xdouble) w, length (fst (windowed n i a w)) = length a).
      { clear. induction n as [|n IH]; intros i [|x a] w; try reflexivity. cbn [windowed fst length]. now rewrite IH. }
      rewrite W by now rewrite map_length. pose proof (WL N 0 (map Fin l) 0%R) as LW. rewrite map_length, Ll in LW.
      destruct (windowed N 0 (map Fin l) 0) as [e1 nm]. cbn [fst snd] in *. rewrite firstn_app, LW, Nat.sub_diag, firstn_O, app_nil_r. reflexivity. }
    rewrite EE, (spectrum_ok fft (t_type s) _ l HF eq_refl) by (unfold FFT_SIZE; lia).
    eexists. split; [reflexivity|]. split; [rewrite map_length, seq_length; reflexivity|]. intros i f v Ei.
    rewrite nth_error_map in Ei. destruct (nth_error (seq 0 _) i) as [j|] eqn:Ej; [|discriminate]. cbn [option_map] in Ei.
    assert (Lj : (i < Z.to_nat (FFT_SIZE / 2))%nat) by (rewrite <- (seq_length (Z.to_nat (FFT_SIZE / 2)) 0); apply nth_error_Some; congruence).
    pose proof (nth_error_nth _ _ 0%nat Ej) as Ej'. rewrite seq_nth in Ej' by exact Lj. cbn in Ej'. subst j.
    injection Ei as <- <-. split; [unfold bin_freq, freq_scale; destruct (t_type s); lra|]. apply xdb_at_most. unfold line_size. rewrite <- EN0.
    assert (P : (0 < 0.42 * 8192)%R) by lra.
    pose proof (windowed_bound N ltac:(lia) (fun n => nth (Z.to_nat n) l 0%R) E (Z.of_nat i)) as B. split.
    + unfold Rdiv. apply Rmult_le_pos; [apply sqrt_pos | apply Rlt_le, Rinv_0_lt_compat, P].
    + apply (Rmult_le_reg_r (0.42 * 8192)); [exact P|]. unfold Rdiv. rewrite Rmult_assoc, Rinv_l, Rmult_1_r by lra.
      eapply Rle_trans; [apply B|].
      * intros k Hk. destruct (FI (Z.to_nat k) ltac:(lia)) as (r & Er & Br).
        replace (nth (Z.to_nat k) l 0%R) with r; [exact Br|]. symmetry. apply nth_error_nth. unfold l. rewrite nth_error_map.
        rewrite <- (firstn_skipn N e) in Er. rewrite nth_error_app1 in Er by (rewrite firstn_length; lia). now rewrite Er.
      * rewrite EN0, INR_size. lra.
  - intros i Hi L st1 m1 x y lo k H1 S1 X1 L1 V1 T1 K1 J1 Ef. rewrite Ef in *.
    destruct (HV st1 m1 x y lo k H1 S1 X1 L1 V1 T1 K1 J1) as (v & Ev & B). rewrite Ev. eexists. split; [reflexivity|].
    rewrite <- Rabs_Ropp, Ropp_minus_distr. exact B.
Qed.

Theorem C81_spectrum_exact plat rnd garbage ndebug fuel fft addr idu idd s pos st (m : mem RA) :
  runnable plat addr idu idd s pos st m -> transforms fft -> (lowest s < highest s + 1)%R -> hq_prec (t_prec s) -> covered (t_type s) (lowest s) ->
  match error_spectrum (A := RA) plat (fun r => r) Fin rnd garbage ndebug fuel fft addr idu idd s pos m with
  | Ok ((_, lines), _) => exists l, lines = Some l /\ lines_of (t_type s) (fun _ => at_most (2 * exact_bound (t_type s) (t_prec s) (lowest s))) l
  | Err e => e = OutOfFuel
  end.
Proof. intros HR HF HL HQ HC. apply spectrum_small with (st := st); [exact HR | exact HF | exact HL|]. apply exact_value; [exact HQ | exact HC | apply Rle_refl]. Qed.

Theorem C81_spectrum_single_precision plat rnd garbage ndebug fuel fft addr idu idd s pos st (m : mem F32) :
  runnable plat addr idu idd s pos st m -> transforms fft -> (lowest s < highest s + 1)%R -> hq_prec (t_prec s) -> kept (t_type s) (lowest s) ->
  match error_spectrum (A := F32) plat (fun r => b32_round r : F32) b32_double rnd garbage ndebug fuel fft addr idu idd s pos m with
  | Ok ((_, lines), _) => exists l, lines = Some l /\ lines_of (t_type s) (fun _ => at_most (2 * Rpower 10 (- guaranteed (t_type s) (t_prec s) / 20))) l
  | Err e => e = OutOfFuel
  end.
Proof.
  intros HR HF HL HQ HC. apply spectrum_small with (st := st); [exact HR | exact HF | exact HL|].
  apply float_value; [exact HQ | left; exact HC|]. now apply float_numbers.
Qed.

(** ** C81: what the spectrum shows of a sine whose frequency is that of line j: its amplitude in line j, known parts
    of it in the four lines around, and nothing elsewhere *)
Definition shown (d : Z) : R := match Z.abs d with 0 => 1 | 1 => 0.25 / 0.42 | 2 => 0.04 / 0.42 | _ => 0 end.
Lemma shown_lobe d x : (x * (16384 / 2) * Rabs (lobe d) / (0.42 * 8192))%R = (x * shown d)%R.
Proof.
  assert (E : (Rabs (lobe d) = 0.42 * shown d)%R); [|rewrite E; field; lra].
  unfold lobe, shown. destruct d as [|[q|[q|q|]|]|[q|[q|q|]|]]; cbn -[Rabs]; rewrite ?Rabs_R0, ?(Rabs_pos_eq 0.42), ?(Rabs_left (-0.25)), ?(Rabs_pos_eq 0.04) by lra; lra.
Qed.
Theorem C81_sine fft rt (a u : R) j errors : transforms fft -> 3 <= j <= 8189 ->
  errors = map (fun n => Fin (a * sin (2 * PI * IZR j / 16384 * IZR (Z.of_nat n) + u))%R) (seq 0 (Z.to_nat 16384)) ->
  exists l, spectrum fft rt errors = Some l /\ lines_of rt (fun i v => v = xdb (Fin (Rabs a * shown (i - j)))) l.
Proof.
  intros HF Hj ->.
  set (l := map (fun n => (a * sin (2 * PI * IZR j / 16384 * IZR (Z.of_nat n) + u))%R) (seq 0 (Z.to_nat 16384))).
  remember (Z.to_nat FFT_SIZE) as N eqn:EN0. assert (HN : Z.of_nat N = 16384) by (rewrite EN0; unfold FFT_SIZE; lia). assert (RN : INR N = 16384%R) by (rewrite EN0; apply INR_size).
  assert (Ll : length l = N) by (unfold l; rewrite map_length, seq_length, EN0; reflexivity).
  assert (EX : forall n, 0 <= n < Z.of_nat N -> (nth (Z.to_nat n) l 0 * blackman N n)%R = (a * sin (2 * PI * IZR j * IZR n / INR N + u) * blackman N n)%R).
  { intros n Hn. f_equal. unfold l.
    rewrite (nth_indep _ 0%R ((fun n => (a * sin (2 * PI * IZR j / 16384 * IZR (Z.of_nat n) + u))%R) 0%nat)) by (rewrite map_length, seq_length; lia).
    rewrite (map_nth (fun n => (a * sin (2 * PI * IZR j / 16384 * IZR (Z.of_nat n) + u))%R)), seq_nth by lia. cbn [Nat.add]. rewrite Z2Nat.id by lia. rewrite RN. do 3 f_equal. lra. }
  rewrite (spectrum_ok fft rt _ l HF) by (try (unfold l; now rewrite map_map); unfold FFT_SIZE; lia). clearbody l.
  eexists. split; [reflexivity|]. split; [rewrite map_length, seq_length; reflexivity|]. intros i f v Ei.
  apply nth_line in Ei. destruct Ei as [Ei Li]. assert (L8 : Z.of_nat i < 8192) by (unfold FFT_SIZE in Li; lia).
  pose proof (f_equal fst Ei) as Ef. pose proof (f_equal snd Ei) as Ev. cbn [fst snd] in Ef, Ev. rewrite Ef, Ev. clear Ei Ef Ev.
  split; [unfold bin_freq, freq_scale; destruct rt; lra|]. do 2 f_equal. unfold line_size. rewrite <- EN0.
  destruct (dft_ext N _ _ (Z.of_nat i) EX) as [E1 E2].
  pose proof (windowed_sine N ltac:(lia) a u j (Z.of_nat i)) as WS. unfold dft_abs in *. rewrite E1, E2, WS by (rewrite HN; change (16384 / 2) with 8192; lia). rewrite RN.
  apply shown_lobe.
Qed.

(** ** Instances *)
Definition ex_settings : settings := Settings RES_UPSAMPLE 128 PREC_96DB false 440 0 0 0.
Example C81_runnable : runnable (A := F32) (Platform true true) ex_addr 0 1 ex_settings 0 (fun _ => None) (fun _ _ => None).
Proof.
  constructor; cbn [ex_settings t_block t_prec t_sse]; try reflexivity; try lia; try discriminate.
  - apply reach_init.
  - unfold fir_prec, PREC_96DB. auto.
  - apply C68_addresses.
Qed.
Example C81_frequencies : lowest ex_settings = 440%R /\ highest ex_settings = 660%R /\ increment ex_settings = 440%R /\ tests ex_settings 1.
Proof.
  assert (E : lowest ex_settings = 440%R /\ highest ex_settings = 660%R /\ increment ex_settings = 440%R).
  { unfold lowest, highest, increment, one_or. cbn [ex_settings t_inc t_min t_max t_freq]. destruct (Rlt_dec 1 0); [exfalso; lra|]. repeat split; lra. }
  destruct E as (E1 & E2 & E3). repeat split; try assumption; unfold nth_freq; rewrite ?E1, ?E2, ?E3; try lia; [|lra].
  intros i Hi. replace i with 0 by lia. lra.
Qed.
Example C81_ending : ending (fun _ => 12) (Z.to_nat 20000) 1 1 ex_settings.
Proof.
  destruct C81_frequencies as (E1 & E2 & E3 & _). split; [apply C68_fair|]. split; [lia|]. split; [lia|].
  unfold nth_freq. rewrite E1, E2, E3. lra.
Qed.
Definition ex_fft (l : list xdouble) (i : Z) : xdouble * xdouble :=
  let a := fun j => match nth (Z.to_nat j) l NaN with Fin r => r | _ => 0%R end in (Fin (dft_re (length l) a i), Fin (dft_im (length l) a i)).
Example C81_fft : transforms ex_fft.
Proof.
  intros l i Hi. unfold ex_fft. rewrite map_length.
  destruct (dft_ext (length l) (fun j => match nth (Z.to_nat j) (map Fin l) NaN with Fin r => r | _ => 0%R end) (fun j => nth (Z.to_nat j) l 0%R) i) as [-> ->]; [|reflexivity].
  intros n Hn. rewrite (nth_indep _ NaN (Fin 0)) by (rewrite map_length; lia). now rewrite map_nth.
Qed.
(** 440 Hz, 16 bits, SSE off, blocks of up to 128 samples: the test ends, and no line is above 2 * 10^(-guaranteed/20) *)
Example C81_case garbage : exists pos l m',
  error_spectrum (A := F32) (Platform true true) (fun r => b32_round r : F32) b32_double (fun _ => 12) garbage true (Z.to_nat 20000) ex_fft ex_addr 0 1 ex_settings 0 (fun _ _ => None) = Ok ((pos, Some l), m') /\
  lines_of RES_UPSAMPLE (fun _ => at_most (2 * Rpower 10 (- guaranteed RES_UPSAMPLE PREC_96DB / 20))) l.
Proof.
  destruct C81_frequencies as (E1 & E2 & E3 & _).
  destruct (proj2 (C81_enough_values (A := F32) (Platform true true) (fun r => b32_round r : F32) b32_double (fun _ => 12) garbage true (Z.to_nat 20000) ex_fft ex_addr 0 1 ex_settings 0
    (fun _ => None) (fun _ _ => None) C81_runnable) 1 1 C81_ending) as ([pos lines] & m' & E).
  pose proof (C81_spectrum_single_precision (Platform true true) (fun _ => 12) garbage true (Z.to_nat 20000) ex_fft ex_addr 0 1 ex_settings 0
    (fun _ => None) (fun _ _ => None) C81_runnable C81_fft) as Q. rewrite E, E1, E2 in Q.
  destruct Q as (l & -> & Q); [lra | unfold hq_prec; cbn; unfold PREC_96DB; lia | unfold kept; cbn; lra|]. exists pos, l, m'. split; [exact E | exact Q].
Qed.
Print Assumptions C81_table.
Print Assumptions C81_table_exact.
Print Assumptions C81_table_single_precision.
Print Assumptions C81_enough_values.
Print Assumptions C81_spectrum_exact.
Print Assumptions C81_spectrum_single_precision.
Print Assumptions C81_sine.
