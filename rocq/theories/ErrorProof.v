(** * What the error table and error spectrum tests collect *)
From Coq Require Import ZArith Reals List Lia Lra Bool ZifyNat ZifyBool.
From Verif Require Import Arith ArithR ArithF Mem FirModel IirModel Tables ResamplerModel Wp Stage Cascade
  ResamplerProof ResamplerOk Spec SpecOk SpecR Client Feed StreamFacts DelayFacts ConfigFacts Tones AccuracyModel AccuracyProof AccuracySine ErrorModel Blackman.
Import ListNotations.
Open Scope Z_scope.
Open Scope m_scope.

(** ** Collecting in a list *)
Definition collect {A : arith} {X : Type} (g : Z -> A -> R -> X) (k : Z) (c : A) (correct_output : R) (l : list X) : list X := l ++ [g k c correct_output].
Section Lists.
Context (p : Z).

(** the first sample that is looked at *)
Definition start : Z := 4 * fir_len 2 p + 1.
Lemma start_pos : 0 < start.
Proof. unfold start, fir_len. destruct (fir_table 2 p); lia. Qed.

Context {X : Type} (Q : Z -> Z -> X -> Prop).
(** all elements from number start to number k - 1 *)
Definition elements (P : Z -> X -> Prop) (k : Z) (l : list X) : Prop :=
  Z.of_nat (length l) = Z.max 0 (k - start) /\ forall i x, nth_error l i = Some x -> P (start + Z.of_nat i) x.
(** i blocks with at least 20000 samples each *)
Definition blocks_of (i : Z) (bs : list (list X)) : Prop :=
  Z.of_nat (length bs) = i /\ forall j b, nth_error bs j = Some b -> exists k, 20000 <= k /\ elements (Q (Z.of_nat j)) k b.
Definition gathered (i k : Z) (l : list X) : Prop := exists bs cur, l = concat bs ++ cur /\ blocks_of i bs /\ elements (Q i) k cur.

Lemma elements_nil P : elements P 0 [].
Proof. split; [cbn; pose proof start_pos; lia|]. intros [|i] x E; discriminate. Qed.
Lemma gathered_0 : gathered 0 0 [].
Proof. exists [], []. split; [reflexivity|]. split; [split; [reflexivity | intros [|j] b E; discriminate] | apply elements_nil]. Qed.
Lemma gathered_next i k l : 0 <= i -> 20000 <= k -> gathered i k l -> gathered (i + 1) 0 l.
Proof.
  intros Hi Hk (bs & cur & -> & [Lb HB] & HC). exists (bs ++ [cur]), []. split; [now rewrite concat_app, app_nil_r; cbn; rewrite app_nil_r|].
  split; [|apply elements_nil]. split; [rewrite app_length; cbn; lia|]. intros j b E.
  destruct (Nat.lt_ge_cases j (length bs)) as [L|L]; [rewrite nth_error_app1 in E by exact L; now apply HB|].
  rewrite nth_error_app2 in E by exact L. destruct (j - length bs)%nat as [|n] eqn:En; [|destruct n; discriminate].
  injection E as <-. exists k. split; [exact Hk|]. replace (Z.of_nat j) with i by lia. exact HC.
Qed.
Lemma gathered_skip i k l : 0 <= k -> k < start -> gathered i k l -> gathered i (k + 1) l.
Proof.
  intros H0 Hk (bs & cur & -> & HB & [L HC]). exists bs, cur. split; [reflexivity|]. split; [exact HB|]. split; [lia | exact HC].
Qed.
Lemma gathered_add i k z l : start <= k -> Q i k z -> gathered i k l -> gathered i (k + 1) (l ++ [z]).
Proof.
  intros Hk HQ (bs & cur & -> & HB & [L HC]). exists bs, (cur ++ [z]). split; [now rewrite app_assoc|]. split; [exact HB|].
  split; [rewrite app_length; cbn; lia|]. intros j x E.
  destruct (Nat.lt_ge_cases j (length cur)) as [Lj|Lj]; [rewrite nth_error_app1 in E by exact Lj; now apply HC|].
  rewrite nth_error_app2 in E by exact Lj. destruct (j - length cur)%nat as [|n] eqn:En; [|destruct n; discriminate].
  injection E as <-. replace (start + Z.of_nat j) with k by lia. exact HQ.
Qed.

(** the first elements belong to the first block *)
Lemma gathered_first i l : 0 < i -> gathered i 0 l -> 20000 - start <= Z.of_nat (length l) /\
  forall j x, Z.of_nat j < 20000 - start -> nth_error l j = Some x -> Q 0 (start + Z.of_nat j) x.
Proof.
  intros Hi (bs & cur & -> & [Lb HB] & _). destruct bs as [|b bs]; [cbn in Lb; lia|]. cbn [concat]. rewrite <- app_assoc.
  destruct (HB 0%nat b eq_refl) as (k & Hk & Lk & HE). split; [rewrite app_length; lia|].
  intros j x Hj E. rewrite nth_error_app1 in E by lia. now apply (HE j x).
Qed.
End Lists.

Section Collect.
Context {A : arith} (plat : platform) (to_float : R -> A) {X : Type} (g : Z -> A -> R -> X) (p : Z) (Q : Z -> Z -> X -> Prop).
Lemma looks_collect rt idu idd use_sse i freq :
  (forall st (m : mem A) x y lo k, reach plat st m -> streams plat rt idu idd p use_sse st x y -> all_sin to_float x -> 0 <= lo <= size x -> (downs_first rt = true -> lo mod 2 = 0) ->
    tail_sin to_float freq x lo -> 4 * fir_len 2 p < k -> outn rt lo + k < size y -> Q i k (g k (smp y (outn rt lo + k)) (correct rt p freq k))) ->
  looks plat to_float (collect g) rt idu idd p use_sse (gathered p Q i) freq.
Proof.
  intros HQ st m x y lo k mx H S HX Hlo Hev HT Hk Hj HG.
  destruct (Z.ltb_spec (4 * fir_len 2 p) k) as [L|L].
  - apply gathered_add; [unfold start; lia | | exact HG]. now apply (HQ st m x y lo k).
  - apply gathered_skip; [exact Hk | unfold start; lia | exact HG].
Qed.
End Collect.

(** ** The spectrum *)
Lemma windowed_ok l n i w0 : (n <= length l)%nat ->
  windowed n i (map Fin l) w0 =
    (map (fun j => Fin (nth j l 0 * spectrum_window (i + Z.of_nat j))%R) (seq 0 n) ++ map Fin (skipn n l), (w0 + sumR n (fun j => spectrum_window (i + j)))%R).
Proof.
  revert i l w0. induction n as [|n IH]; intros i l w0 H; [cbn; now rewrite Rplus_0_r|].
  destruct l as [|a l]; [cbn in H; lia|]. cbn [map windowed]. cbn [length] in H. rewrite IH by lia. cbn [fst snd xscale seq map skipn app nth]. rewrite Z.add_0_r.
  f_equal.
  - f_equal. rewrite <- seq_shift, map_map. f_equal. apply map_ext. intros j. cbn [nth]. do 3 f_equal. lia.
  - rewrite (sumR_add 1 n). cbn [sumR Z.of_nat Nat.add]. rewrite Z.add_0_r, Rplus_0_l, <- Rplus_assoc. f_equal. apply sumR_ext. intros j _. f_equal. lia.
Qed.

(** fftw computes the transform of finite values *)
Definition transforms (fft : list xdouble -> Z -> xdouble * xdouble) : Prop :=
  forall (l : list R) i, 0 <= i <= Z.of_nat (length l) / 2 ->
    let a := fun j => nth (Z.to_nat j) l 0%R in fft (map Fin l) i = (Fin (dft_re (length l) a i), Fin (dft_im (length l) a i)).

(** size of line i for finite errors a *)
Definition line_size (a : Z -> R) (i : Z) : R := (dft_abs (Z.to_nat FFT_SIZE) (fun n => a n * blackman (Z.to_nat FFT_SIZE) n) i / (0.42 * 8192))%R.
Lemma INR_size : INR (Z.to_nat FFT_SIZE) = 16384%R.
Proof. rewrite INR_IZR_INZ, Z2Nat.id by (unfold FFT_SIZE; lia). reflexivity. Qed.
Lemma dft_ext N a b i : (forall n, 0 <= n < Z.of_nat N -> a n = b n) -> dft_re N a i = dft_re N b i /\ dft_im N a i = dft_im N b i.
Proof. intros H. unfold dft_re, dft_im. split; [|f_equal]; apply sumR_ext; intros n Hn; now rewrite H. Qed.

Lemma spectrum_ok fft rt (e : list xdouble) (l : list R) : transforms fft -> e = map Fin l -> FFT_SIZE <= Z.of_nat (length l) ->
  spectrum fft rt e = Some (map (fun j => (IZR (Z.of_nat j) / 16384 * 44100 * freq_scale rt,
    xdb (Fin (line_size (fun n => nth (Z.to_nat n) l 0) (Z.of_nat j))))%R) (seq 0 (Z.to_nat (FFT_SIZE / 2)))).
Proof.
  intros HF -> HL. unfold spectrum. rewrite map_length. destruct (Z.ltb_spec (Z.of_nat (length l)) FFT_SIZE) as [C|_]; [lia|].
  rewrite windowed_ok by lia. set (N := Z.to_nat FFT_SIZE) in *.
  assert (HN : Z.of_nat N = 16384) by (unfold N, FFT_SIZE; lia). assert (RN : INR N = 16384%R) by apply INR_size.
  assert (H4 : (4 <= N)%nat) by lia.
  set (w := map (fun j => (nth j l 0 * spectrum_window (0 + Z.of_nat j))%R) (seq 0 N)).
  assert (EW : map (fun j => Fin (nth j l 0 * spectrum_window (0 + Z.of_nat j))%R) (seq 0 N) = map Fin w) by (unfold w; now rewrite map_map).
  rewrite EW. assert (Lw : length w = N) by (unfold w; now rewrite map_length, seq_length).
  rewrite firstn_app, map_length, Lw, Nat.sub_diag, firstn_O, app_nil_r, firstn_all2 by (rewrite map_length; lia).
  assert (WB : forall n, spectrum_window n = blackman N n) by (intros n; unfold spectrum_window, blackman; rewrite RN; reflexivity).
  assert (ES : sumR N (fun j => spectrum_window (0 + j)) = (0.42 * 16384)%R).
  { rewrite (sumR_ext _ _ (blackman N)) by (intros; now rewrite Z.add_0_l, WB). rewrite (window_sum N H4), RN. reflexivity. }
  rewrite ES. f_equal. apply map_ext_in. intros j Hj. apply in_seq in Hj. unfold FFT_SIZE in Hj.
  rewrite (HF w (Z.of_nat j)) by (rewrite Lw, HN; lia). rewrite Lw.
  assert (EA : forall n, 0 <= n < Z.of_nat N -> nth (Z.to_nat n) w 0%R = (nth (Z.to_nat n) l 0 * blackman N n)%R).
  { intros n Hn. unfold w. rewrite (nth_indep _ 0%R ((fun j => (nth j l 0 * spectrum_window (0 + Z.of_nat j))%R) 0%nat)) by (rewrite map_length, seq_length; lia).
    rewrite (map_nth (fun j => (nth j l 0 * spectrum_window (0 + Z.of_nat j))%R)), seq_nth by lia. rewrite WB. cbn [Nat.add]. do 2 f_equal. lia. }
  destruct (dft_ext N _ _ (Z.of_nat j) EA) as [E1 E2]. rewrite E1, E2. cbn [xlength]. unfold line_size, dft_abs. fold N.
  f_equal. do 3 f_equal. unfold FFT_SIZE. change (16384 / 2) with 8192. lra.
Qed.
