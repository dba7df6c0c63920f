(** * The Blackman window and the discrete Fourier transform *)
From Coq Require Import ZArith Reals List Lia Lra Bool ZifyNat ZifyBool.
From Verif Require Import Arith ArithR SpecR FirReal FirEnergy AccuracyModel ErrorModel.
Import ListNotations.
Open Scope Z_scope.

(** real and imaginary part of number i of the transform of the values a 0, ..., a (N - 1) *)
Definition dft_re (N : nat) (a : Z -> R) (i : Z) : R := sumR N (fun n => (a n * cos (2 * PI * IZR i * IZR n / INR N))%R).
Definition dft_im (N : nat) (a : Z -> R) (i : Z) : R := (- sumR N (fun n => (a n * sin (2 * PI * IZR i * IZR n / INR N))%R))%R.
Definition dft_abs (N : nat) (a : Z -> R) (i : Z) : R := sqrt (dft_re N a i * dft_re N a i + dft_im N a i * dft_im N a i).

Lemma cos_2kpi' (k : Z) x : cos (x + 2 * IZR k * PI) = cos x.
Proof.
  destruct (Z_le_gt_dec 0 k).
  - rewrite <- (Z2Nat.id k) by lia. rewrite <- INR_IZR_INZ. apply cos_period.
  - rewrite <- (cos_period (x + 2 * IZR k * PI) (Z.to_nat (- k))). f_equal. rewrite INR_IZR_INZ, Z2Nat.id by lia. rewrite opp_IZR. ring.
Qed.

Section Window.
Context (N : nat) (HN : (4 <= N)%nat).
(** 2 pi / N *)
Let th : R := (2 * PI / INR N)%R.
Definition blackman (n : Z) : R := window_blackman ((2 * IZR n - INR N) / INR N).

Lemma N0 : (0 < INR N)%R.
Proof. apply lt_0_INR. lia. Qed.

Lemma window_at n : 0 <= n <= Z.of_nat N -> blackman n = (0.42 - 0.5 * cos (th * IZR n) + 0.08 * cos (2 * (th * IZR n)))%R.
Proof.
  intros H. pose proof N0 as P. unfold blackman, window_blackman.
  assert (L : (0 <= IZR n <= INR N)%R) by (rewrite INR_IZR_INZ; split; apply IZR_le; lia).
  assert (B : (-1 <= (2 * IZR n - INR N) / INR N <= 1)%R).
  { split; [apply (Rmult_le_reg_r (INR N)); [exact P|] | apply (Rmult_le_reg_r (INR N)); [exact P|]];
      replace ((2 * IZR n - INR N) / INR N * INR N)%R with (2 * IZR n - INR N)%R by (field; lra); lra. }
  destruct (Rlt_dec 1 _) as [Q|_]; [apply Rabs_def1 in B || (exfalso; apply Rlt_not_le in Q; apply Q, Rabs_le, B)|].
  replace (PI * ((2 * IZR n - INR N) / INR N))%R with (th * IZR n - PI)%R by (unfold th; field; lra).
  replace (2 * PI * ((2 * IZR n - INR N) / INR N))%R with (2 * (th * IZR n) - 2 * PI)%R by (unfold th; field; lra).
  replace (cos (th * IZR n - PI)) with (- cos (th * IZR n))%R by (rewrite cos_minus, cos_PI, sin_PI; ring).
  replace (cos (2 * (th * IZR n) - 2 * PI)) with (cos (2 * (th * IZR n))) by (rewrite (cos_minus (2 * _)), cos_2PI, sin_2PI; ring).
  lra.
Qed.
Lemma window_pos n : 0 <= n <= Z.of_nat N -> (0 <= blackman n)%R.
Proof.
  intros H. rewrite window_at by exact H. rewrite cos_2a_cos. pose proof (COS_bound (th * IZR n)) as B. set (c := cos _) in *. clearbody c. nra.
Qed.

(** sums over whole periods *)
Lemma period_sin m u : m <> 0 -> Z.abs m < Z.of_nat N -> sumR N (fun n => sin (th * IZR m * IZR n + u)) = 0%R.
Proof.
  intros H0 H1. pose proof N0 as P. pose proof PI_RGT_0 as P2.
  set (h := (th * IZR m / 2)%R).
  assert (T : forall k, (sumR k (fun n => sin (th * IZR m * IZR n + u)) * (2 * sin h) = cos (u - h) - cos (th * IZR m * INR k + u - h))%R).
  { induction k as [|k IH]; cbn [sumR].
    - rewrite !Rmult_0_l, Rmult_0_r, Rplus_0_l. ring.
    - rewrite Rmult_plus_distr_r, IH, S_INR, <- INR_IZR_INZ.
      replace (th * IZR m * (INR k + 1) + u - h)%R with (th * IZR m * INR k + u + h)%R by (unfold h; field).
      rewrite cos_plus, (cos_minus (th * IZR m * INR k + u)). ring. }
  specialize (T N).
  assert (E : cos (th * IZR m * INR N + u - h) = cos (u - h)).
  { replace (th * IZR m * INR N + u - h)%R with (u - h + 2 * IZR m * PI)%R by (unfold th; field; lra). apply cos_2kpi'. }
  rewrite E, Rminus_diag_eq in T by reflexivity. apply Rmult_integral in T. destruct T as [T|T]; [exact T | exfalso].
  assert (S0 : sin h = 0%R) by lra. clear T E.
  assert (A : (0 < Rabs h < PI)%R).
  { unfold h, th. replace (2 * PI / INR N * IZR m / 2)%R with (PI * (IZR m / INR N))%R by (field; lra).
    rewrite Rabs_mult, (Rabs_pos_eq PI) by lra. unfold Rdiv. rewrite Rabs_mult, (Rabs_pos_eq (/ INR N)) by (apply Rlt_le, Rinv_0_lt_compat, P).
    rewrite <- abs_IZR. assert (M1 : (0 < IZR (Z.abs m) < INR N)%R) by (rewrite INR_IZR_INZ; split; apply IZR_lt; lia).
    assert (M2 : (0 < IZR (Z.abs m) * / INR N < 1)%R).
    { split; [apply Rmult_lt_0_compat; [lra | apply Rinv_0_lt_compat, P]|]. apply (Rmult_lt_reg_r (INR N)); [exact P|]. rewrite Rmult_assoc, Rinv_l by lra. lra. }
    split; [apply Rmult_lt_0_compat; lra|]. rewrite <- (Rmult_1_r PI) at 2. apply Rmult_lt_compat_l; lra. }
  assert (S1 : sin (Rabs h) = 0%R) by (unfold Rabs; destruct (Rcase_abs h); [rewrite sin_neg, S0; ring | exact S0]).
  pose proof (sin_gt_0 (Rabs h)) as Q. specialize (Q (proj1 A) (proj2 A)). lra.
Qed.
Lemma period_sin0 u : sumR N (fun n => sin (th * IZR 0 * IZR n + u)) = (INR N * sin u)%R.
Proof.
  rewrite (sumR_ext _ _ (fun _ => (sin u * 1)%R)) by (intros; f_equal; rewrite Rmult_1_r; f_equal; ring).
  rewrite sumR_scal. replace (sumR N (fun _ => 1%R)) with (INR N); [ring|].
  clear. induction N as [|k IH]; [reflexivity|]. rewrite S_INR. cbn [sumR]. now rewrite <- IH.
Qed.

(** the transform of the window, as a part of N *)
Definition lobe (m : Z) : R := if m =? 0 then 0.42%R else if Z.abs m =? 1 then (-0.25)%R else if Z.abs m =? 2 then 0.04%R else 0%R.
Lemma lobe_opp m : lobe (- m) = lobe m.
Proof. unfold lobe. rewrite Z.abs_opp. replace (- m =? 0) with (m =? 0) by lia. reflexivity. Qed.

Lemma window_sin m u : Z.abs m + 2 < Z.of_nat N -> sumR N (fun n => (blackman n * sin (th * IZR m * IZR n + u))%R) = (INR N * lobe m * sin u)%R.
Proof.
  intros H.
  assert (E : forall n, 0 <= n < Z.of_nat N -> (blackman n * sin (th * IZR m * IZR n + u) =
    0.42 * sin (th * IZR m * IZR n + u) + (-0.25 * sin (th * IZR (m + 1) * IZR n + u) + (-0.25 * sin (th * IZR (m - 1) * IZR n + u) +
    (0.04 * sin (th * IZR (m + 2) * IZR n + u) + 0.04 * sin (th * IZR (m - 2) * IZR n + u)))))%R).
  { intros n Hn. rewrite window_at by lia. rewrite !plus_IZR, !minus_IZR.
    replace (th * (IZR m + 1) * IZR n + u)%R with (th * IZR m * IZR n + u + th * IZR n)%R by ring.
    replace (th * (IZR m - 1) * IZR n + u)%R with (th * IZR m * IZR n + u - th * IZR n)%R by ring.
    replace (th * (IZR m + 2) * IZR n + u)%R with (th * IZR m * IZR n + u + 2 * (th * IZR n))%R by ring.
    replace (th * (IZR m - 2) * IZR n + u)%R with (th * IZR m * IZR n + u - 2 * (th * IZR n))%R by ring.
    set (al := (th * IZR m * IZR n + u)%R). set (be := (th * IZR n)%R). rewrite !sin_plus, !sin_minus. lra. }
  rewrite (sumR_ext _ _ _ E), !sumR_plus, !sumR_scal.
  assert (P : forall k, Z.abs k < Z.of_nat N -> sumR N (fun n => sin (th * IZR k * IZR n + u)) = if k =? 0 then (INR N * sin u)%R else 0%R).
  { intros k Hk. destruct (Z.eqb_spec k 0) as [->|Q]; [apply period_sin0 | now apply period_sin]. }
  rewrite !P by lia. unfold lobe.
  destruct (Z.eqb_spec m 0) as [->|Q0]; [cbn; lra|].
  destruct (Z.eqb_spec (m + 1) 0), (Z.eqb_spec (m - 1) 0), (Z.eqb_spec (m + 2) 0), (Z.eqb_spec (m - 2) 0), (Z.eqb_spec (Z.abs m) 1), (Z.eqb_spec (Z.abs m) 2); try lia; lra.
Qed.
Lemma window_cos m u : Z.abs m + 2 < Z.of_nat N -> sumR N (fun n => (blackman n * cos (th * IZR m * IZR n + u))%R) = (INR N * lobe m * cos u)%R.
Proof.
  intros H. rewrite (sumR_ext _ _ (fun n => (blackman n * sin (th * IZR m * IZR n + (PI / 2 + u)))%R)).
  - rewrite window_sin by exact H. now rewrite (sin_plus (PI / 2)), sin_PI2, cos_PI2, Rmult_1_l, Rmult_0_l, Rplus_0_r.
  - intros n _. f_equal. replace (th * IZR m * IZR n + (PI / 2 + u))%R with (PI / 2 + (th * IZR m * IZR n + u))%R by ring.
    now rewrite (sin_plus (PI / 2)), sin_PI2, cos_PI2, Rmult_1_l, Rmult_0_l, Rplus_0_r.
Qed.
(** the sum of the window *)
Lemma window_sum : sumR N blackman = (0.42 * INR N)%R.
Proof.
  pose proof (window_cos 0 0 ltac:(lia)) as Q. cbn in Q. rewrite cos_0 in Q. rewrite (sumR_ext _ _ (fun n => (blackman n * cos (th * 0 * IZR n + 0))%R)); [rewrite Q; unfold lobe; cbn; ring|].
  intros n _. rewrite Rmult_0_r, Rmult_0_l, Rplus_0_r, cos_0. ring.
Qed.

(** the largest value of the transform *)
Lemma dft_bound a i : (dft_abs N a i <= sumR N (fun n => Rabs (a n)))%R.
Proof.
  set (re := dft_re N a i). set (im := dft_im N a i). unfold dft_abs. fold re im.
  set (L := sqrt (re * re + im * im)). set (ph := fun n => (2 * PI * IZR i * IZR n / INR N)%R).
  assert (Q0 : (0 <= re * re + im * im)%R) by nra.
  assert (LL : (L * L = re * re + im * im)%R) by (apply sqrt_sqrt, Q0).
  assert (L0 : (0 <= L)%R) by apply sqrt_pos.
  assert (C : forall n, (Rabs (re * cos (ph n) - im * sin (ph n)) <= L)%R).
  { intros n. rewrite <- (Rabs_pos_eq L) by exact L0. apply Rsqr_le_abs_0. unfold Rsqr. rewrite LL.
    pose proof (sin2_cos2 (ph n)) as Y. unfold Rsqr in Y. set (c := cos (ph n)) in *. set (s := sin (ph n)) in *. clearbody c s.
    assert (Z1 : (0 <= (re * s + im * c) * (re * s + im * c))%R) by apply Rle_0_sqr.
    assert (Z2 : ((re * c - im * s) * (re * c - im * s) + (re * s + im * c) * (re * s + im * c) = (re * re + im * im) * (s * s + c * c))%R) by ring.
    rewrite Y, Rmult_1_r in Z2. lra. }
  assert (S : (re * re + im * im = sumR N (fun n => a n * (re * cos (ph n) - im * sin (ph n))))%R).
  { rewrite (sumR_ext _ _ (fun n => (re * (a n * cos (ph n)) - im * (a n * sin (ph n)))%R)) by (intros; ring).
    rewrite sumR_minus, !sumR_scal. replace (sumR N (fun k => (a k * cos (ph k))%R)) with re by reflexivity.
    replace (sumR N (fun k => (a k * sin (ph k))%R)) with (- im)%R by (unfold im, dft_im; fold (ph); apply Ropp_involutive). ring. }
  assert (B : (L * L <= sumR N (fun n => Rabs (a n)) * L)%R).
  { rewrite LL, S. eapply Rle_trans; [apply Rle_abs|]. eapply Rle_trans; [apply sumR_abs|]. rewrite <- sumR_scal_r. apply sumR_le. intros n _.
    rewrite Rabs_mult. apply Rmult_le_compat_l; [apply Rabs_pos | apply C]. }
  destruct (Rle_lt_or_eq_dec 0 L L0) as [Lp|Lz].
  - apply (Rmult_le_reg_r L); assumption.
  - rewrite <- Lz. apply sumR_nonneg. intros; apply Rabs_pos.
Qed.

(** windowed values of at most E *)
Lemma windowed_bound a E i : (forall n, 0 <= n < Z.of_nat N -> (Rabs (a n) <= E)%R) ->
  (dft_abs N (fun n => a n * blackman n) i <= 0.42 * INR N * E)%R.
Proof.
  intros H. eapply Rle_trans; [apply dft_bound|]. rewrite <- window_sum, Rmult_comm, <- sumR_scal. apply sumR_le. intros n Hn.
  rewrite Rabs_mult, (Rabs_pos_eq (blackman n)) by (apply window_pos; lia). apply Rmult_le_compat_r; [apply window_pos; lia | apply H, Hn].
Qed.

(** a sine whose frequency is that of number j of the transform *)
Lemma windowed_sine a u j i : 0 <= i <= Z.of_nat N / 2 -> 3 <= j <= Z.of_nat N / 2 - 3 ->
  dft_abs N (fun n => a * sin (2 * PI * IZR j * IZR n / INR N + u) * blackman n)%R i = (Rabs a * (INR N / 2) * Rabs (lobe (i - j)))%R.
Proof.
  intros Hi Hj. pose proof N0 as P.
  assert (Z0 : lobe (j + i) = 0%R) by (unfold lobe; replace (j + i =? 0) with false by lia; replace (Z.abs (j + i) =? 1) with false by lia; replace (Z.abs (j + i) =? 2) with false by lia; reflexivity).
  assert (RE : dft_re N (fun n => a * sin (2 * PI * IZR j * IZR n / INR N + u) * blackman n)%R i = (a * (INR N / 2) * lobe (i - j) * sin u)%R).
  { unfold dft_re. rewrite (sumR_ext _ _ (fun n => (a / 2 * (blackman n * sin (th * IZR (j + i) * IZR n + u)) + a / 2 * (blackman n * sin (th * IZR (j - i) * IZR n + u)))%R)).
    - rewrite sumR_plus, !sumR_scal, !window_sin by lia. rewrite Z0. replace (lobe (j - i)) with (lobe (i - j)) by (rewrite <- lobe_opp; f_equal; lia). field.
    - intros n _. rewrite plus_IZR, minus_IZR.
      replace (th * (IZR j + IZR i) * IZR n + u)%R with (2 * PI * IZR j * IZR n / INR N + u + 2 * PI * IZR i * IZR n / INR N)%R by (unfold th; field; lra).
      replace (th * (IZR j - IZR i) * IZR n + u)%R with (2 * PI * IZR j * IZR n / INR N + u - 2 * PI * IZR i * IZR n / INR N)%R by (unfold th; field; lra).
      rewrite (sin_plus (_ + u)), (sin_minus (_ + u)). field. }
  assert (IM : dft_im N (fun n => a * sin (2 * PI * IZR j * IZR n / INR N + u) * blackman n)%R i = (- (a * (INR N / 2) * lobe (i - j) * cos u))%R).
  { unfold dft_im. f_equal. rewrite (sumR_ext _ _ (fun n => (a / 2 * (blackman n * cos (th * IZR (j - i) * IZR n + u)) - a / 2 * (blackman n * cos (th * IZR (j + i) * IZR n + u)))%R)).
    - rewrite sumR_minus, !sumR_scal, !window_cos by lia. rewrite Z0. replace (lobe (j - i)) with (lobe (i - j)) by (rewrite <- lobe_opp; f_equal; lia). field.
    - intros n _. rewrite plus_IZR, minus_IZR.
      replace (th * (IZR j + IZR i) * IZR n + u)%R with (2 * PI * IZR j * IZR n / INR N + u + 2 * PI * IZR i * IZR n / INR N)%R by (unfold th; field; lra).
      replace (th * (IZR j - IZR i) * IZR n + u)%R with (2 * PI * IZR j * IZR n / INR N + u - 2 * PI * IZR i * IZR n / INR N)%R by (unfold th; field; lra).
      rewrite (cos_plus (_ + u)), (cos_minus (_ + u)). field. }
  unfold dft_abs. rewrite RE, IM. set (v := (a * (INR N / 2) * lobe (i - j))%R).
  replace (v * sin u * (v * sin u) + - (v * cos u) * - (v * cos u))%R with (Rsqr v * (Rsqr (sin u) + Rsqr (cos u)))%R by (unfold Rsqr; ring).
  rewrite sin2_cos2, Rmult_1_r, sqrt_Rsqr_abs. unfold v. rewrite !Rabs_mult. f_equal. f_equal. apply Rabs_pos_eq. lra.
Qed.
End Window.
