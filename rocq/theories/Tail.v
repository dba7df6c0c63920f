(** * Single precision IIR resamplers after the input has fallen silent *)
From Coq Require Import ZArith QArith Qreals Reals List Lia Lra Bool ZifyNat ZifyBool.
From Flocq Require Import Core BinarySingleNaN.
From Interval Require Import Tactic.
From Verif Require Import Arith ArithR ArithF Tables ResamplerModel ResamplerProof ResamplerOk Spec SpecOk SpecR Client Feed Twin
  TablesF TableFacts FloatComm FloatSum FloatFir FloatErr IirReal FloatDrift NanIir FloatIir.
Import ListNotations.
Open Scope Z_scope.

(** ** One step of a section

    E bounds the last two inputs, S + r the state x1 - c y1; r is what is left of louder times *)
Definition eps4 : R := (4 * ulp1)%R.
Definition calm (c E Q : R) : Prop :=
  (0 <= c < 1 /\ 0 <= E /\ 0 <= Q /\ eps4 * (2 * E + ((1 + c) * E + c * Q)) + 101 / 100 * tiny <= (1 - c) * Q)%R.
Definition rest (c E Q : R) : R := ((1 + c) * E + c * Q)%R.

Lemma calm_step (c x x1 y1 : b32) E Q r : calm (val c) E Q -> fin c -> fin x -> fin x1 -> fin y1 ->
  (0 <= r -> Rabs (val x) <= E -> Rabs (val x1) <= E -> Rabs (val x - val y1) <= huge -> 8 * (2 * E + rest (val c) E Q + r) + 8 * tiny <= huge ->
   Rabs (val x1 - val c * val y1) <= rest (val c) E Q + r ->
   let y := b32_plus (b32_mult (b32_minus x y1) c) x1 in
   fin y /\ Rabs (val y) <= (1 + 2 * val c) * E + Q + (1 + eps4) * r /\
   Rabs (val x - val c * val y) <= rest (val c) E Q + val c * (1 + eps4) * r)%R.
Proof.
  intros (Hc & HE & HQ & HP) Fc Fx Fx1 Fy1 Hr Bx Bx1 HD HH Hs y. unfold rest in *.
  set (C := val c) in *. set (X := val x) in *. set (X1 := val x1) in *. set (Y1 := val y1) in *.
  destruct ulp1_small as [U0 U1]. pose proof tiny_pos as T0. unfold eps4 in *.
  assert (CE : (0 <= C * E <= E)%R) by (split; [apply Rmult_le_pos; lra | rewrite <- (Rmult_1_l E) at 2; apply Rmult_le_compat_r; lra]).
  assert (CQ : (0 <= C * Q <= Q)%R) by (split; [apply Rmult_le_pos; lra | rewrite <- (Rmult_1_l Q) at 2; apply Rmult_le_compat_r; lra]).
  set (S := ((1 + C) * E + C * Q)%R) in *. assert (S0 : (0 <= S)%R) by (unfold S; lra).
  set (W := (2 * E + S + r)%R) in *. assert (W0 : (0 <= W)%R) by (unfold W; lra).
  assert (UW : (0 <= ulp1 * W /\ ulp1 * W * 16777216 = W)%R) by (split; [apply Rmult_le_pos; lra | rewrite (Rmult_comm ulp1), Rmult_assoc, U1; lra]).
  assert (UUW : (0 <= ulp1 * (ulp1 * W) /\ ulp1 * (ulp1 * W) * 16777216 = ulp1 * W)%R) by (split; [apply Rmult_le_pos; lra | rewrite (Rmult_comm ulp1 (ulp1 * W)), Rmult_assoc, U1; lra]).
  assert (UT : (0 <= ulp1 * tiny /\ ulp1 * tiny * 16777216 = tiny)%R) by (split; [apply Rmult_le_pos; lra | rewrite (Rmult_comm ulp1), Rmult_assoc, U1; lra]).
  assert (CD : (C * Rabs (X - Y1) <= W)%R).
  { rewrite <- (Rabs_pos_eq C) at 1 by lra. rewrite <- Rabs_mult. replace (C * (X - Y1))%R with (C * X + (- X1 + (X1 - C * Y1)))%R by ring.
    eapply Rle_trans; [apply Rabs_triang|]. pose proof (Rabs_triang (- X1) (X1 - C * Y1)). rewrite Rabs_Ropp in *. rewrite Rabs_mult, (Rabs_pos_eq C) by lra.
    assert (C * Rabs X <= C * E)%R by (apply Rmult_le_compat_l; lra). unfold W. lra. }
  destruct (minus_step x y1 Fx Fy1 HD) as [Fd Ed]. fold X Y1 in Ed. set (d := b32_minus x y1) in *.
  set (D := Rabs (X - Y1)) in *. assert (D0 : (0 <= D)%R) by apply Rabs_pos.
  assert (Bd : (Rabs (val d) <= (1 + ulp1) * D)%R) by (pose proof (abs_near _ _ _ D Ed (Rle_refl _)); lra).
  assert (BdC : (Rabs (val d * C) <= (1 + ulp1) * W)%R).
  { rewrite Rabs_mult, (Rabs_pos_eq C), Rmult_comm by lra. apply Rle_trans with (C * ((1 + ulp1) * D))%R; [apply Rmult_le_compat_l; lra|].
    replace (C * ((1 + ulp1) * D))%R with ((1 + ulp1) * (C * D))%R by ring. apply Rmult_le_compat_l; lra. }
  destruct (mult_step d c Fd Fc) as [Fm Em]; [fold C; lra|]. fold C in Em. set (m := b32_mult d c) in *.
  assert (EmA : (Rabs (val m - C * (X - Y1)) <= (2 + ulp1) * (ulp1 * W) + tiny)%R).
  { replace (val m - C * (X - Y1))%R with ((val m - val d * C) + C * (val d - (X - Y1)))%R by ring.
    eapply Rle_trans; [apply Rabs_triang|]. rewrite (Rabs_mult C), (Rabs_pos_eq C) by lra.
    assert (A1 : (C * Rabs (val d - (X - Y1)) <= ulp1 * W)%R).
    { apply Rle_trans with (C * (ulp1 * D))%R; [apply Rmult_le_compat_l; lra|]. replace (C * (ulp1 * D))%R with (ulp1 * (C * D))%R by ring. apply Rmult_le_compat_l; lra. }
    assert (A2 : (ulp1 * Rabs (val d * C) <= ulp1 * ((1 + ulp1) * W))%R) by (apply Rmult_le_compat_l; lra). lra. }
  assert (Bm : (Rabs (val m + X1) <= W + ((2 + ulp1) * (ulp1 * W) + tiny))%R).
  { replace (val m + X1)%R with ((val m - C * (X - Y1)) + (C * X + (X1 - C * Y1)))%R by ring.
    eapply Rle_trans; [apply Rabs_triang|]. assert (A1 : (Rabs (C * X + (X1 - C * Y1)) <= C * E + (S + r))%R).
    { eapply Rle_trans; [apply Rabs_triang|]. rewrite Rabs_mult, (Rabs_pos_eq C) by lra.
      assert (C * Rabs X <= C * E)%R by (apply Rmult_le_compat_l; lra). lra. }
    unfold W in *. lra. }
  destruct (plus_step m x1 Fm Fx1) as [Fy Ey]; [fold X1; lra|]. fold X1 in Ey. fold y in Fy, Ey.
  assert (Ey' : (Rabs (val y - (val m + X1)) <= ulp1 * (W + ((2 + ulp1) * (ulp1 * W) + tiny)))%R) by (eapply Rle_trans; [exact Ey | apply Rmult_le_compat_l; lra]).
  assert (Er : (Rabs (val y - (C * X + (X1 - C * Y1))) <= (1 - C) * Q + 4 * ulp1 * r)%R).
  { apply Rle_trans with (4 * ulp1 * W + 101 / 100 * tiny)%R.
    - replace (val y - (C * X + (X1 - C * Y1)))%R with ((val y - (val m + X1)) + (val m - C * (X - Y1)))%R by ring.
      eapply Rle_trans; [apply Rabs_triang|].
      assert (UUUW : (ulp1 * (ulp1 * (ulp1 * W)) * 16777216 = ulp1 * (ulp1 * W))%R) by (rewrite (Rmult_comm ulp1 (ulp1 * (ulp1 * W))), Rmult_assoc, U1; lra).
      replace (ulp1 * (W + ((2 + ulp1) * (ulp1 * W) + tiny)))%R with (ulp1 * W + 2 * (ulp1 * (ulp1 * W)) + ulp1 * (ulp1 * (ulp1 * W)) + ulp1 * tiny)%R in Ey' by ring. lra.
    - unfold W. lra. }
  split; [exact Fy|]. split.
  - apply (abs_near _ _ _ (C * E + (S + r))) in Er; [unfold S in *; lra|].
    eapply Rle_trans; [apply Rabs_triang|]. rewrite Rabs_mult, (Rabs_pos_eq C) by lra.
    assert (C * Rabs X <= C * E)%R by (apply Rmult_le_compat_l; lra). lra.
  - replace (X - C * val y)%R with ((1 - C * C) * X + - (C * (X1 - C * Y1) + C * (val y - (C * X + (X1 - C * Y1)))))%R by ring.
    assert (C2 : (0 <= 1 - C * C)%R) by (assert (C * C <= 1 * 1)%R by (apply Rmult_le_compat; lra); lra).
    eapply Rle_trans; [apply Rabs_triang|]. rewrite Rabs_Ropp, Rabs_mult, (Rabs_pos_eq _ C2).
    assert (A1 : ((1 - C * C) * Rabs X <= (1 - C * C) * E)%R) by (apply Rmult_le_compat_l; lra).
    assert (A2 : (Rabs (C * (X1 - C * Y1) + C * (val y - (C * X + (X1 - C * Y1)))) <= C * (S + r) + C * ((1 - C) * Q + 4 * ulp1 * r))%R).
    { eapply Rle_trans; [apply Rabs_triang|]. rewrite !Rabs_mult, (Rabs_pos_eq C) by lra.
      apply Rplus_le_compat; apply Rmult_le_compat_l; lra. }
    unfold S in *. lra.
Qed.

(** ** Signals that are at most B, and at most E from sample N on *)
Definition fades (B : R) (N : Z) (E : R) (x : list F32) : Prop :=
  forall k, 0 <= k < size x -> fin (smp x k : b32) /\ (Rabs (val (smp x k)) <= B)%R /\ (N <= k -> (Rabs (val (smp x k)) <= E)%R).
Lemma fades_more B B' N N' E E' x : fades B N E x -> (B <= B')%R -> N <= N' -> (E <= E')%R -> fades B' N' E' x.
Proof. intros H HB HN HE k Hk. destruct (H k Hk) as (F & H1 & H2). split; [exact F|]. split; [lra|]. intros Q. specialize (H2 ltac:(lia)). lra. Qed.

Lemma smp_allpass_rec (c : F32) x k : 0 <= k < size x ->
  smp (allpass (A := F32) c x) k = b32_plus (b32_mult (b32_minus (smp x k) (smp (allpass (A := F32) c x) (k - 1))) c) (smp x (k - 1)).
Proof.
  intros Hk. unfold size in Hk. rewrite (smp_nth (allpass (A := F32) c x) k), (smp_nth x k) by lia. unfold allpass at 1. rewrite allpass_from_nth by lia. fold (allpass (A := F32) c x).
  destruct (Z.to_nat k) as [|n] eqn:En.
  - replace (k - 1) with (-1) by lia. rewrite !(smp_neg) by lia. reflexivity.
  - rewrite !(smp_nth) by lia. replace (Z.to_nat (k - 1)) with n by lia. reflexivity.
Qed.

Lemma bounded_near B x : Forall (fun v : F32 => fin (v : b32) /\ (Rabs (val v) <= B)%R) x -> Forall2 (near B 0) x (vals x).
Proof.
  induction 1 as [|v x [F H] _ IH]; constructor; [|exact IH]. split; [exact F|]. split; [exact H|].
  change (Rabs (val v - val v) <= 0)%R. rewrite Rminus_eq_0, Rabs_R0. lra.
Qed.
Lemma fades_bounded B N E x : fades B N E x -> Forall (fun v : F32 => fin (v : b32) /\ (Rabs (val v) <= B)%R) x.
Proof.
  intros H. apply Forall_forall. intros v Hv. apply (In_nth _ _ (@f0 F32)) in Hv. destruct Hv as (n & Hn & E0).
  destruct (H (Z.of_nat n)) as (F & H1 & _); [unfold size; lia|]. rewrite (smp_nth), Nat2Z.id, E0 in F, H1 by lia. now split.
Qed.

Lemma exp_INR a n : (exp a ^ n = exp (INR n * a))%R.
Proof. induction n as [|n IH]; [cbn; now rewrite Rmult_0_l, exp_0|]. cbn [pow]. rewrite IH, S_INR, <- exp_plus. f_equal. ring. Qed.
Lemma exp_le a b : (a <= b)%R -> (exp a <= exp b)%R.
Proof. intros [H| ->]; [left; now apply exp_increasing | right; reflexivity]. Qed.

(** what is left after some time *)
Lemma left_over q (n : nat) Y : (0 <= q < 1)%R -> (188 <= INR n * (1 - q))%R -> (0 <= Y <= high)%R -> forall k, (n <= k)%nat -> (0 <= q ^ k * Y <= tiny)%R.
Proof.
  intros Hq Hn HY k Hk. split; [apply Rmult_le_pos; [apply pow_le; lra | lra]|].
  assert (Q1 : (q ^ k <= q ^ n)%R).
  { replace k with (n + (k - n))%nat by lia. rewrite pow_add. rewrite <- (Rmult_1_r (q ^ n)) at 2. apply Rmult_le_compat_l; [apply pow_le; lra|].
    rewrite <- (pow1 (k - n)). apply pow_incr. lra. }
  assert (Q2 : (q ^ n <= exp (-188))%R).
  { apply Rle_trans with (exp (- (1 - q)) ^ n)%R.
    - apply pow_incr. split; [lra|]. destruct (Req_dec (1 - q) 0) as [Z|Z]; [lra|]. pose proof (exp_ineq1 (- (1 - q)) ltac:(lra)). lra.
    - rewrite exp_INR. apply exp_le. lra. }
  assert (Q3 : (exp (-188) * high <= tiny)%R).
  { unfold high, tiny. replace (bpow radix2 (-150)) with (bpow radix2 (-270) * bpow radix2 120)%R by (rewrite <- bpow_plus; reflexivity).
    apply Rmult_le_compat_r; [apply bpow_ge_0|]. change (bpow radix2 (-270)) with (/ IZR (2 ^ 270))%R. interval with (i_prec 60). }
  apply Rle_trans with (exp (-188) * high)%R; [|exact Q3]. apply Rmult_le_compat; try lra. apply pow_le; lra.
Qed.

(** ** One section *)
Definition lift (c : R) : R := (102 / 100 / (1 - c) + 1002 / 1000)%R.
Definition allowance (c E : R) : R := ((102 / 100 * tiny + E / 20000) / (1 - c))%R.
Lemma allowance_ok c E : (0 <= c < 95 / 100)%R -> (0 <= E)%R ->
  calm c E (allowance c E) /\ (allowance c E <= 102 / 100 / (1 - c) * tiny + E / 1000)%R /\ (allowance c E <= 21 * tiny + E / 1000)%R.
Proof.
  intros Hc HE. pose proof tiny_pos as T0. destruct ulp1_small as [U0 U1].
  assert (I : (0 < / (1 - c) <= 20)%R).
  { split; [apply Rinv_0_lt_compat; lra|]. replace 20%R with (/ (1 / 20))%R by lra. apply Rinv_le_contravar; lra. }
  assert (A1 : (allowance c E = / (1 - c) * (102 / 100 * tiny) + / (1 - c) * (E / 20000))%R) by (unfold allowance, Rdiv; ring).
  assert (A2 : (0 <= / (1 - c) * (E / 20000) <= 20 * (E / 20000))%R) by (split; [apply Rmult_le_pos; lra | apply Rmult_le_compat_r; lra]).
  assert (A3 : (0 <= / (1 - c) * (102 / 100 * tiny) <= 20 * (102 / 100 * tiny))%R) by (split; [apply Rmult_le_pos; lra | apply Rmult_le_compat_r; lra]).
  assert (A4 : (102 / 100 / (1 - c) * tiny = / (1 - c) * (102 / 100 * tiny))%R) by (unfold Rdiv; ring).
  assert (Q0 : (0 <= allowance c E)%R) by lra.
  split; [|split; lra]. repeat split; try lra.
  replace ((1 - c) * allowance c E)%R with (102 / 100 * tiny + E / 20000)%R by (unfold allowance; field; lra).
  assert (CE : (0 <= c * E <= E)%R) by (split; [apply Rmult_le_pos; lra | rewrite <- (Rmult_1_l E) at 2; apply Rmult_le_compat_r; lra]).
  assert (CQ : (0 <= c * allowance c E <= allowance c E)%R) by (split; [apply Rmult_le_pos; lra | rewrite <- (Rmult_1_l (allowance c E)) at 2; apply Rmult_le_compat_r; lra]).
  unfold eps4. apply Rle_trans with (4 * ulp1 * (5 * E + 21 * tiny) + 101 / 100 * tiny)%R; [apply Rplus_le_compat_r, Rmult_le_compat_l; lra|].
  assert (UE : (ulp1 * E * 16777216 = E)%R) by (rewrite (Rmult_comm ulp1), Rmult_assoc, U1; lra).
  assert (UT : (ulp1 * tiny * 16777216 = tiny)%R) by (rewrite (Rmult_comm ulp1), Rmult_assoc, U1; lra). lra.
Qed.

Lemma section_fades (c : b32) B N E n x : fin c -> (0 <= val c < 95 / 100)%R -> (low <= B)%R -> (amp (val c) * B <= high)%R -> (0 <= E <= 1)%R -> 0 <= N ->
  (188 <= INR n * (1 - val c * (1 + eps4)))%R -> fades B N E x ->
  fades (amp (val c) * B) (N + 1 + Z.of_nat n) (amp (val c) * E + lift (val c) * tiny) (allpass (A := F32) c x).
Proof.
  intros Fc Hc HB HH HE HN Hn H. set (C := val c) in *.
  pose proof tiny_pos as T0. destruct ulp1_small as [U0 U1]. destruct low_tiny as [L0 _].
  assert (HG : (64 * high = huge)%R) by (unfold high, huge; change 126 with (6 + 120); rewrite bpow_plus; reflexivity).
  assert (T1 : (tiny <= 1)%R) by (unfold tiny; replace 1%R with (bpow radix2 0) by reflexivity; apply bpow_le; lia).
  assert (H1 : (1024 <= high)%R) by (unfold high; replace 1024%R with (bpow radix2 10) by reflexivity; apply bpow_le; lia).
  destruct (allowance_ok C E Hc ltac:(lra)) as (HQ & Q1 & Q2). set (Q := allowance C E) in *. pose proof HQ as (_ & _ & Q0 & _).
  set (Y := (amp C * B)%R) in *. pose proof (amp_ge C ltac:(lra)) as A1.
  assert (AB : (B <= Y)%R) by (unfold Y; assert (1 * B <= amp C * B)%R by (apply Rmult_le_compat_r; lra); lra).
  pose proof (fades_bounded _ _ _ _ H) as HF.
  pose proof (allpass_near c B _ _ 0 x (vals x) (section_ok C B Hc HB HH) Fc ltac:(lra) (bounded_near _ _ HF)) as NR. fold C Y in NR.
  set (y := allpass (A := F32) c x) in *.
  assert (Sz : size y = size x) by (unfold y, size; now rewrite allpass_length).
  assert (By : forall k, 0 <= k < size x -> fin (smp y k : b32) /\ (Rabs (val (smp y k)) <= Y)%R).
  { intros k Hk. rewrite <- Sz in Hk. destruct (near_smp _ _ _ _ k NR Hk) as (F & P & _). now split. }
  set (q := (C * (1 + eps4))%R) in *.
  assert (E4 : (0 < eps4 < 1 / 1000)%R) by (unfold eps4; lra).
  assert (C4 : (0 <= C * eps4 <= 1 * eps4)%R) by (split; [apply Rmult_le_pos | apply Rmult_le_compat_r]; lra).
  assert (Hq : (0 <= q < 1)%R) by (unfold q; lra).
  assert (CE : (0 <= C * E <= 1 * E)%R) by (split; [apply Rmult_le_pos | apply Rmult_le_compat_r]; lra).
  assert (CQ : (0 <= C * Q <= 1 * Q)%R) by (split; [apply Rmult_le_pos | apply Rmult_le_compat_r]; lra).
  assert (CY : (0 <= C * Y <= 1 * Y)%R) by (split; [apply Rmult_le_pos | apply Rmult_le_compat_r]; lra).
  assert (RS : (0 <= rest C E Q <= 2 * E + Q /\ E <= rest C E Q)%R) by (unfold rest; lra).
  assert (P : forall j : nat, (0 <= q ^ j * Y <= Y)%R).
  { intros j. split; [apply Rmult_le_pos; [apply pow_le; lra | lra]|]. rewrite <- (Rmult_1_l Y) at 2. apply Rmult_le_compat_r; [lra|]. rewrite <- (pow1 j). apply pow_incr. lra. }
  assert (St : forall j : nat, N + Z.of_nat j < size x -> (Rabs (val (smp x (N + Z.of_nat j)) - C * val (smp y (N + Z.of_nat j))) <= rest C E Q + q ^ j * Y)%R ->
    N + Z.of_nat j + 1 < size x ->
    fin (smp y (N + Z.of_nat j + 1) : b32) /\ (Rabs (val (smp y (N + Z.of_nat j + 1))) <= (1 + 2 * C) * E + Q + (1 + eps4) * (q ^ j * Y))%R /\
    (Rabs (val (smp x (N + Z.of_nat j + 1)) - C * val (smp y (N + Z.of_nat j + 1))) <= rest C E Q + C * (1 + eps4) * (q ^ j * Y))%R).
  { intros j Hj HS Hj1. set (k := N + Z.of_nat j) in *. assert (K0 : 0 <= k) by lia.
    destruct (H k ltac:(lia)) as (F1 & B1 & E1). specialize (E1 ltac:(lia)). destruct (H (k + 1) ltac:(lia)) as (F0 & B0 & E0). specialize (E0 ltac:(lia)).
    destruct (By k ltac:(lia)) as [Fy Yy]. unfold y. rewrite (smp_allpass_rec c x (k + 1)) by lia. fold y. replace (k + 1 - 1) with k by lia.
    specialize (P j). apply (calm_step c _ _ _ E Q (q ^ j * Y)%R HQ Fc F0 F1 Fy); try (fold C; lra).
    unfold Rminus. eapply Rle_trans; [apply Rabs_triang|]. rewrite Rabs_Ropp. lra. }
  assert (Hs : forall j : nat, N + Z.of_nat j < size x -> (Rabs (val (smp x (N + Z.of_nat j)) - C * val (smp y (N + Z.of_nat j))) <= rest C E Q + q ^ j * Y)%R).
  { induction j as [|j IH]; intros Hj.
    - destruct (H (N + Z.of_nat 0) ltac:(lia)) as (_ & _ & E0). specialize (E0 ltac:(lia)). destruct (By (N + Z.of_nat 0) ltac:(lia)) as [_ Yy].
      unfold Rminus. eapply Rle_trans; [apply Rabs_triang|]. rewrite Rabs_Ropp, Rabs_mult, (Rabs_pos_eq C) by lra.
      assert (C * Rabs (val (smp y (N + Z.of_nat 0))) <= C * Y)%R by (apply Rmult_le_compat_l; lra). rewrite pow_O. lra.
    - destruct (St j ltac:(lia) (IH ltac:(lia)) ltac:(lia)) as (_ & _ & S1). replace (N + Z.of_nat (S j)) with (N + Z.of_nat j + 1) by lia.
      eapply Rle_trans; [exact S1|]. right. cbn [pow]. unfold q. ring. }
  intros k Hk. rewrite Sz in Hk. destruct (By k Hk) as [Fy Yy]. split; [exact Fy|]. split; [exact Yy|]. intros Hk2.
  pose (j := Z.to_nat (k - 1 - N)). assert (Ej : k = N + Z.of_nat j + 1) by (unfold j; lia).
  destruct (St j ltac:(lia) (Hs j ltac:(lia)) ltac:(lia)) as (_ & S & _). rewrite <- Ej in S.
  pose proof (left_over q n Y Hq Hn ltac:(lra) j ltac:(unfold j; lia)) as L.
  assert (L2 : ((1 + eps4) * (q ^ j * Y) <= 1001 / 1000 * tiny)%R) by (apply Rmult_le_compat; lra).
  unfold lift, amp. lra.
Qed.

(** ** Chains of sections *)
(** 188 / (1 - c), rounded up, for the coefficient i * 2^-48 *)
Definition one_tail (i : Z) : nat := Z.to_nat (190 * 2 ^ 48 / (2 ^ 48 - i) + 1).
Fixpoint tails (l : list Z) : Z := match l with [] => 0 | i :: r => 1 + Z.of_nat (one_tail i) + tails r end.
Fixpoint lifts (cs : list R) : R := match cs with [] => 0 | c :: r => amps r * lift c + lifts r end%R.

Lemma coef_48 i : (coef i = IZR i / 281474976710656)%R.
Proof. unfold coef, unit_of. change (IZR (2 ^ 48)) with 281474976710656%R. raops. unfold Rdiv. reflexivity. Qed.
Lemma one_tail_ok i : (0 <= coef i < 95 / 100)%R -> (188 <= INR (one_tail i) * (1 - coef i * (1 + eps4)))%R.
Proof.
  intros Hc. rewrite coef_48 in *.
  assert (Hi : 0 <= i /\ 100 * i < 95 * 281474976710656).
  { split; [apply le_IZR; lra|]. apply lt_IZR. rewrite !mult_IZR. lra. }
  unfold one_tail. change (2 ^ 48) with 281474976710656. set (D := 281474976710656 - i).
  pose proof (Z.div_mod (190 * 281474976710656) D ltac:(lia)) as DM. pose proof (Z.mod_pos_bound (190 * 281474976710656) D ltac:(lia)) as MB.
  set (n := 190 * 281474976710656 / D) in *. assert (N0 : 0 <= n <= 3801) by (unfold D in *; nia).
  rewrite INR_IZR_INZ, Z2Nat.id by lia.
  assert (L : 190 * 281474976710656 <= (n + 1) * D) by lia. apply IZR_le in L. rewrite !mult_IZR in L. unfold D in L. rewrite minus_IZR in L.
  assert (N1 : (0 <= IZR (n + 1) <= 3802)%R) by (split; apply IZR_le; lia).
  set (m := IZR (n + 1)) in *. set (C := (IZR i / 281474976710656)%R) in *.
  assert (LC : (190 <= m * (1 - C))%R) by (unfold C; lra).
  assert (E4 : (0 < eps4 < 1 / 1000000)%R) by (destruct ulp1_small; unfold eps4; lra).
  assert (S : (0 <= m * (C * eps4) <= 3802 * (1 * (1 / 1000000)))%R).
  { split; [apply Rmult_le_pos; [lra | apply Rmult_le_pos; lra]|]. apply Rmult_le_compat; try lra; [apply Rmult_le_pos; lra | apply Rmult_le_compat; lra]. }
  replace (m * (1 - C * (1 + eps4)))%R with (m * (1 - C) - m * (C * eps4))%R by ring. lra.
Qed.

Lemma lift_ge c : (0 <= c < 95 / 100)%R -> (0 <= lift c <= 25)%R.
Proof.
  intros Hc. unfold lift, Rdiv. assert (I : (0 < / (1 - c) <= 20)%R).
  { split; [apply Rinv_0_lt_compat; lra|]. replace 20%R with (/ (1 / 20))%R by lra. apply Rinv_le_contravar; lra. }
  lra.
Qed.
Lemma lifts_ge cs : Forall (fun c => 0 <= c < 95 / 100)%R cs -> (0 <= lifts cs)%R.
Proof.
  induction 1 as [|c cs Hc Hcs IH]; cbn [lifts]; [lra|]. pose proof (amps_ge _ Hcs). pose proof (lift_ge c Hc).
  assert (0 <= amps cs * lift c)%R by (apply Rmult_le_pos; lra). lra.
Qed.
Lemma chain_fades (cs : list F32) (l : list Z) : Forall2 is_coef cs (map coef l) -> Forall (fun c : R => 0 <= c < 95 / 100)%R (map coef l) ->
  forall (x : list F32) B N E, (low <= B)%R -> (amps (map coef l) * B <= high)%R -> (0 <= E)%R -> (amps (map coef l) * E + lifts (map coef l) * tiny <= 1)%R -> 0 <= N ->
  fades B N E x ->
  fades (amps (map coef l) * B) (N + tails l) (amps (map coef l) * E + lifts (map coef l) * tiny) (chain (A := F32) cs x).
Proof.
  revert cs. induction l as [|i l IH]; intros cs HC FC x B N E HB HH HE HL HN H.
  - inversion HC; subst. cbn [map amps lifts tails chain fold_left]. apply (fades_more _ _ _ _ _ _ _ H); try lra; lia.
  - cbn [map] in HC, FC. inversion HC as [|c C cs' Cs' [Fc Ec] HC' E1 E2]; subst. inversion FC as [|? ? Hc FC']; subst.
    cbn [map amps lifts tails] in *. pose proof tiny_pos as T0. destruct low_tiny as [L0 _].
    assert (Tn : (188 <= INR (one_tail i) * (1 - val c * (1 + eps4)))%R) by (rewrite Ec; now apply one_tail_ok).
    rewrite <- Ec in HH, HL, Hc |- *.
    pose proof (amp_ge (val c) ltac:(lra)) as A1. pose proof (amps_ge _ FC') as A2. pose proof (lift_ge _ Hc) as A3. pose proof (lifts_ge _ FC') as A4.
    set (a := amp (val c)) in *. set (A := amps (map coef l)) in *. set (L := lifts (map coef l)) in *.
    change (1 <= A)%R in A2. change (0 <= L)%R in A4.
    assert (AB : (1 * B <= a * B)%R) by (apply Rmult_le_compat_r; lra).
    assert (AH : (1 * (a * B) <= A * (a * B))%R) by (apply Rmult_le_compat_r; lra).
    assert (LT : (0 <= lift (val c) * tiny /\ 0 <= L * tiny)%R) by (split; apply Rmult_le_pos; lra).
    assert (aE : (0 <= a * E /\ 1 * E <= a * E)%R) by (split; [apply Rmult_le_pos; lra | apply Rmult_le_compat_r; lra]).
    assert (AE : (1 * (a * E + lift (val c) * tiny) <= A * (a * E + lift (val c) * tiny))%R) by (apply Rmult_le_compat_r; lra).
    assert (X1 : (A * (a * E + lift (val c) * tiny) + L * tiny = A * a * E + (A * lift (val c) + L) * tiny)%R) by ring.
    pose proof (section_fades c B N E (one_tail i) x Fc Hc HB ltac:(fold a; lra) ltac:(lra) HN Tn H) as S1. fold a in S1.
    change (chain (A := F32) (c :: cs') x) with (chain (A := F32) cs' (allpass (A := F32) c x)).
    refine (fades_more _ _ _ _ _ _ _ (IH cs' HC' FC' _ _ _ _ _ _ _ _ _ S1) _ _ _); fold A; fold L; try lra; try lia.
Qed.

(** ** Stages *)
Definition L1 (s p : Z) : Z :=
  match s, p with
  | 2, 8 => 14 | 2, 12 => 29 | 2, 16 => 33 | 2, 20 => 64 | 2, 24 => 103
  | 4, 8 => 6 | 4, 12 => 11 | 4, 16 => 11 | 4, 20 => 13 | 4, 24 => 22
  | 8, 8 => 5 | 8, 12 => 6 | 8, 16 => 6 | 8, 20 => 11 | 8, 24 => 11
  | _, _ => 0
  end.
Definition T1 (s p : Z) : Z :=
  match s, p with
  | 2, 8 => 1173 | 2, 12 => 1985 | 2, 16 => 2314 | 2, 20 => 3190 | 2, 24 => 3735
  | 4, 8 => 437 | 4, 12 => 776 | 4, 16 => 776 | 4, 20 => 934 | 4, 24 => 1291
  | 8, 8 => 290 | 8, 12 => 411 | 8, 16 => 411 | 8, 20 => 736 | 8, 24 => 736
  | _, _ => 0
  end.
Definition liftQ (c : Q) : Q := (102 # 100) / (1 - c) + (1002 # 1000).
Fixpoint liftsQ (cs : list Q) : Q := match cs with [] => 0 | c :: r => ampsQ r * liftQ c + liftsQ r end.
Lemma liftQ_R c : (Q2R c < 1)%R -> Q2R (liftQ c) = lift (Q2R c).
Proof.
  intros Hc. unfold liftQ, lift. rewrite Q2R_plus, Q2R_div.
  - rewrite Q2R_minus, Q2R_1. assert (Q2R (102 # 100) = (102 / 100)%R /\ Q2R (1002 # 1000) = (1002 / 1000)%R) as [-> ->] by (unfold Q2R; cbn [Qnum Qden]; lra). reflexivity.
  - intros E. apply Qeq_eqR in E. rewrite Q2R_minus, Q2R_1 in E. unfold Q2R at 2 in E. cbn in E. lra.
Qed.
Lemma liftsQ_R cs : Forall (fun c => 0 <= c < 95 / 100)%R (map coef cs) -> Q2R (liftsQ (map coefQ cs)) = lifts (map coef cs).
Proof.
  induction cs as [|n cs IH]; intros F; cbn [map liftsQ lifts].
  - unfold Q2R; cbn; lra.
  - cbn [map] in F. inversion F as [|? ? Hc F']; subst.
    assert (Hn : (Q2R (coefQ n) < 1)%R) by (rewrite coefQ_R; change (T RA) with R in *; lra).
    destruct (chainQ_R cs F') as [IA _]. rewrite Q2R_plus, !Q2R_mult, liftQ_R, IA, (IH F'), coefQ_R by exact Hn. reflexivity.
Qed.
Definition tail_ok (s p : Z) (l : list Z) : bool :=
  Qle_bool ((1001 # 1000) * liftsQ (map coefQ l) + 2) (L1 s p # 1) && (tails l <=? T1 s p).
Lemma tails_ok : forallb (fun s => forallb (fun p => tail_ok s p (evens (iir_ints s p)) && tail_ok s p (odds (iir_ints s p))) [8; 12; 16; 20; 24]) stages = true.
Proof. vm_compute. reflexivity. Qed.
Lemma tail_facts s p l : branch_ok s p l = true -> tail_ok s p l = true -> let C := map coef l in
  Forall (fun c => 0 <= c < 95 / 100)%R C /\ (1001 / 1000 * amps C <= Kr s p)%R /\ (1001 / 1000 * lifts C + 2 <= IZR (L1 s p))%R /\ tails l <= T1 s p.
Proof.
  intros H1 H2 C. destruct (branch_facts s p l H1) as (F & K & _). fold C in F, K. split; [exact F|]. split; [exact K|].
  unfold tail_ok in H2. apply andb_prop in H2 as [H2 H3]. split; [|lia].
  apply Qle_bool_iff, Qle_Rle in H2. rewrite Q2R_plus, Q2R_mult, liftsQ_R in H2 by exact F. fold C in H2. unfold Q2R in H2. cbn [Qnum Qden] in H2. lra.
Qed.

(** the mean of two samples *)
Lemma mean_small (u v : b32) E : (0 <= E <= 1)%R -> fin u -> fin v -> (Rabs (val u) <= E)%R -> (Rabs (val v) <= E)%R ->
  (Rabs (val (b32_mult (@fhalf F32) (b32_plus u v))) <= 1001 / 1000 * E + tiny)%R.
Proof.
  intros HE Fu Fv Bu Bv. destruct ulp1_small as [U0 U1]. pose proof tiny_pos.
  assert (H1 : (1024 <= huge)%R) by (unfold huge; replace 1024%R with (bpow radix2 10) by reflexivity; apply bpow_le; lia).
  assert (S : (Rabs (val u + val v) <= 2 * E)%R) by (eapply Rle_trans; [apply Rabs_triang | lra]).
  destruct (plus_step u v Fu Fv ltac:(lra)) as [Fs Es]. set (s := b32_plus u v) in *.
  assert (UE : (0 <= ulp1 * E /\ ulp1 * E * 16777216 = E)%R) by (split; [apply Rmult_le_pos; lra | rewrite (Rmult_comm ulp1), Rmult_assoc, U1; lra]).
  assert (Es' : (Rabs (val s - (val u + val v)) <= 2 * (ulp1 * E))%R) by (eapply Rle_trans; [exact Es|]; assert (ulp1 * Rabs (val u + val v) <= ulp1 * (2 * E))%R by (apply Rmult_le_compat_l; lra); lra).
  assert (Bs : (Rabs (val s) <= 2 * E + 2 * (ulp1 * E))%R) by exact (abs_near _ _ _ _ Es' S).
  assert (Fh : fin (@fhalf F32)) by reflexivity.
  assert (Bh : (Rabs (val (@fhalf F32) * val s) <= E + ulp1 * E)%R) by (rewrite Rabs_mult, half_val, Rabs_pos_eq by lra; lra).
  destruct (mult_step (@fhalf F32) s Fh Fs ltac:(lra)) as [Fm Em].
  assert (Em' : (ulp1 * Rabs (val (@fhalf F32) * val s) <= ulp1 * (E + ulp1 * E))%R) by (apply Rmult_le_compat_l; lra).
  assert (UUE : (ulp1 * (ulp1 * E) * 16777216 = ulp1 * E)%R) by (rewrite (Rmult_comm ulp1 (ulp1 * E)), Rmult_assoc, U1; lra).
  pose proof (abs_near _ _ _ _ Em Bh). lra.
Qed.

Lemma stage_fades md p vec s (x : list F32) B N E : stage_no s -> iir_prec p -> padded vec s p = false ->
  (low <= B)%R -> (Kr s p * B <= high / 4)%R -> (0 <= E)%R -> (Kr s p * E + IZR (L1 s p) * tiny <= 1)%R -> 0 <= N ->
  (md = DOWN -> Z.even (size (A := F32) x) = true) -> fades B N E x ->
  fades (Kr s p * B) (match md with UP => 2 * (N + T1 s p) | DOWN => (N + 1) / 2 + T1 s p end) (Kr s p * E + IZR (L1 s p) * tiny)
    (stage (A := F32) FILTER_IIR md p vec s x).
Proof.
  intros Hs Hp HV HB HH HE HL HN Hev H.
  pose proof branches_ok as BO. rewrite forallb_forall in BO. specialize (BO s ltac:(unfold stages; cbn; unfold stage_no in Hs; lia)).
  rewrite forallb_forall in BO. specialize (BO p ltac:(cbn; unfold iir_prec in Hp; lia)). apply andb_prop in BO as [BE BO].
  pose proof tails_ok as TO. rewrite forallb_forall in TO. specialize (TO s ltac:(unfold stages; cbn; unfold stage_no in Hs; lia)).
  rewrite forallb_forall in TO. specialize (TO p ltac:(cbn; unfold iir_prec in Hp; lia)). apply andb_prop in TO as [TE TO].
  destruct (tail_facts _ _ _ BE TE) as (FE & KE & LE & NE). destruct (tail_facts _ _ _ BO TO) as (FO & KO & LO & NO).
  pose proof (iir_coeffs_F md s p Hs Hp) as FC. destruct (forall2_evens is_coef _ _ _ (le_n _) FC) as [CE CO]. destruct (evens_map coef _ (iir_ints s p) (le_n _)) as [M1 M2].
  apply (fun E => eq_ind _ (fun l : list R => Forall2 is_coef (evens (coeffs (A := F32) FILTER_IIR md p s)) l) CE _ E) in M1 as CE'.
  apply (fun E => eq_ind _ (fun l : list R => Forall2 is_coef (odds (coeffs (A := F32) FILTER_IIR md p s)) l) CO _ E) in M2 as CO'.
  clear CE CO. rename CE' into CE, CO' into CO.
  assert (Len : length (coeffs (A := F32) FILTER_IIR md p s) = length (iir_ints s p)) by exact (eq_trans (f2_length FC) (map_length _ _)).
  set (cs := coeffs (A := F32) FILTER_IIR md p s) in *.
  assert (EU : vec = true -> even_up cs = cs).
  { intros ->. unfold padded in HV. cbn [andb] in HV. unfold even_up. now rewrite Len, HV. }
  pose proof tiny_pos as T0. destruct low_tiny as [L0 _].
  assert (Ch : forall (ks : list F32) l x N, Forall2 is_coef ks (map coef l) -> Forall (fun c : R => 0 <= c < 95 / 100)%R (map coef l) ->
    (1001 / 1000 * amps (map coef l) <= Kr s p)%R -> (1001 / 1000 * lifts (map coef l) + 2 <= IZR (L1 s p))%R -> tails l <= T1 s p -> 0 <= N ->
    fades B N E x -> fades (1000 / 1001 * Kr s p * B) (N + T1 s p) (1000 / 1001 * (Kr s p * E) + 1000 / 1001 * ((IZR (L1 s p) - 2) * tiny)) (chain (A := F32) ks x)).
  { clear - HB HH HE HL T0 L0. intros ks l x N HC FC K L NT HN H. pose proof (amps_ge _ FC) as A1. pose proof (lifts_ge _ FC) as A2.
    assert (A1' : (1 <= amps (map coef l))%R) by exact A1. assert (A2' : (0 <= lifts (map coef l))%R) by exact A2. clear A1 A2.
    set (a := amps (map coef l)) in *. set (f := lifts (map coef l)) in *.
    assert (X1 : (a * B <= 1000 / 1001 * Kr s p * B)%R) by (apply Rmult_le_compat_r; lra).
    assert (X2 : (a * E <= 1000 / 1001 * Kr s p * E)%R) by (apply Rmult_le_compat_r; lra).
    assert (X3 : (f * tiny <= 1000 / 1001 * (IZR (L1 s p) - 2) * tiny)%R) by (apply Rmult_le_compat_r; lra).
    assert (X4 : (0 <= Kr s p * E /\ 0 <= Kr s p * B)%R) by (split; apply Rmult_le_pos; lra).
    assert (X5 : (0 <= (IZR (L1 s p) - 2) * tiny)%R) by (apply Rmult_le_pos; lra).
    assert (Hi : (0 <= high)%R) by (unfold high; apply bpow_ge_0).
    refine (fades_more _ _ _ _ _ _ _ (chain_fades ks l HC FC x B N E HB _ HE _ HN H) _ _ _); fold a; fold f; try lra; lia. }
  assert (K1 : (1 <= Kr s p)%R) by (pose proof (amps_ge _ FE) as A1; assert (A1' : (1 <= amps (map coef (evens (iir_ints s p))))%R) by exact A1; lra).
  assert (L2 : (2 <= IZR (L1 s p))%R) by (pose proof (lifts_ge _ FE) as A1; assert (A1' : (0 <= lifts (map coef (evens (iir_ints s p))))%R) by exact A1; lra).
  assert (KX : (0 <= Kr s p * E /\ 0 <= Kr s p * B)%R) by (split; apply Rmult_le_pos; lra).
  assert (LX : (0 <= (IZR (L1 s p) - 2) * tiny)%R) by (apply Rmult_le_pos; lra).
  assert (TP : 0 <= T1 s p) by (destruct Hs as [->|[->| ->]], Hp as [->|[->|[->|[->| ->]]]]; cbn; lia).
  assert (B1 : (low <= 1000 / 1001 * Kr s p * B)%R).
  { assert (1001 / 1000 * B <= Kr s p * B)%R; [|lra]. apply Rmult_le_compat_r; [lra|].
    pose proof (amps_ge _ FE) as A1; assert (A1' : (1 <= amps (map coef (evens (iir_ints s p))))%R) by exact A1; lra. }
  unfold stage. fold cs. destruct md.
  - match goal with |- fades _ _ _ ?t => replace t with (iir_up2 cs x) by (destruct vec; [unfold iir_up2_sse; rewrite EU by reflexivity|]; reflexivity) end.
    pose proof (Ch _ _ x N CE FE KE LE NE HN H) as D1. pose proof (Ch _ _ x N CO FO KO LO NO HN H) as D2. unfold iir_up2.
    assert (Sz : size (chain (A := F32) (evens cs) x) = size x /\ size (chain (A := F32) (odds cs) x) = size x) by (unfold size; now rewrite !chain_length).
    intros k Hk. assert (Hk' : 0 <= k / 2 < size x).
    { assert (SW : size (weave (chain (A := F32) (evens cs) x) (chain (A := F32) (odds cs) x)) = 2 * size x) by (unfold size; rewrite weave_length by (now rewrite !chain_length); rewrite chain_length; lia).
      assert (Hk2 : 0 <= k < 2 * size x) by (rewrite <- SW; exact Hk). pose proof (Z.div_mod k 2 ltac:(lia)). pose proof (Z.mod_pos_bound k 2 ltac:(lia)). lia. }
    rewrite weave_smp' by (rewrite ?chain_length; lia).
    destruct (D1 (k / 2)) as (F1 & G1 & S1); [lia|]. destruct (D2 (k / 2)) as (F2 & G2 & S2); [lia|].
    assert (KN : 2 * (N + T1 s p) <= k -> N + T1 s p <= k / 2) by (intros Q; pose proof (Z.div_mod k 2 ltac:(lia)); pose proof (Z.mod_pos_bound k 2 ltac:(lia)); lia).
    destruct (Z.even k); (split; [assumption|]; split; [lra|]; intros Q; specialize (KN Q)); [specialize (S1 KN) | specialize (S2 KN)]; lra.
  - specialize (Hev eq_refl). apply Z.even_spec in Hev. destruct Hev as [h Eh]. set (N1 := (N + 1) / 2).
    assert (N1' : N <= 2 * N1 /\ 0 <= N1) by (unfold N1; pose proof (Z.div_mod (N + 1) 2 ltac:(lia)); pose proof (Z.mod_pos_bound (N + 1) 2 ltac:(lia)); lia).
    assert (Lx : length x = (2 * Z.to_nat h)%nat) by (unfold size in Eh; lia).
    assert (HEv : fades B N1 E (evens x)).
    { intros k Hk. unfold size in Hk. rewrite evens_length, Lx, Nat.div2_succ_double in Hk. rewrite smp_evens. destruct (H (2 * k)) as (F & G & S); [unfold size; lia|].
      split; [exact F|]. split; [exact G|]. intros Q. apply S. lia. }
    assert (HOd : fades B N1 E (odds x)).
    { intros k Hk. unfold size in Hk. rewrite odds_length, Lx, Nat.div2_double in Hk. rewrite smp_odds. replace (k <? 0) with false by lia. destruct (H (2 * k + 1)) as (F & G & S); [unfold size; lia|].
      split; [exact F|]. split; [exact G|]. intros Q. apply S. lia. }
    pose proof (Ch _ _ _ N1 CE FE KE LE NE ltac:(lia) HOd) as D1. pose proof (Ch _ _ _ N1 CO FO KO LO NO ltac:(lia) HEv) as D2.
    assert (Sm : (if vec then iir_down2_sse cs else iir_down2 cs) x = zip (A := F32) (fun a b => b32_mult (@fhalf F32) (b32_plus a b)) (chain (A := F32) (evens cs) (odds x)) (chain (A := F32) (odds cs) (evens x))).
    { destruct vec; [|reflexivity]. unfold iir_down2_sse. rewrite EU by reflexivity. apply zip_ext. intros a b.
      change (b32_mult (b32_plus b a) (@fhalf F32) = b32_mult (@fhalf F32) (b32_plus a b)). now rewrite b32_mult_comm, (b32_plus_comm b). }
    rewrite Sm. intros k Hk.
    assert (Lz : size (chain (A := F32) (evens cs) (odds x)) = h /\ size (chain (A := F32) (odds cs) (evens x)) = h).
    { unfold size in *. rewrite !chain_length, evens_length, odds_length, Lx, Nat.div2_succ_double, Nat.div2_double. rewrite Lx in Eh. lia. }
    assert (Hk' : 0 <= k < h).
    { unfold size in *. rewrite zip_length in Hk. lia. }
    rewrite zip_smp' by (unfold size in *; lia).
    destruct (D1 k) as (F1 & G1 & S1); [lia|]. destruct (D2 k) as (F2 & G2 & S2); [lia|].
    set (u := smp (chain (A := F32) (evens cs) (odds x)) k) in *. set (v := smp (chain (A := F32) (odds cs) (evens x)) k) in *.
    assert (Nu : forall w : b32, fin w -> (Rabs (val w) <= 1000 / 1001 * Kr s p * B)%R -> near (1000 / 1001 * Kr s p * B) 0 w (val w)).
    { intros w Fw Bw. split; [exact Fw|]. split; [exact Bw|]. rewrite Rminus_eq_0, Rabs_R0. lra. }
    destruct (mean_near u v (val u) (val v) (1000 / 1001 * Kr s p * B) 0 B1 ltac:(lra) (Nu u F1 G1) (Nu v F2 G2)) as (F & G & _).
    split; [exact F|]. split; [lra|]. intros Q. specialize (S1 Q). specialize (S2 Q).
    refine (Rle_trans _ _ _ (mean_small u v _ _ F1 F2 S1 S2) _); lra.
Qed.

(** ** The resampler *)

(** sample pairs at the lower rate, for any ratio *)
Definition fade_time (p : Z) : Z := match p with 8 => 1500 | 12 => 2500 | 16 => 2900 | 20 => 3900 | 24 => 4600 | _ => 0 end.
Definition fade_floor : R := bpow radix2 (-139).

Theorem resample_fades md p vec ratio (x : list F32) B N : valid FILTER_IIR ratio p -> (low <= B <= bpow radix2 100)%R ->
  (md = DOWN -> size x mod ratio = 0) -> (forall s, stage_no s -> s <= ratio -> padded vec s p = false) -> 0 <= N -> fades B N 0 x ->
  fades (33 * 33 * 33 * B) (match md with UP => ratio * (N + fade_time p) | DOWN => N / ratio + fade_time p end) fade_floor
    (resample (A := F32) FILTER_IIR md p vec ratio x).
Proof.
  intros [Hr HT] HB Hmod HP HN H. destruct low_tiny as [L0 _]. pose proof tiny_pos as T0.
  assert (HI : (bpow radix2 100 * 1048576 = high)%R) by (unfold high; change 120 with (100 + 20); rewrite bpow_plus; reflexivity).
  assert (FF : (fade_floor = 2048 * tiny)%R) by (unfold fade_floor, tiny; change (-139) with (11 + -150); rewrite bpow_plus; reflexivity).
  assert (TL : (8192 * tiny <= 1)%R) by (unfold tiny; change 8192%R with (bpow radix2 13); rewrite <- bpow_plus; change 1%R with (bpow radix2 0); apply bpow_le; lia).
  assert (S2 : stage_no 2) by (unfold stage_no; auto). assert (S4 : stage_no 4) by (unfold stage_no; auto).
  assert (S8 : stage_no 8) by (unfold stage_no; auto). assert (X0 : 0 <= size x) by (unfold size; lia).
  unfold ratio_no in Hr. destruct Hr as [->|Hr].
  - assert (FT : 0 <= fade_time p) by (unfold fade_time; repeat (match goal with |- context [match ?q with _ => _ end] => destruct q end; try lia)).
    unfold resample; cbn [Z.eqb Pos.eqb]. rewrite Z.div_1_r. destruct md; apply (fades_more _ _ _ _ _ _ _ H); lra || lia.
  - assert (Hp : iir_prec p) by (apply HT; lia). clear HT.
    assert (St : forall s (x : list F32) G N e, stage_no s -> fades (G * B) N (e * tiny) x -> s <= ratio -> (1 <= G <= 33 * 33)%R -> (0 <= e <= 450)%R -> 0 <= N ->
      (md = DOWN -> Z.even (size x) = true) ->
      fades (33 * G * B) (match md with UP => 2 * (N + T1 s p) | DOWN => (N + 1) / 2 + T1 s p end) ((Kr s p * e + IZR (L1 s p)) * tiny) (stage (A := F32) FILTER_IIR md p vec s x)).
    { intros s x' G N' e Hs H' Hsr HG He HN' Hev.
      assert (Gs : (1 <= Kr s p <= 17)%R) by (clear - Hs Hp; destruct Hs as [->|[->| ->]], Hp as [->|[->|[->|[->| ->]]]]; unfold Kr; cbn [K100]; lra).
      assert (Ls : (0 <= IZR (L1 s p) <= 103)%R) by (clear - Hs Hp; destruct Hs as [->|[->| ->]], Hp as [->|[->|[->|[->| ->]]]]; cbn [L1]; lra).
      assert (GM : (1 * B <= G * B <= 33 * 33 * B)%R) by (split; apply Rmult_le_compat_r; lra).
      assert (ET : (0 <= e * tiny <= 450 * tiny)%R) by (split; [apply Rmult_le_pos; lra | apply Rmult_le_compat_r; lra]).
      assert (X1 : (0 <= Kr s p * (G * B) <= 17 * (G * B))%R) by (split; [apply Rmult_le_pos; lra | apply Rmult_le_compat_r; lra]).
      assert (X2 : (0 <= Kr s p * (e * tiny) <= 17 * (e * tiny))%R) by (split; [apply Rmult_le_pos; lra | apply Rmult_le_compat_r; lra]).
      assert (X3 : (0 <= IZR (L1 s p) * tiny <= 103 * tiny)%R) by (split; [apply Rmult_le_pos; lra | apply Rmult_le_compat_r; lra]).
      refine (fades_more _ _ _ _ _ _ _ (stage_fades md p vec s x' (G * B) N' (e * tiny) Hs Hp (HP s Hs Hsr) _ _ _ _ HN' Hev H') _ (Z.le_refl _) _); lra. }
    assert (H0 : fades (1 * B) N (0 * tiny) x) by (apply (fades_more _ _ _ _ _ _ _ H); lra || lia).
    assert (T10 : forall s, stage_no s -> 0 <= T1 s p) by (clear - Hp; intros s [->|[->| ->]]; destruct Hp as [->|[->|[->|[->| ->]]]]; cbn; lia).
    pose proof (T10 2 S2). pose proof (T10 4 S4). pose proof (T10 8 S8).
    assert (Szd : forall s (x : list F32), md = DOWN -> Z.even (size x) = true -> size (stage (A := F32) FILTER_IIR md p vec s x) = size x / 2) by (intros s x' -> Ev; rewrite iir_stage_size by auto; reflexivity).
    assert (N2 : (0 <= Kr 2 p * 0 + IZR (L1 2 p) <= 450)%R) by (clear - Hp; destruct Hp as [->|[->|[->|[->| ->]]]]; unfold Kr; cbn [K100 L1]; lra).
    assert (N4 : (0 <= Kr 4 p * 0 + IZR (L1 4 p) <= 450)%R) by (clear - Hp; destruct Hp as [->|[->|[->|[->| ->]]]]; unfold Kr; cbn [K100 L1]; lra).
    assert (N8 : (0 <= Kr 8 p * 0 + IZR (L1 8 p) <= 450)%R) by (clear - Hp; destruct Hp as [->|[->|[->|[->| ->]]]]; unfold Kr; cbn [K100 L1]; lra).
    assert (N24 : (0 <= Kr 4 p * (Kr 2 p * 0 + IZR (L1 2 p)) + IZR (L1 4 p) <= 450)%R) by (clear - Hp; destruct Hp as [->|[->|[->|[->| ->]]]]; unfold Kr; cbn [K100 L1]; lra).
    assert (N84 : (0 <= Kr 4 p * (Kr 8 p * 0 + IZR (L1 8 p)) + IZR (L1 4 p) <= 450)%R) by (clear - Hp; destruct Hp as [->|[->|[->|[->| ->]]]]; unfold Kr; cbn [K100 L1]; lra).
    assert (N42 : (Kr 2 p * (Kr 4 p * 0 + IZR (L1 4 p)) + IZR (L1 2 p) <= 2048)%R) by (clear - Hp; destruct Hp as [->|[->|[->|[->| ->]]]]; unfold Kr; cbn [K100 L1]; lra).
    assert (N248 : (Kr 8 p * (Kr 4 p * (Kr 2 p * 0 + IZR (L1 2 p)) + IZR (L1 4 p)) + IZR (L1 8 p) <= 2048)%R) by (clear - Hp; destruct Hp as [->|[->|[->|[->| ->]]]]; unfold Kr; cbn [K100 L1]; lra).
    assert (N842 : (Kr 2 p * (Kr 4 p * (Kr 8 p * 0 + IZR (L1 8 p)) + IZR (L1 4 p)) + IZR (L1 2 p) <= 2048)%R) by (clear - Hp; destruct Hp as [->|[->|[->|[->| ->]]]]; unfold Kr; cbn [K100 L1]; lra).
    assert (TT : T1 2 p + T1 4 p / 2 + T1 8 p / 4 + 5 <= fade_time p) by (clear - Hp; destruct Hp as [->|[->|[->|[->| ->]]]]; vm_compute; discriminate).
    assert (Fin : forall e, (e <= 2048)%R -> (e * tiny <= fade_floor)%R) by (intros e He; rewrite FF; apply Rmult_le_compat_r; lra).
    set (t2 := T1 2 p) in *. set (t4 := T1 4 p) in *. set (t8 := T1 8 p) in *. set (ft := fade_time p) in *. clear T10.
    assert (BB : (0 < B)%R) by lra.
    destruct Hr as [->|[->| ->]]; unfold resample; cbn [Z.eqb Pos.eqb].
    + assert (J : (md = DOWN -> Z.even (size x) = true)) by (intros E; rewrite <- (Z.div_1_r (size x)); apply even_div; [lia | now apply Hmod]).
      pose proof (St 2 x 1%R N 0%R S2 H0 ltac:(lia) ltac:(lra) ltac:(lra) HN J) as J2. fold t2 in J2.
      destruct md; (apply (fades_more _ _ _ _ _ _ _ J2); [lra | | apply Fin; lra]); clear - TT HN H1 H2 H3; Z.to_euclidean_division_equations; lia.
    + destruct md.
      * pose proof (St 2 x 1%R N 0%R S2 H0 ltac:(lia) ltac:(lra) ltac:(lra) HN ltac:(discriminate)) as J2. fold t2 in J2.
        pose proof (St 4 _ _ _ _ S4 J2 ltac:(lia) ltac:(lra) N2 ltac:(lia) ltac:(discriminate)) as J4. fold t4 in J4.
        apply (fades_more _ _ _ _ _ _ _ J4); [lra | | apply Fin; lra]. clear - TT HN H1 H2 H3; Z.to_euclidean_division_equations; lia.
      * specialize (Hmod eq_refl).
        assert (Ev1 : Z.even (size x) = true) by (rewrite <- (Z.div_1_r (size x)); apply even_div; [lia|]; apply Z.mod_divide; [lia|]; apply Z.mod_divide in Hmod; [|lia]; destruct Hmod as [q Hq]; exists (2 * q); lia).
        assert (Ev2 : Z.even (size x / 2) = true) by (apply even_div; [lia | exact Hmod]).
        pose proof (St 4 x 1%R N 0%R S4 H0 ltac:(lia) ltac:(lra) ltac:(lra) HN ltac:(auto)) as J4. fold t4 in J4.
        assert (M4 : 0 <= (N + 1) / 2 + t4) by (clear - HN H2; Z.to_euclidean_division_equations; lia).
        pose proof (St 2 _ _ _ _ S2 J4 ltac:(lia) ltac:(lra) N4 M4 ltac:(rewrite Szd by auto; auto)) as J2. fold t2 in J2.
        apply (fades_more _ _ _ _ _ _ _ J2); [lra | | apply Fin; lra]. clear - TT HN H1 H2 H3; Z.to_euclidean_division_equations; lia.
    + destruct md.
      * pose proof (St 2 x 1%R N 0%R S2 H0 ltac:(lia) ltac:(lra) ltac:(lra) HN ltac:(discriminate)) as J2. fold t2 in J2.
        pose proof (St 4 _ _ _ _ S4 J2 ltac:(lia) ltac:(lra) N2 ltac:(lia) ltac:(discriminate)) as J4. fold t4 in J4.
        pose proof (St 8 _ _ _ _ S8 J4 ltac:(lia) ltac:(lra) N24 ltac:(lia) ltac:(discriminate)) as J8. fold t8 in J8.
        apply (fades_more _ _ _ _ _ _ _ J8); [lra | | apply Fin; lra]. clear - TT HN H1 H2 H3; Z.to_euclidean_division_equations; lia.
      * specialize (Hmod eq_refl). apply Z.mod_divide in Hmod; [|lia]. destruct Hmod as [q Hq].
        assert (Q1 : size x / 2 = 4 * q) by (rewrite Hq; replace (q * 8) with (4 * q * 2) by lia; apply Z.div_mul; lia).
        assert (Q2 : size x / 2 / 2 = 2 * q) by (rewrite Q1; replace (4 * q) with (2 * q * 2) by lia; apply Z.div_mul; lia).
        assert (Ev1 : Z.even (size x) = true) by (apply Z.even_spec; exists (4 * q); lia).
        assert (Ev2 : Z.even (size x / 2) = true) by (apply Z.even_spec; exists (2 * q); lia).
        assert (Ev3 : Z.even (size x / 2 / 2) = true) by (apply Z.even_spec; exists q; lia).
        pose proof (St 8 x 1%R N 0%R S8 H0 ltac:(lia) ltac:(lra) ltac:(lra) HN ltac:(auto)) as J8. fold t8 in J8.
        assert (Z8 : size (stage (A := F32) FILTER_IIR DOWN p vec 8 x) = size x / 2) by (apply Szd; auto).
        assert (M8 : 0 <= (N + 1) / 2 + t8) by (clear - HN H3; Z.to_euclidean_division_equations; lia).
        pose proof (St 4 _ _ _ _ S4 J8 ltac:(lia) ltac:(lra) N8 M8 ltac:(rewrite Z8; auto)) as J4. fold t4 in J4.
        assert (Z4 : size (stage (A := F32) FILTER_IIR DOWN p vec 4 (stage (A := F32) FILTER_IIR DOWN p vec 8 x)) = size x / 2 / 2) by (rewrite Szd by (rewrite ?Z8; auto); now rewrite Z8).
        assert (M4 : 0 <= ((N + 1) / 2 + t8 + 1) / 2 + t4) by (clear - HN H2 H3; Z.to_euclidean_division_equations; lia).
        pose proof (St 2 _ _ _ _ S2 J4 ltac:(lia) ltac:(lra) N84 M4 ltac:(rewrite Z4; auto)) as J2. fold t2 in J2.
        apply (fades_more _ _ _ _ _ _ _ J2); [lra | | apply Fin; lra]. clear - TT HN H1 H2 H3; Z.to_euclidean_division_equations; lia.
Qed.
