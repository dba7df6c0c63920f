(** * Single precision IIR resamplers against exact arithmetic *)
From Coq Require Import ZArith QArith Qreals Reals List Lia Lra Bool ZifyNat ZifyBool.
From Flocq Require Import Core Plus_error BinarySingleNaN.
From Verif Require Import Arith ArithR ArithF Tables ResamplerModel ResamplerProof ResamplerOk Spec SpecOk SpecR Client Feed Twin
  TablesF TableFacts FloatComm FloatSum FloatFir FloatErr IirReal.
Import ListNotations.
Open Scope Z_scope.

(** ** One operation *)
Definition huge : R := bpow radix2 126.
Lemma rnd_huge x : (Rabs x <= huge)%R -> (Rabs (rnd x) < bpow radix2 128)%R.
Proof.
  intros H. apply Rle_lt_trans with (bpow radix2 126); [|apply bpow_lt; lia].
  apply abs_round_le_generic; [apply FLT_exp_valid; exact Hprec32 | apply valid_rnd_N | apply generic_format_bpow; unfold FLT_exp; lia | exact H].
Qed.
Lemma plus_step a b : fin a -> fin b -> (Rabs (val a + val b) <= huge)%R ->
  fin (b32_plus a b) /\ (Rabs (val (b32_plus a b) - (val a + val b)) <= ulp1 * Rabs (val a + val b))%R.
Proof. intros Fa Fb H. assert (F : fin (b32_plus a b)) by (apply plus_fin; [exact Fa | exact Fb | now apply rnd_huge]). split; [exact F | now apply plus_err]. Qed.
Lemma plus_err_rnd a b : generic_format radix2 fexp32 a -> generic_format radix2 fexp32 b -> (Rabs (rnd (a + b) - (a + b)) <= ulp1 * Rabs (a + b))%R.
Proof.
  intros Ga Gb.
  destruct (@FLT_plus_error_N_ex radix2 (-149) 24 Hprec32 (fun x => negb (Z.even x)) a b Ga Gb) as (eps & He & ->).
  replace ((a + b) * (1 + eps) - (a + b))%R with (eps * (a + b))%R by ring.
  rewrite Rabs_mult. apply Rmult_le_compat_r; [apply Rabs_pos|]. eapply Rle_trans; [exact He|].
  rewrite u_ro_eq. pose proof ulp1_pos. apply Rmult_le_reg_r with (1 + ulp1)%R; [lra|].
  unfold Rdiv. rewrite Rmult_assoc, Rinv_l, Rmult_1_r by lra. nra.
Qed.
Lemma minus_step a b : fin a -> fin b -> (Rabs (val a - val b) <= huge)%R ->
  fin (b32_minus a b) /\ (Rabs (val (b32_minus a b) - (val a - val b)) <= ulp1 * Rabs (val a - val b))%R.
Proof.
  intros Fa Fb H. pose proof (Bminus_correct 24 128 Hprec32 Hmax32 mode_NE a b Fa Fb) as Q. rewrite rnd_eq in Q.
  rewrite Rlt_bool_true in Q by now apply rnd_huge. destruct Q as (Q1 & Q2 & _). split; [exact Q2|]. unfold b32_minus. rewrite Q1.
  pose proof (plus_err_rnd (val a) (- val b)) as E. apply E.
  - apply (generic_format_B2R 24 128).
  - apply generic_format_opp, (generic_format_B2R 24 128).
Qed.
Lemma mult_step a b : fin a -> fin b -> (Rabs (val a * val b) <= huge)%R ->
  fin (b32_mult a b) /\ (Rabs (val (b32_mult a b) - val a * val b) <= ulp1 * Rabs (val a * val b) + tiny)%R.
Proof. intros Fa Fb H. assert (F : fin (b32_mult a b)) by (apply mult_fin; [exact Fa | exact Fb | now apply rnd_huge]). split; [exact F | now apply mult_err]. Qed.

Lemma ulp1_small : (0 < ulp1 /\ ulp1 * 16777216 = 1)%R.
Proof. split; [apply ulp1_pos | unfold ulp1; cbn; lra]. Qed.

Lemma abs_near a b e B : (Rabs (a - b) <= e)%R -> (Rabs b <= B)%R -> (Rabs a <= B + e)%R.
Proof. intros H1 H2. replace a with (b + (a - b))%R by ring. eapply Rle_trans; [apply Rabs_triang | lra]. Qed.

(** ** One all-pass section

    B bounds the input, Y the output; (1-c) Q bounds what is rounded away in one
    step; the state x1 - c y1 is at most (1+c) B + c Q. *)
Definition step_ok (c B Q Y : R) : Prop :=
  (0 <= c < 1 /\ 0 <= B /\ 0 <= Q /\
   ulp1 * (c * (2 + ulp1)) * (B + Y) + tiny + ulp1 * Y <= (1 - c) * Q /\ (1 + 2 * c) * B + Q <= Y /\ 4 * Y <= huge)%R.

Lemma section_step (c x x1 y1 : b32) B Q Y : step_ok (val c) B Q Y -> fin c -> fin x -> fin x1 -> fin y1 ->
  (Rabs (val x) <= B -> Rabs (val x1) <= B -> Rabs (val y1) <= Y ->
   Rabs (val x1 - val c * val y1) <= (1 + val c) * B + val c * Q ->
   let y := b32_plus (b32_mult (b32_minus x y1) c) x1 in
   fin y /\ Rabs (val y) <= Y /\ Rabs (val y - (val c * val x + (val x1 - val c * val y1))) <= (1 - val c) * Q /\
   Rabs (val x - val c * val y) <= (1 + val c) * B + val c * Q)%R.
Proof.
  intros (Hc & HB & HQ & HP & HY & HH) Fc Fx Fx1 Fy1 Bx Bx1 By1 Hs y.
  set (C := val c) in *. set (X := val x) in *. set (X1 := val x1) in *. set (Y1 := val y1) in *.
  destruct ulp1_small as [U0 U1]. pose proof tiny_pos as T0.
  assert (CB : (0 <= C * B <= B)%R) by (split; [apply Rmult_le_pos; lra | rewrite <- (Rmult_1_l B) at 2; apply Rmult_le_compat_r; lra]).
  assert (CQ : (0 <= C * Q <= Q)%R) by (split; [apply Rmult_le_pos; lra | rewrite <- (Rmult_1_l Q) at 2; apply Rmult_le_compat_r; lra]).
  assert (Y0 : (0 <= Y /\ B <= Y)%R) by lra.
  assert (D : (Rabs (X - Y1) <= B + Y)%R) by (unfold Rminus; eapply Rle_trans; [apply Rabs_triang|]; rewrite Rabs_Ropp; lra).
  destruct (minus_step x y1 Fx Fy1) as [Fd Ed]; [fold X Y1; lra|]. fold X Y1 in Ed. set (d := b32_minus x y1) in *.
  assert (Ed' : (Rabs (val d - (X - Y1)) <= ulp1 * (B + Y))%R) by (eapply Rle_trans; [exact Ed | apply Rmult_le_compat_l; lra]).
  assert (Bd : (Rabs (val d) <= (1 + ulp1) * (B + Y))%R) by (pose proof (abs_near _ _ _ _ Ed' D); lra).
  assert (BdC : (Rabs (val d * C) <= C * ((1 + ulp1) * (B + Y)))%R).
  { rewrite Rabs_mult, (Rabs_pos_eq C), Rmult_comm by lra. apply Rmult_le_compat_l; lra. }
  assert (UY : (0 <= ulp1 * (B + Y) <= B + Y)%R).
  { split; [apply Rmult_le_pos; lra|]. rewrite <- (Rmult_1_l (B + Y)) at 2. apply Rmult_le_compat_r; lra. }
  assert (CW : (C * ((1 + ulp1) * (B + Y)) <= 1 * ((1 + ulp1) * (B + Y)))%R) by (apply Rmult_le_compat_r; lra).
  destruct (mult_step d c Fd Fc) as [Fm Em]; [fold C; lra|]. fold C in Em. set (m := b32_mult d c) in *.
  assert (EmA : (Rabs (val m - C * (X - Y1)) <= ulp1 * (C * (2 + ulp1)) * (B + Y) + tiny)%R).
  { replace (val m - C * (X - Y1))%R with ((val m - val d * C) + C * (val d - (X - Y1)))%R by ring.
    eapply Rle_trans; [apply Rabs_triang|]. rewrite (Rabs_mult C), (Rabs_pos_eq C) by lra.
    assert (A1 : (C * Rabs (val d - (X - Y1)) <= C * (ulp1 * (B + Y)))%R) by (apply Rmult_le_compat_l; lra).
    assert (A2 : (ulp1 * Rabs (val d * C) <= ulp1 * (C * ((1 + ulp1) * (B + Y))))%R) by (apply Rmult_le_compat_l; lra).
    lra. }
  set (P1 := (ulp1 * (C * (2 + ulp1)) * (B + Y) + tiny)%R) in *.
  assert (Bm : (Rabs (val m + X1) <= Y)%R).
  { replace (val m + X1)%R with ((val m - C * (X - Y1)) + (C * X + (X1 - C * Y1)))%R by ring.
    eapply Rle_trans; [apply Rabs_triang|]. assert (A1 : (Rabs (C * X + (X1 - C * Y1)) <= C * B + ((1 + C) * B + C * Q))%R).
    { eapply Rle_trans; [apply Rabs_triang|]. rewrite Rabs_mult, (Rabs_pos_eq C) by lra.
      assert (C * Rabs X <= C * B)%R by (apply Rmult_le_compat_l; lra). lra. }
    assert (0 <= ulp1 * Y)%R by (apply Rmult_le_pos; lra). lra. }
  destruct (plus_step m x1 Fm Fx1) as [Fy Ey]; [fold X1; lra|]. fold X1 in Ey. fold y in Fy, Ey.
  assert (Ey' : (Rabs (val y - (val m + X1)) <= ulp1 * Y)%R) by (eapply Rle_trans; [exact Ey | apply Rmult_le_compat_l; lra]).
  assert (Er : (Rabs (val y - (C * X + (X1 - C * Y1))) <= (1 - C) * Q)%R).
  { replace (val y - (C * X + (X1 - C * Y1)))%R with ((val y - (val m + X1)) + (val m - C * (X - Y1)))%R by ring.
    eapply Rle_trans; [apply Rabs_triang | lra]. }
  split; [exact Fy|]. split; [|split; [exact Er|]].
  - apply (abs_near _ _ _ (C * B + ((1 + C) * B + C * Q))) in Er; [lra|].
    eapply Rle_trans; [apply Rabs_triang|]. rewrite Rabs_mult, (Rabs_pos_eq C) by lra.
    assert (C * Rabs X <= C * B)%R by (apply Rmult_le_compat_l; lra). lra.
  - replace (X - C * val y)%R with ((1 - C * C) * X + - (C * (X1 - C * Y1) + C * (val y - (C * X + (X1 - C * Y1)))))%R by ring.
    assert (C2 : (0 <= 1 - C * C)%R) by (assert (C * C <= 1 * 1)%R by (apply Rmult_le_compat; lra); lra).
    eapply Rle_trans; [apply Rabs_triang|]. rewrite Rabs_Ropp, Rabs_mult, (Rabs_pos_eq _ C2).
    assert (A1 : ((1 - C * C) * Rabs X <= (1 - C * C) * B)%R) by (apply Rmult_le_compat_l; lra).
    assert (A2 : (Rabs (C * (X1 - C * Y1) + C * (val y - (C * X + (X1 - C * Y1)))) <= C * ((1 + C) * B + C * Q) + C * ((1 - C) * Q))%R).
    { eapply Rle_trans; [apply Rabs_triang|]. rewrite !Rabs_mult, (Rabs_pos_eq C) by lra.
      apply Rplus_le_compat; apply Rmult_le_compat_l; lra. }
    lra.
Qed.

(** v stands for V up to e, and is at most B *)
Definition near (B e : R) (v : b32) (V : R) : Prop := fin v /\ (Rabs (val v) <= B)%R /\ (Rabs (val v - V) <= e)%R.

Lemma near_more B B' e e' v V : near B e v V -> (B <= B')%R -> (e <= e')%R -> near B' e' v V.
Proof. intros (F & H1 & H2) L1 L2. repeat split; [exact F | lra | lra]. Qed.
Lemma nears_more B B' e e' x X : Forall2 (near B e) x X -> (B <= B')%R -> (e <= e')%R -> Forall2 (near B' e') x X.
Proof. intros H L1 L2. induction H; constructor; [eapply near_more; eassumption | assumption]. Qed.

Lemma allpass_from_near (c : b32) B Q Y e : step_ok (val c) B Q Y -> fin c -> (0 <= e)%R ->
  forall (x : list F32) (X : list RA), Forall2 (near B e) x X ->
  forall (x1 y1 : b32) (X1 Y1 : R), fin x1 -> fin y1 -> (Rabs (val x1) <= B)%R -> (Rabs (val y1) <= Y)%R ->
  (Rabs (val x1 - val c * val y1) <= (1 + val c) * B + val c * Q)%R ->
  (Rabs ((val x1 - val c * val y1) - (X1 - val c * Y1)) <= (1 + val c) * e + val c * Q)%R ->
  Forall2 (near Y ((1 + 2 * val c) * e + Q)) (allpass_from (A := F32) c x1 y1 x) (allpass_from (A := RA) (val c) X1 Y1 X).
Proof.
  intros OK Fc He x X H. induction H as [|x0 X0 x X H0 H IH]; intros x1 y1 X1 Y1 F1 G1 B1 H1 S1 D1; [constructor|].
  destruct H0 as (F0 & B0 & E0). pose proof (section_step c x0 x1 y1 B Q Y OK Fc F0 F1 G1 B0 B1 H1 S1) as (Fy & By & Ey & Sy). cbn zeta in Fy, By, Ey, Sy.
  cbn [allpass_from]. cbn zeta.
  change (@fadd F32) with b32_plus. change (@fmul F32) with b32_mult. change (@fsub F32) with b32_minus.
  set (y := b32_plus (b32_mult (b32_minus x0 y1) c) x1) in *. set (Y0 := @fadd RA _ _).
  destruct OK as (Hc & HB & HQ & _). set (C := val c) in *.
  assert (EY : @eq R Y0 (C * X0 + (X1 - C * Y1))%R) by (unfold Y0; raops; ring).
  assert (C2 : (0 <= 1 - C * C)%R) by (assert (C * C <= 1 * 1)%R by (apply Rmult_le_compat; lra); lra).
  assert (CE : (Rabs (C * (val x0 - X0)) <= C * e)%R) by (rewrite Rabs_mult, (Rabs_pos_eq C) by lra; apply Rmult_le_compat_l; lra).
  constructor.
  - split; [exact Fy|]. split; [exact By|]. rewrite EY.
    replace (val y - (C * X0 + (X1 - C * Y1)))%R with
      ((val y - (C * val x0 + (val x1 - C * val y1))) + (C * (val x0 - X0) + ((val x1 - C * val y1) - (X1 - C * Y1))))%R by ring.
    eapply Rle_trans; [apply Rabs_triang|].
    assert (Rabs (C * (val x0 - X0) + (val x1 - C * val y1 - (X1 - C * Y1))) <= C * e + ((1 + C) * e + C * Q))%R
      by (eapply Rle_trans; [apply Rabs_triang | lra]). lra.
  - apply IH; try assumption. rewrite EY.
    replace (val x0 - C * val y - (X0 - C * (C * X0 + (X1 - C * Y1))))%R with
      ((1 - C * C) * (val x0 - X0) + - (C * ((val x1 - C * val y1) - (X1 - C * Y1)) + C * (val y - (C * val x0 + (val x1 - C * val y1)))))%R by ring.
    eapply Rle_trans; [apply Rabs_triang|]. rewrite Rabs_Ropp, Rabs_mult, (Rabs_pos_eq _ C2).
    assert (A1 : ((1 - C * C) * Rabs (val x0 - X0) <= (1 - C * C) * e)%R) by (apply Rmult_le_compat_l; lra).
    assert (A2 : (Rabs (C * (val x1 - C * val y1 - (X1 - C * Y1)) + C * (val y - (C * val x0 + (val x1 - C * val y1)))) <= C * ((1 + C) * e + C * Q) + C * ((1 - C) * Q))%R).
    { eapply Rle_trans; [apply Rabs_triang|]. rewrite !Rabs_mult, (Rabs_pos_eq C) by lra.
      apply Rplus_le_compat; apply Rmult_le_compat_l; lra. }
    lra.
Qed.
Lemma allpass_near (c : b32) B Q Y e x X : step_ok (val c) B Q Y -> fin c -> (0 <= e)%R -> Forall2 (near B e) x X ->
  Forall2 (near Y ((1 + 2 * val c) * e + Q)) (allpass (A := F32) c x) (allpass (A := RA) (val c) X).
Proof.
  intros OK Fc He H. pose proof OK as (Hc & HB & HQ & HP & HY & _).
  assert (0 <= val c * B)%R by (apply Rmult_le_pos; lra). assert (0 <= val c * Q)%R by (apply Rmult_le_pos; lra). assert (0 <= val c * e)%R by (apply Rmult_le_pos; lra).
  apply (allpass_from_near c B Q Y e OK Fc He x X H); try reflexivity; cbn; rewrite ?Rmult_0_r, ?Rminus_0_r, ?Rabs_R0; lra.
Qed.

(** ** Chains of sections, relative to the bound of the input *)
Definition amp (c : R) : R := (1001 / 1000 * (1 + 2 * c))%R.
(** unit roundings per section *)
Definition units (c : R) : R := ((2001 / 1000 * c * (1 + amp c) + amp c + 1 / 1000) / (1 - c))%R.
Fixpoint amps (cs : list R) : R := match cs with [] => 1 | c :: r => amps r * amp c end%R.
Fixpoint unitss (cs : list R) : R := match cs with [] => 0 | c :: r => amps r * units c + amp c * unitss r end%R.

Definition low : R := bpow radix2 (-100).
Definition high : R := bpow radix2 120.
Lemma low_tiny : (0 < low /\ tiny * 1000 <= ulp1 * low)%R.
Proof.
  split; [apply bpow_gt_0|]. unfold tiny, ulp1, low. rewrite <- bpow_plus. change (-24 + -100) with (10 + -134). change (-150) with (-16 + -134).
  rewrite !bpow_plus. pose proof (bpow_gt_0 radix2 (-134)). change (bpow radix2 10) with 1024%R. change (bpow radix2 (-16)) with (/ 65536)%R. lra.
Qed.
Lemma high_huge : (4 * high <= huge)%R.
Proof. unfold high, huge. change 126 with (6 + 120). rewrite bpow_plus. pose proof (bpow_gt_0 radix2 120). change (bpow radix2 6) with 64%R. lra. Qed.

Lemma section_ok c B : (0 <= c < 95 / 100)%R -> (low <= B)%R -> (amp c * B <= high)%R -> step_ok c B (ulp1 * units c * B) (amp c * B).
Proof.
  intros Hc HB HH. destruct low_tiny as [L0 L1]. pose proof high_huge. destruct ulp1_small as [U0 U1].
  assert (A : (amp c = 1001 / 1000 * (1 + 2 * c))%R) by reflexivity. assert (A1 : (1 <= amp c < 3)%R) by lra.
  set (N := (2001 / 1000 * c * (1 + amp c) + amp c + 1 / 1000)%R).
  assert (N0 : (0 <= c * (1 + amp c) <= 4)%R).
  { split; [apply Rmult_le_pos; lra|]. replace 4%R with (1 * 4)%R by lra. apply Rmult_le_compat; lra. }
  assert (E : ((1 - c) * units c = N)%R) by (unfold units; fold N; field; lra).
  assert (HU : (0 <= units c <= 240)%R).
  { split; apply Rmult_le_reg_l with (1 - c)%R; try lra; rewrite E; [unfold N; lra|]. assert (N <= 12)%R by (unfold N; lra). lra. }
  assert (UB : (0 <= ulp1 * B)%R) by (apply Rmult_le_pos; lra).
  assert (UL : (ulp1 * low <= ulp1 * B)%R) by (apply Rmult_le_compat_l; lra).
  assert (Q0 : (0 <= units c * (ulp1 * B) <= 240 * (ulp1 * B))%R) by (split; [apply Rmult_le_pos | apply Rmult_le_compat_r]; lra).
  assert (G : (0 <= c * B)%R) by (apply Rmult_le_pos; lra).
  assert (U2 : (0 <= ulp1 * (c * B) /\ 0 <= ulp1 * (amp c * B))%R).
  { split; apply Rmult_le_pos; try lra. apply Rmult_le_pos; lra. }
  unfold step_ok. split; [lra|]. split; [lra|]. split; [lra|]. split; [|split; [|lra]].
  - replace ((1 - c) * (ulp1 * units c * B))%R with ((1 - c) * units c * (ulp1 * B))%R by ring. rewrite E. unfold N.
    assert (M1 : (ulp1 * (c * (2 + ulp1)) * (B + amp c * B) <= 2001 / 1000 * (ulp1 * c * (B + amp c * B)))%R).
    { replace (ulp1 * (c * (2 + ulp1)) * (B + amp c * B))%R with ((2 + ulp1) * (ulp1 * c * (B + amp c * B)))%R by ring.
      apply Rmult_le_compat_r; [|lra]. apply Rmult_le_pos; [apply Rmult_le_pos; lra|]. assert (0 <= amp c * B)%R by (apply Rmult_le_pos; lra). lra. }
    lra.
  - replace (ulp1 * units c * B)%R with (units c * (ulp1 * B))%R by ring.
    assert (240 * (ulp1 * B) <= B / 1000)%R by (replace (240 * (ulp1 * B))%R with (240 * ulp1 * B)%R by ring; assert (240 * ulp1 * B <= / 1000 * B)%R by (apply Rmult_le_compat_r; lra); lra).
    rewrite A. lra.
Qed.

Lemma amp_ge c : (0 <= c)%R -> (1 <= amp c)%R.
Proof. unfold amp. lra. Qed.
Lemma amps_ge cs : Forall (fun c => 0 <= c < 95 / 100)%R cs -> (1 <= amps cs)%R.
Proof.
  induction 1 as [|c cs Hc _ IH]; cbn [amps]; [lra|]. pose proof (amp_ge c ltac:(lra)).
  assert (1 * 1 <= amps cs * amp c)%R by (apply Rmult_le_compat; lra). lra.
Qed.
Lemma units_ge c : (0 <= c < 95 / 100)%R -> (0 <= units c)%R.
Proof.
  intros Hc. unfold units. pose proof (amp_ge c ltac:(lra)). apply Rmult_le_pos; [|apply Rlt_le, Rinv_0_lt_compat; lra].
  assert (0 <= c * (1 + amp c))%R by (apply Rmult_le_pos; lra). lra.
Qed.
Lemma unitss_ge cs : Forall (fun c => 0 <= c < 95 / 100)%R cs -> (0 <= unitss cs)%R.
Proof.
  induction 1 as [|c cs Hc Hcs IH]; cbn [unitss]; [lra|]. pose proof (amp_ge c ltac:(lra)). pose proof (amps_ge _ Hcs). pose proof (units_ge c Hc).
  assert (0 <= amps cs * units c)%R by (apply Rmult_le_pos; lra). assert (0 <= amp c * unitss cs)%R by (apply Rmult_le_pos; lra). lra.
Qed.

Definition is_coef (c : b32) (C : R) : Prop := fin c /\ val c = C.

Lemma chain_near (cs : list F32) (Cs : list RA) : Forall2 is_coef cs Cs -> Forall (fun c : R => 0 <= c < 95 / 100)%R Cs ->
  forall (x : list F32) (X : list RA) B e, (0 <= e)%R -> (low <= B)%R -> (amps Cs * B <= high)%R -> Forall2 (near B e) x X ->
  Forall2 (near (amps Cs * B) (amps Cs * e + ulp1 * unitss Cs * B)) (chain (A := F32) cs x) (chain (A := RA) Cs X).
Proof.
  induction 1 as [|c C cs Cs [Fc Ec] HC IH]; intros FC x X B e He HB HH H.
  - cbn [amps unitss chain fold_left]. eapply nears_more; [exact H | lra | lra].
  - inversion FC as [|? ? Hc FC']; subst. cbn [amps unitss] in *.
    pose proof (amp_ge (val c) ltac:(lra)) as A1. pose proof (amps_ge _ FC') as A2. pose proof (units_ge _ Hc) as A3.
    destruct low_tiny as [L0 _]. destruct ulp1_small as [U0 _].
    assert (AB : (B <= amp (val c) * B)%R) by (assert (1 * B <= amp (val c) * B)%R by (apply Rmult_le_compat_r; lra); lra).
    assert (AH : (amp (val c) * B <= high)%R).
    { assert (1 * (amp (val c) * B) <= amps Cs * (amp (val c) * B))%R by (apply Rmult_le_compat_r; lra). lra. }
    pose proof (allpass_near c B _ _ e x X (section_ok (val c) B Hc HB AH) Fc He H) as S1.
    assert (UQ : (0 <= ulp1 * units (val c) * B)%R) by (apply Rmult_le_pos; [apply Rmult_le_pos; lra | lra]).
    apply (nears_more _ (amp (val c) * B) _ (amp (val c) * e + ulp1 * units (val c) * B)) in S1;
      [|lra|assert ((1 + 2 * val c) * e <= amp (val c) * e)%R by (apply Rmult_le_compat_r; unfold amp; lra); lra].
    change (chain (A := F32) (c :: cs) x) with (chain (A := F32) cs (allpass (A := F32) c x)).
    change (chain (A := RA) (val c :: Cs) X) with (chain (A := RA) Cs (allpass (A := RA) (val c) X)).
    refine (nears_more _ _ _ _ _ _ (IH FC' _ _ (amp (val c) * B)%R (amp (val c) * e + ulp1 * units (val c) * B)%R _ _ _ S1) _ _); try lra.
    assert (0 <= amp (val c) * e)%R by (apply Rmult_le_pos; lra). lra.
Qed.

(** ** Two-branch stages *)
Lemma forall2_evens {X Y} (P : X -> Y -> Prop) : forall n l k, (length l <= n)%nat -> Forall2 P l k -> Forall2 P (evens l) (evens k) /\ Forall2 P (odds l) (odds k).
Proof.
  induction n as [|n IH]; intros l k L H.
  - destruct H; [split; constructor | cbn in L; lia].
  - destruct H as [|a b l k Hab H]; [split; constructor|]. destruct H as [|a' b' l k Hab' H]; [split; repeat constructor; assumption|].
    cbn [length] in L. destruct (IH l k ltac:(lia) H) as [I1 I2]. cbn [evens odds]. split; constructor; assumption.
Qed.
Lemma forall2_weave {X Y} (P : X -> Y -> Prop) a b : Forall2 P a b -> forall c d, Forall2 P c d -> Forall2 P (weave a c) (weave b d).
Proof.
  induction 1 as [|x y a b Hxy H IH]; intros c d Hcd; [constructor|]. destruct Hcd as [|z w c d Hzw Hcd]; cbn [weave]; [constructor|].
  constructor; [exact Hxy|]. constructor; [exact Hzw|]. now apply IH.
Qed.
Lemma forall2_zip (P : b32 -> R -> Prop) (Q : b32 -> R -> Prop) f g :
  (forall u v U V, P u U -> P v V -> Q (f u v) (g U V)) ->
  forall (a : list F32) (b : list RA), Forall2 P a b -> forall (c : list F32) (d : list RA), Forall2 P c d -> Forall2 Q (zip (A := F32) f a c) (zip (A := RA) g b d).
Proof.
  intros Hf a b H. induction H as [|x y a b Hxy H IH]; intros c d Hcd; [constructor|]. destruct Hcd as [|z w c d Hzw Hcd]; cbn [zip]; [constructor|].
  constructor; [now apply Hf|]. now apply IH.
Qed.

(** the mean of two samples, in either order *)
Lemma mean_near (u v : b32) U V B e : (low <= B)%R -> (2 * B <= high)%R -> near B e u U -> near B e v V ->
  near (1001 / 1000 * B) (e + 3 * ulp1 * B) (b32_mult (@fhalf F32) (b32_plus u v)) (/ 2 * (U + V)).
Proof.
  intros HB HH (Fu & Bu & Eu) (Fv & Bv & Ev). destruct low_tiny as [L0 L1]. pose proof high_huge as HG. destruct ulp1_small as [U0 U1].
  assert (UL : (ulp1 * low <= ulp1 * B)%R) by (apply Rmult_le_compat_l; lra).
  assert (UB : (0 <= ulp1 * B /\ ulp1 * B * 16777216 = B)%R) by (split; [apply Rmult_le_pos; lra | rewrite (Rmult_comm ulp1), Rmult_assoc, U1; lra]).
  assert (S : (Rabs (val u + val v) <= 2 * B)%R) by (eapply Rle_trans; [apply Rabs_triang | lra]).
  destruct (plus_step u v Fu Fv ltac:(lra)) as [Fs Es]. set (s := b32_plus u v) in *.
  assert (Es' : (Rabs (val s - (val u + val v)) <= 2 * (ulp1 * B))%R) by (eapply Rle_trans; [exact Es|]; assert (ulp1 * Rabs (val u + val v) <= ulp1 * (2 * B))%R by (apply Rmult_le_compat_l; lra); lra).
  assert (Bs : (Rabs (val s) <= 2 * B + 2 * (ulp1 * B))%R) by exact (abs_near _ _ _ _ Es' S).
  assert (Fh : fin (@fhalf F32)) by reflexivity.
  assert (Bh : (Rabs (val (@fhalf F32) * val s) <= B + ulp1 * B)%R) by (rewrite Rabs_mult, half_val, Rabs_pos_eq by lra; lra).
  destruct (mult_step (@fhalf F32) s Fh Fs ltac:(lra)) as [Fm Em].
  assert (Em' : (ulp1 * Rabs (val (@fhalf F32) * val s) <= ulp1 * (B + ulp1 * B))%R) by (apply Rmult_le_compat_l; lra).
  set (m := b32_mult (@fhalf F32) s) in *. rewrite half_val in Em, Bh, Em'.
  assert (UUB : (ulp1 * (ulp1 * B) * 16777216 = ulp1 * B)%R) by (rewrite (Rmult_comm ulp1 (ulp1 * B)), Rmult_assoc, U1; lra).
  split; [exact Fm|]. split.
  - apply (abs_near _ _ _ _ Em) in Bh. lra.
  - replace (val m - / 2 * (U + V))%R with ((val m - 1 / 2 * val s) + (/ 2 * (val s - (val u + val v)) + (/ 2 * (val u - U) + / 2 * (val v - V))))%R by lra.
    eapply Rle_trans; [apply Rabs_triang|].
    assert (T1 : (Rabs (/ 2 * (val s - (val u + val v)) + (/ 2 * (val u - U) + / 2 * (val v - V))) <= ulp1 * B + e)%R); [|lra].
    eapply Rle_trans; [apply Rabs_triang|]. rewrite (Rabs_mult (/ 2)), (Rabs_pos_eq (/ 2)) by lra.
    assert (T2 : (Rabs (/ 2 * (val u - U) + / 2 * (val v - V)) <= e)%R); [|lra].
    eapply Rle_trans; [apply Rabs_triang|]. rewrite !(Rabs_mult (/ 2)), (Rabs_pos_eq (/ 2)) by lra. lra.
Qed.

(** ** The section with coefficient 1 that completes an odd number of sections

    Its errors add up: they are not damped. *)
Lemma one_val : fin (@f1 F32) /\ val (@f1 F32) = 1%R.
Proof. split; [reflexivity|]. replace (@f1 F32) with (b32_dy 1 0) by reflexivity. cbv. lra. Qed.
Lemma mult_one (d : b32) : fin d -> (Rabs (val d) <= huge)%R -> fin (b32_mult d (@f1 F32)) /\ val (b32_mult d (@f1 F32)) = val d.
Proof.
  intros Fd Hd. destruct one_val as [F1 E1].
  assert (F : fin (b32_mult d (@f1 F32))) by (apply mult_fin; [exact Fd | exact F1 | rewrite E1, Rmult_1_r; now apply rnd_huge]).
  split; [exact F|]. rewrite mult_val by exact F. rewrite E1, Rmult_1_r. apply round_generic; [apply valid_rnd_N|]. apply (generic_format_B2R 24 128).
Qed.
Lemma pad_from_near B e : (low <= B)%R -> (2 * B <= high)%R -> (0 <= e)%R ->
  forall (x : list F32) (X : list RA), Forall2 (near B e) x X ->
  forall k (x1 y1 : b32), 0 <= k -> 6 * (k + size (A := F32) x) <= 2 ^ 24 -> fin x1 -> fin y1 -> (Rabs (val x1) <= B)%R ->
  (Rabs (val y1 - val x1) <= IZR (6 * k) * (ulp1 * B))%R ->
  Forall2 (near (2 * B) (e + IZR (6 * (k + size (A := F32) x)) * (ulp1 * B))) (allpass_from (A := F32) (@f1 F32) x1 y1 x) X.
Proof.
  intros HB HH He x X H. destruct low_tiny as [L0 _]. pose proof high_huge as HG. destruct ulp1_small as [U0 U1].
  assert (UB : (0 <= ulp1 * B /\ ulp1 * B * 16777216 = B)%R) by (split; [apply Rmult_le_pos; lra | rewrite (Rmult_comm ulp1), Rmult_assoc, U1; lra]).
  induction H as [|x0 X0 x X (F0 & B0 & E0) H IH]; intros k x1 y1 Hk HN F1 G1 B1 D1; [constructor|].
  rewrite (size_cons (A := F32)) in HN |- *. assert (S0 : 0 <= size (A := F32) x) by (unfold size; lia).
  cbn [allpass_from]. cbn zeta. change (@fadd F32) with b32_plus. change (@fmul F32) with b32_mult. change (@fsub F32) with b32_minus.
  set (D := (IZR (6 * k) * (ulp1 * B))%R) in *.
  assert (D0 : (0 <= D <= B)%R).
  { unfold D. split; [apply Rmult_le_pos; [apply IZR_le; lia | lra]|]. assert (IZR (6 * k) * (ulp1 * B) <= 16777216 * (ulp1 * B))%R; [|lra].
    apply Rmult_le_compat_r; [lra|]. apply IZR_le. change (2 ^ 24) with 16777216 in HN. lia. }
  assert (D6 : (D + 6 * (ulp1 * B) = IZR (6 * (k + 1)) * (ulp1 * B))%R).
  { unfold D. replace (6 * (k + 1)) with (6 * k + 6) by lia. rewrite plus_IZR. ring. }
  assert (D6' : (D + 6 * (ulp1 * B) <= B)%R).
  { rewrite D6. assert (IZR (6 * (k + 1)) * (ulp1 * B) <= 16777216 * (ulp1 * B))%R; [|lra].
    apply Rmult_le_compat_r; [lra|]. apply IZR_le. change (2 ^ 24) with 16777216 in HN. lia. }
  assert (A1 : (Rabs (val x0 - val y1) <= 3 * B)%R).
  { replace (val x0 - val y1)%R with (val x0 + - (val x1 + (val y1 - val x1)))%R by ring.
    eapply Rle_trans; [apply Rabs_triang|]. rewrite Rabs_Ropp. pose proof (Rabs_triang (val x1) (val y1 - val x1)). lra. }
  destruct (minus_step x0 y1 F0 G1 ltac:(lra)) as [Fd Ed]. set (d := b32_minus x0 y1) in *.
  assert (Ed' : (Rabs (val d - (val x0 - val y1)) <= 3 * (ulp1 * B))%R).
  { eapply Rle_trans; [exact Ed|]. assert (ulp1 * Rabs (val x0 - val y1) <= ulp1 * (3 * B))%R by (apply Rmult_le_compat_l; lra). lra. }
  assert (Bd : (Rabs (val d) <= 4 * B)%R) by (pose proof (abs_near _ _ _ _ Ed' A1); lra).
  destruct (mult_one d Fd ltac:(lra)) as [Fm Em]. set (m := b32_mult d (@f1 F32)) in *.
  assert (A2 : (Rabs (val m + val x1) <= 5 / 2 * B)%R).
  { rewrite Em. replace (val d + val x1)%R with (val x0 + ((val d - (val x0 - val y1)) + - (val y1 - val x1)))%R by ring.
    eapply Rle_trans; [apply Rabs_triang|]. pose proof (Rabs_triang (val d - (val x0 - val y1)) (- (val y1 - val x1))). rewrite (Rabs_Ropp (val y1 - val x1)) in *. lra. }
  destruct (plus_step m x1 Fm F1 ltac:(lra)) as [Fy Ey]. set (y := b32_plus m x1) in *.
  assert (Ey' : (Rabs (val y - (val m + val x1)) <= 5 / 2 * (ulp1 * B))%R).
  { eapply Rle_trans; [exact Ey|]. assert (ulp1 * Rabs (val m + val x1) <= ulp1 * (5 / 2 * B))%R by (apply Rmult_le_compat_l; lra). lra. }
  assert (Dy : (Rabs (val y - val x0) <= D + 6 * (ulp1 * B))%R).
  { rewrite Em in Ey'. replace (val y - val x0)%R with ((val y - (val d + val x1)) + ((val d - (val x0 - val y1)) + - (val y1 - val x1)))%R by ring.
    eapply Rle_trans; [apply Rabs_triang|]. pose proof (Rabs_triang (val d - (val x0 - val y1)) (- (val y1 - val x1))). rewrite (Rabs_Ropp (val y1 - val x1)) in *. lra. }
  constructor.
  - split; [exact Fy|]. split; [pose proof (abs_near _ _ _ _ Dy B0); lra|].
    replace (val y - X0)%R with ((val y - val x0) + (val x0 - X0))%R by ring. eapply Rle_trans; [apply Rabs_triang|].
    assert (IZR (6 * (k + 1)) * (ulp1 * B) <= IZR (6 * (k + (size (A := F32) x + 1))) * (ulp1 * B))%R by (apply Rmult_le_compat_r; [lra | apply IZR_le; lia]). lra.
  - rewrite D6 in Dy. replace (k + (size (A := F32) x + 1)) with (k + 1 + size (A := F32) x) by lia. apply (IH (k + 1) x0 y); try assumption; lia.
Qed.
Lemma pad_near B e x X : (low <= B)%R -> (2 * B <= high)%R -> (0 <= e)%R -> 6 * size (A := F32) x <= 2 ^ 24 -> Forall2 (near B e) x X ->
  Forall2 (near (2 * B) (e + IZR (6 * size (A := F32) x) * (ulp1 * B))) (allpass (A := F32) (@f1 F32) x) (allpass (A := RA) 1%R X).
Proof.
  intros HB HH He HN H. rewrite allpass_one. destruct low_tiny as [L0 _].
  apply (pad_from_near B e HB HH He x X H 0 (@f0 F32) (@f0 F32)); try reflexivity; try lia; cbn; rewrite ?Rminus_0_r, ?Rabs_R0; lra.
Qed.

(** ** The tables: gain in hundredths and rounding errors of a stage *)
Definition K100 (s p : Z) : Z :=
  match s, p with
  | 2, 8 => 332 | 2, 12 => 561 | 2, 16 => 730 | 2, 20 => 1237 | 2, 24 => 1612
  | 4, 8 => 214 | 4, 12 => 264 | 4, 16 => 264 | 4, 20 => 325 | 4, 24 => 398
  | 8, 8 => 169 | 8, 12 => 208 | 8, 16 => 208 | 8, 20 => 255 | 8, 24 => 255
  | _, _ => 0
  end.
Definition E1 (s p : Z) : Z :=
  match s, p with
  | 2, 8 => 69 | 2, 12 => 191 | 2, 16 => 295 | 2, 20 => 680 | 2, 24 => 1014
  | 4, 8 => 20 | 4, 12 => 35 | 4, 16 => 35 | 4, 20 => 53 | 4, 24 => 82
  | 8, 8 => 11 | 8, 12 => 18 | 8, 16 => 18 | 8, 20 => 32 | 8, 24 => 32
  | _, _ => 0
  end.

Definition coefQ (n : Z) : Q := n # (2 ^ 48).
Definition ampQ (c : Q) : Q := (1001 # 1000) * (1 + 2 * c).
Definition unitsQ (c : Q) : Q := ((2001 # 1000) * c * (1 + ampQ c) + ampQ c + (1 # 1000)) / (1 - c).
Fixpoint ampsQ (cs : list Q) : Q := match cs with [] => 1 | c :: r => ampsQ r * ampQ c end.
Fixpoint unitssQ (cs : list Q) : Q := match cs with [] => 0 | c :: r => ampsQ r * unitsQ c + ampQ c * unitssQ r end.

Lemma coefQ_R n : Q2R (coefQ n) = coef n.
Proof. reflexivity. Qed.
Lemma Q2R_1 : Q2R 1 = 1%R. Proof. unfold Q2R. cbn. lra. Qed.
Lemma Q2R_2 : Q2R 2 = 2%R. Proof. unfold Q2R. cbn. lra. Qed.
Lemma ampQ_R c : Q2R (ampQ c) = amp (Q2R c).
Proof. unfold ampQ, amp. rewrite !Q2R_mult, Q2R_plus, Q2R_mult, Q2R_1, Q2R_2. unfold Q2R at 1. cbn [Qnum Qden]. lra. Qed.
Lemma unitsQ_R c : (Q2R c < 1)%R -> Q2R (unitsQ c) = units (Q2R c).
Proof.
  intros Hc. unfold unitsQ, units. rewrite Q2R_div.
  - rewrite !Q2R_plus, !Q2R_mult, Q2R_plus, Q2R_minus, ampQ_R, Q2R_1.
    assert (Q2R (2001 # 1000) = (2001 / 1000)%R /\ Q2R (1 # 1000) = (1 / 1000)%R) as [-> ->] by (unfold Q2R; cbn [Qnum Qden]; lra). reflexivity.
  - intros E. apply Qeq_eqR in E. rewrite Q2R_minus, Q2R_1 in E. unfold Q2R at 2 in E. cbn in E. lra.
Qed.
Lemma chainQ_R cs : Forall (fun c => 0 <= c < 95 / 100)%R (map coef cs) ->
  Q2R (ampsQ (map coefQ cs)) = amps (map coef cs) /\ Q2R (unitssQ (map coefQ cs)) = unitss (map coef cs).
Proof.
  induction cs as [|n cs IH]; intros F; cbn [map ampsQ unitssQ amps unitss].
  - split; unfold Q2R; cbn; lra.
  - cbn [map] in F. inversion F as [|? ? Hc F']; subst. destruct (IH F') as [IH1 IH2].
    assert (Hn : (Q2R (coefQ n) < 1)%R) by (rewrite coefQ_R; change (T RA) with R in *; lra).
    rewrite Q2R_plus, !Q2R_mult, ampQ_R, unitsQ_R, IH1, IH2, coefQ_R by exact Hn. split; reflexivity.
Qed.

Definition branch_ok (s p : Z) (l : list Z) : bool :=
  in_range 95 l && Qle_bool ((1001 # 1000) * ampsQ (map coefQ l)) (K100 s p # 100) &&
  Qle_bool (unitssQ (map coefQ l) + 3 * (K100 s p # 100)) (E1 s p # 1).
Lemma branches_ok : forallb (fun s => forallb (fun p => branch_ok s p (evens (iir_ints s p)) && branch_ok s p (odds (iir_ints s p))) [8; 12; 16; 20; 24]) stages = true.
Proof. vm_compute. reflexivity. Qed.

Definition Kr (s p : Z) : R := (IZR (K100 s p) / 100)%R.
Lemma branch_facts s p l : branch_ok s p l = true -> let C := map coef l in
  Forall (fun c => 0 <= c < 95 / 100)%R C /\ (1001 / 1000 * amps C <= Kr s p)%R /\ (unitss C + 3 * Kr s p <= IZR (E1 s p))%R.
Proof.
  intros H C. unfold branch_ok in H. apply andb_prop in H as [H H3]. apply andb_prop in H as [H1 H2].
  assert (F : Forall (fun c => 0 <= c < 95 / 100)%R C) by (apply (coef_range 95); exact H1).
  destruct (chainQ_R l F) as [E1' E2']. fold C in E1', E2'. split; [exact F|].
  apply Qle_bool_iff, Qle_Rle in H2. apply Qle_bool_iff, Qle_Rle in H3.
  rewrite Q2R_mult, E1' in H2. rewrite Q2R_plus, Q2R_mult, E2' in H3. unfold Kr. unfold Q2R in H2, H3. cbn [Qnum Qden] in H2, H3. split; lra.
Qed.
Lemma iir_coeffs_F md s p : stage_no s -> iir_prec p ->
  Forall2 is_coef (coeffs (A := F32) FILTER_IIR md p s) (map coef (iir_ints s p)).
Proof.
  intros Hs Hp. destruct (iir_lits s p Hs Hp) as (t & gd & E & F). unfold coeffs. rewrite E. clear E.
  induction F as [|d n t l H _ IH]; cbn [map]; constructor; [|exact IH]. destruct (lit_F32 0 d n ltac:(lia) H) as [H1 H2]. split; assumption.
Qed.

Definition padded (vec : bool) (s p : Z) : bool := vec && Nat.odd (length (iir_ints s p)).
(** bound and error of a stage's output, in terms of those of its input; n: length of the branches *)
Definition gain_of (vec : bool) (s p : Z) : R := ((if padded vec s p then 2 else 1) * Kr s p)%R.
Definition err_of (vec : bool) (s p n : Z) : R := (IZR (E1 s p) + if padded vec s p then Kr s p * IZR (6 * n + 6) else 0)%R.

Lemma f2_length {X Y} {P : X -> Y -> Prop} {l k} : Forall2 P l k -> length l = length k.
Proof. induction 1; cbn; congruence. Qed.
Lemma nears_size {B e} {x : list F32} {X : list RA} : Forall2 (near B e) x X -> size x = size X.
Proof. intros H. unfold size. f_equal. exact (f2_length H). Qed.

Lemma stage_near md p vec s n (x : list F32) (X : list RA) B e : stage_no s -> iir_prec p -> (0 <= e)%R -> (low <= B)%R -> (gain_of vec s p * B <= high / 4)%R ->
  0 <= n -> (match md with UP => size x | DOWN => size x / 2 end) <= n -> (padded vec s p = true -> 6 * n <= 2 ^ 24) -> (md = DOWN -> Z.even (size (A := F32) x) = true) -> Forall2 (near B e) x X ->
  Forall2 (near (gain_of vec s p * B) (gain_of vec s p * e + ulp1 * err_of vec s p n * B))
    (stage (A := F32) FILTER_IIR md p vec s x) (stage (A := RA) FILTER_IIR md p false s X).
Proof.
  intros Hs Hp He HB HH Hn0 Hn HN Hev H.
  pose proof branches_ok as BO. rewrite forallb_forall in BO. specialize (BO s ltac:(unfold stages; cbn; unfold stage_no in Hs; lia)).
  rewrite forallb_forall in BO. specialize (BO p ltac:(cbn; unfold iir_prec in Hp; lia)). apply andb_prop in BO as [BE BO].
  destruct (branch_facts _ _ _ BE) as (FE & KE & EE). destruct (branch_facts _ _ _ BO) as (FO & KO & EO).
  pose proof (iir_coeffs_F md s p Hs Hp) as FC. pose proof (iir_coeffs_R md s p Hs Hp) as RC. fold coef in RC.
  assert (RC' : coeffs (A := RA) FILTER_IIR md p s = map coef (iir_ints s p)) by exact RC. clear RC.
  destruct (forall2_evens is_coef _ _ _ (le_n _) FC) as [CE CO]. destruct (evens_map coef _ (iir_ints s p) (le_n _)) as [M1 M2].
  apply (fun E => eq_ind _ (fun l : list R => Forall2 is_coef (evens (coeffs (A := F32) FILTER_IIR md p s)) l) CE _ E) in M1 as CE'.
  apply (fun E => eq_ind _ (fun l : list R => Forall2 is_coef (odds (coeffs (A := F32) FILTER_IIR md p s)) l) CO _ E) in M2 as CO'.
  clear CE CO. rename CE' into CE, CO' into CO.
  assert (Len : length (coeffs (A := F32) FILTER_IIR md p s) = length (iir_ints s p)) by exact (eq_trans (f2_length FC) (map_length _ _)).
  set (cs := coeffs (A := F32) FILTER_IIR md p s) in *. set (AE := amps (map coef (evens (iir_ints s p)))) in *. set (AO := amps (map coef (odds (iir_ints s p)))) in *.
  pose proof (amps_ge _ FE) as AE1. pose proof (amps_ge _ FO) as AO1. fold AE in AE1. fold AO in AO1.
  pose proof (unitss_ge _ FE) as UE. pose proof (unitss_ge _ FO) as UO.
  set (VE := unitss (map coef (evens (iir_ints s p)))) in *. set (VO := unitss (map coef (odds (iir_ints s p)))) in *.
  destruct low_tiny as [L0 _]. destruct ulp1_small as [U0 U1]. pose proof high_huge.
  assert (UB : (0 <= ulp1 * B)%R) by (apply Rmult_le_pos; lra).
  set (K := Kr s p) in *. assert (K0 : (1 <= K)%R) by lra.
  assert (KB : (0 <= K * B)%R) by (apply Rmult_le_pos; lra).
  assert (GK : (K * B <= high / 4)%R).
  { eapply Rle_trans; [|exact HH]. apply Rmult_le_compat_r; [lra|]. unfold gain_of. fold K. destruct (padded vec s p); lra. }
  assert (AEB : (amps (map coef (evens (iir_ints s p))) * B <= high)%R) by (fold AE; assert (AE * B <= K * B)%R by (apply Rmult_le_compat_r; lra); lra).
  assert (AOB : (amps (map coef (odds (iir_ints s p))) * B <= high)%R) by (fold AO; assert (AO * B <= K * B)%R by (apply Rmult_le_compat_r; lra); lra).
  (* the two chains, without the extra section *)
  assert (ChE : forall (x : list F32) (X : list RA), Forall2 (near B e) x X ->
    Forall2 (near (1000 / 1001 * K * B) (K * e + ulp1 * (IZR (E1 s p) - 3 * K) * B)) (chain (A := F32) (evens cs) x) (chain (A := RA) (map coef (evens (iir_ints s p))) X)).
  { intros x' X' H'. eapply nears_more; [apply (chain_near _ _ CE FE x' X' B e He HB AEB H')| |]; fold AE VE.
    - apply Rmult_le_compat_r; lra.
    - apply Rplus_le_compat; [apply Rmult_le_compat_r; lra|]. apply Rmult_le_compat_r; [lra|]. apply Rmult_le_compat_l; lra. }
  assert (ChO : forall (x : list F32) (X : list RA), Forall2 (near B e) x X ->
    Forall2 (near (1000 / 1001 * K * B) (K * e + ulp1 * (IZR (E1 s p) - 3 * K) * B)) (chain (A := F32) (odds cs) x) (chain (A := RA) (map coef (odds (iir_ints s p))) X)).
  { intros x' X' H'. eapply nears_more; [apply (chain_near _ _ CO FO x' X' B e He HB AOB H')| |]; fold AO VO.
    - apply Rmult_le_compat_r; lra.
    - apply Rplus_le_compat; [apply Rmult_le_compat_r; lra|]. apply Rmult_le_compat_r; [lra|]. apply Rmult_le_compat_l; lra. }
  assert (E3 : (0 <= IZR (E1 s p) - 3 * K)%R) by lra. set (E' := (IZR (E1 s p) - 3 * K)%R) in *.
  set (B1 := (1000 / 1001 * K * B)%R) in *. set (e1 := (K * e + ulp1 * E' * B)%R) in *.
  assert (Ke : (0 <= K * e)%R) by (apply Rmult_le_pos; lra).
  assert (UE0 : (0 <= E' * (ulp1 * B))%R) by (apply Rmult_le_pos; lra).
  assert (UK0 : (0 <= K * (ulp1 * B))%R) by (apply Rmult_le_pos; lra).
  assert (e10 : (0 <= e1)%R) by (unfold e1; lra).
  assert (LB1 : (low <= B1)%R) by (unfold B1; assert (1001 / 1000 * B <= K * B)%R by (apply Rmult_le_compat_r; lra); lra).
  assert (B1K : (B1 = 1000 / 1001 * (K * B))%R) by (unfold B1; ring).
  assert (N0 : (0 <= IZR (6 * n))%R) by (apply IZR_le; lia).
  assert (UN0 : (0 <= IZR (6 * n) * (K * (ulp1 * B)))%R) by (apply Rmult_le_pos; lra).
  (* the second chain with the extra section *)
  assert (ChP : padded vec s p = true -> forall (x : list F32) (X : list RA), size x <= n -> Forall2 (near B e) x X ->
    Forall2 (near (2 * B1) (e1 + IZR (6 * n) * (ulp1 * B1))) (chain (A := F32) (odds cs ++ [@f1 F32]) x) (chain (A := RA) (map coef (odds (iir_ints s p))) X)).
  { intros P x' X' Sx' H'. specialize (HN P). rewrite chain_snoc. rewrite <- (allpass_one (chain (A := RA) (map coef (odds (iir_ints s p))) X')).
    assert (Sz : size (chain (A := F32) (odds cs) x') = size x') by (unfold size; now rewrite chain_length).
    eapply nears_more; [apply (pad_near B1 e1 _ _ LB1 ltac:(lra) e10 ltac:(rewrite Sz; lia) (ChO _ _ H')) | lra|].
    rewrite Sz. apply Rplus_le_compat_l. apply Rmult_le_compat_r; [apply Rmult_le_pos; lra | apply IZR_le; lia]. }
  assert (UB1 : (ulp1 * B1 = 1000 / 1001 * (K * (ulp1 * B)))%R) by (unfold B1; ring).
  assert (Err : (ulp1 * err_of vec s p n * B = (E' + 3 * K) * (ulp1 * B) + (if padded vec s p then (IZR (6 * n) + 6) * (K * (ulp1 * B)) else 0))%R).
  { unfold err_of. fold K. destruct (padded vec s p); rewrite ?plus_IZR; unfold E'; ring. }
  assert (NU1 : (IZR (6 * n) * (ulp1 * B1) <= IZR (6 * n) * (K * (ulp1 * B)))%R) by (apply Rmult_le_compat_l; lra).
  unfold stage. fold cs. rewrite RC'. unfold iir_up2_sse, iir_down2_sse, iir_up2, iir_down2. rewrite M1, M2. destruct md.
  - (* up *)
    assert (Plain : padded vec s p = false -> Forall2 (near (gain_of vec s p * B) (gain_of vec s p * e + ulp1 * err_of vec s p n * B))
      (weave (chain (A := F32) (evens cs) x) (chain (A := F32) (odds cs) x))
      (weave (chain (A := RA) (map coef (evens (iir_ints s p))) X) (chain (A := RA) (map coef (odds (iir_ints s p))) X))).
    { intros P. apply forall2_weave; (eapply nears_more; [first [apply ChE; exact H | apply ChO; exact H]| |]); rewrite ?Err; unfold gain_of; rewrite P; fold K; unfold e1; lra. }
    destruct vec; [|apply Plain; reflexivity].
    unfold even_up. rewrite Len. unfold padded in *. cbn [andb] in *. destruct (Nat.odd (length (iir_ints s p))) eqn:Od; [|apply Plain; reflexivity].
    clear Plain. assert (Lcs : Nat.odd (length cs) = true) by now rewrite Len. rewrite evens_snoc_odd, odds_snoc_odd by exact Lcs.
    apply forall2_weave; (eapply nears_more; [first [apply ChE; exact H | apply ChP; [reflexivity | lia | exact H]]| |]); rewrite ?Err; unfold gain_of, padded; cbn [andb]; rewrite ?Od; fold K; unfold e1; lra.
  - (* down *)
    destruct (forall2_evens (near B e) _ _ _ (le_n _) H) as [HE HO].
    assert (SE : size (evens x) = size x / 2).
    { specialize (Hev eq_refl). apply Z.even_spec in Hev. destruct Hev as [h Eh]. rewrite Eh, Z.mul_comm, Z.div_mul by lia.
      unfold size in *. rewrite evens_length. replace (length x) with (2 * Z.to_nat h)%nat by lia. rewrite Nat.div2_succ_double. lia. }
    assert (Plain : padded vec s p = false -> Forall2 (near (gain_of vec s p * B) (gain_of vec s p * e + ulp1 * err_of vec s p n * B))
      (zip (A := F32) (fun a b => fmul (fadd b a) fhalf) (chain (A := F32) (evens cs) (odds x)) (chain (A := F32) (odds cs) (evens x)))
      (zip (A := RA) (fun a b => fmul fhalf (fadd a b)) (chain (A := RA) (map coef (evens (iir_ints s p))) (odds X)) (chain (A := RA) (map coef (odds (iir_ints s p))) (evens X)))).
    { intros P. apply (forall2_zip (near B1 e1)); [|apply ChE; exact HO | apply ChO; exact HE]. intros u v U V Hu Hv.
      change (near (gain_of vec s p * B) (gain_of vec s p * e + ulp1 * err_of vec s p n * B) (b32_mult (b32_plus v u) (@fhalf F32)) (/ 2 * (U + V))%R).
      rewrite b32_mult_comm, (b32_plus_comm v). eapply near_more; [apply (mean_near u v U V B1 e1 LB1 ltac:(lra) Hu Hv)| |]; rewrite ?Err; unfold gain_of; rewrite P; fold K; [lra|unfold e1; lra]. }
    assert (Plain' : padded vec s p = false -> Forall2 (near (gain_of vec s p * B) (gain_of vec s p * e + ulp1 * err_of vec s p n * B))
      (zip (A := F32) (fun a b => fmul fhalf (fadd a b)) (chain (A := F32) (evens cs) (odds x)) (chain (A := F32) (odds cs) (evens x)))
      (zip (A := RA) (fun a b => fmul fhalf (fadd a b)) (chain (A := RA) (map coef (evens (iir_ints s p))) (odds X)) (chain (A := RA) (map coef (odds (iir_ints s p))) (evens X)))).
    { intros P. rewrite (zip_ext (A := F32) _ (fun a b => fmul (fadd b a) fhalf)); [now apply Plain|]. intros a b.
      change (b32_mult (@fhalf F32) (b32_plus a b) = b32_mult (b32_plus b a) (@fhalf F32)). now rewrite b32_mult_comm, (b32_plus_comm a). }
    destruct vec; [|apply Plain'; reflexivity].
    unfold even_up. rewrite Len. unfold padded in *. cbn [andb] in *. destruct (Nat.odd (length (iir_ints s p))) eqn:Od; [|apply Plain; reflexivity].
    clear Plain Plain'. assert (Lcs : Nat.odd (length cs) = true) by now rewrite Len. rewrite evens_snoc_odd, odds_snoc_odd by exact Lcs.
    apply (forall2_zip (near (2 * B1) (e1 + IZR (6 * n) * (ulp1 * B1)))).
    + intros u v U V Hu Hv. 
      change (near (gain_of true s p * B) (gain_of true s p * e + ulp1 * err_of true s p n * B) (b32_mult (b32_plus v u) (@fhalf F32)) (/ 2 * (U + V))%R).
      rewrite b32_mult_comm, (b32_plus_comm v). eapply near_more; [apply (mean_near u v U V (2 * B1) _ ltac:(lra) ltac:(lra) Hu Hv)| |]; rewrite ?Err; unfold gain_of, padded; cbn [andb]; rewrite ?Od; fold K; [lra|unfold e1; lra].
    + eapply nears_more; [apply ChE; exact HO | lra |]. assert (0 <= IZR (6 * n) * (ulp1 * B1))%R by (apply Rmult_le_pos; lra). lra.
    + apply ChP; [reflexivity | rewrite SE; lia | exact HE].
Qed.

(** ** The whole resampler *)

(** what an error e and a bound B become *)
Definition tot_gain (vec : bool) (ratio p : Z) : R :=
  (if ratio =? 1 then 1 else if ratio =? 2 then gain_of vec 2 p else if ratio =? 4 then gain_of vec 4 p * gain_of vec 2 p
   else gain_of vec 8 p * (gain_of vec 4 p * gain_of vec 2 p))%R.
Definition tot_err (vec : bool) (ratio p n : Z) : R :=
  let g s := gain_of vec s p in let e s := err_of vec s p n in
  (if ratio =? 1 then 0 else if ratio =? 2 then e 2%Z else if ratio =? 4 then g 4%Z * e 2%Z + e 4%Z * g 2%Z
   else g 8%Z * (g 4%Z * e 2%Z + e 4%Z * g 2%Z) + e 8%Z * (g 4%Z * g 2%Z))%R.

Lemma gain_range vec s p : stage_no s -> iir_prec p -> (1 <= gain_of vec s p <= 33)%R.
Proof.
  intros [->|[->| ->]] [->|[->|[->|[->| ->]]]]; unfold gain_of, Kr; cbn [K100]; destruct (padded _ _ _); lra.
Qed.
Lemma err_ge vec s p n : stage_no s -> iir_prec p -> 0 <= n -> (0 <= err_of vec s p n)%R.
Proof.
  intros Hs Hp Hn. unfold err_of. assert (0 <= IZR (E1 s p))%R by (apply IZR_le; destruct Hs as [->|[->| ->]], Hp as [->|[->|[->|[->| ->]]]]; cbn; lia).
  assert (0 <= Kr s p)%R by (unfold Kr; destruct Hs as [->|[->| ->]], Hp as [->|[->|[->|[->| ->]]]]; cbn [K100]; lra).
  assert (0 <= IZR (6 * n + 6))%R by (apply IZR_le; lia). assert (0 <= Kr s p * IZR (6 * n + 6))%R by (apply Rmult_le_pos; assumption).
  destruct (padded _ _ _); lra.
Qed.
Lemma iir_stage_size {A : arith} md p vec s (x : list A) : (md = DOWN -> Z.even (size x) = true) ->
  size (stage (A := A) FILTER_IIR md p vec s x) = match md with UP => 2 * size x | DOWN => size x / 2 end.
Proof.
  intros Hev. unfold stage, iir_up2_sse, iir_down2_sse, iir_up2, iir_down2, size. destruct md.
  - destruct vec; rewrite weave_length by (now rewrite !chain_length); rewrite chain_length; lia.
  - specialize (Hev eq_refl). apply Z.even_spec in Hev. destruct Hev as [h Eh].
    assert (L : length x = (2 * Z.to_nat h)%nat) by (unfold size in Eh; lia).
    destruct vec; rewrite zip_length, !chain_length, evens_length, odds_length, L, Nat.div2_succ_double, Nat.div2_double, Nat.min_id; unfold size in Eh; rewrite L in Eh;
      replace (Z.of_nat (2 * Z.to_nat h)) with (Z.of_nat (Z.to_nat h) * 2) by lia; now rewrite Z.div_mul by lia.
Qed.
Lemma even_div x k : 0 < k -> x mod (2 * k) = 0 -> Z.even (x / k) = true.
Proof.
  intros Hk H. apply Z.even_spec. exists (x / (2 * k)). pose proof (Z.div_mod x (2 * k) ltac:(lia)). rewrite H in *.
  replace x with (2 * (x / (2 * k)) * k) at 1 by lia. now rewrite Z.div_mul by lia.
Qed.

Theorem resample_near md p vec ratio n (x : list F32) M : valid FILTER_IIR ratio p -> (low <= M <= bpow radix2 100)%R ->
  (md = DOWN -> size x mod ratio = 0) ->
  (match md with UP => size x * ratio | DOWN => size x end) <= 2 * n ->
  (forall s, stage_no s -> s <= ratio -> padded vec s p = true -> 6 * n <= 2 ^ 24) ->
  Forall2 (near M 0) x (vals x) ->
  Forall2 (near (tot_gain vec ratio p * M) (ulp1 * tot_err vec ratio p n * M))
    (resample (A := F32) FILTER_IIR md p vec ratio x) (resample (A := RA) FILTER_IIR md p false ratio (vals x)).
Proof.
  intros [Hr HT] HM Hmod Hn HN H.
  assert (S2 : stage_no 2) by (unfold stage_no; auto). assert (S4 : stage_no 4) by (unfold stage_no; auto).
  assert (S8 : stage_no 8) by (unfold stage_no; auto). destruct low_tiny as [L0 _]. destruct ulp1_small as [U0 _].
  assert (X0 : 0 <= size x) by (unfold size; lia).
  assert (n0 : 0 <= n) by (unfold ratio_no in Hr; destruct md; nia).
  assert (M0 : (0 <= ulp1 * M)%R) by (apply Rmult_le_pos; lra).
  assert (HI : (bpow radix2 100 * 1048576 = high)%R) by (unfold high; change 120 with (100 + 20); rewrite bpow_plus; reflexivity).
  unfold ratio_no in Hr. destruct Hr as [->|Hr].
  - unfold resample, tot_gain, tot_err. cbn [Z.eqb Pos.eqb]. destruct md; eapply nears_more; try exact H; lra.
  - assert (HP : iir_prec p) by (apply HT; lia). clear HT.
    pose proof (gain_range vec 2 p S2 HP) as G2. pose proof (gain_range vec 4 p S4 HP) as G4. pose proof (gain_range vec 8 p S8 HP) as G8.
    pose proof (err_ge vec 2 p n S2 HP n0) as E2. pose proof (err_ge vec 4 p n S4 HP n0) as E4. pose proof (err_ge vec 8 p n S8 HP n0) as E8.
    assert (G42 : (1 * 1 <= gain_of vec 4 p * gain_of vec 2 p <= 33 * 33)%R) by (split; apply Rmult_le_compat; lra).
    assert (G48 : (1 * 1 <= gain_of vec 4 p * gain_of vec 8 p <= 33 * 33)%R) by (split; apply Rmult_le_compat; lra).
    assert (St : forall s (x : list F32) (X : list RA) G E, stage_no s -> s <= ratio ->
      Forall2 (near (G * M) (ulp1 * E * M)) x X -> (1 <= G <= 1089)%R -> (0 <= E)%R ->
      (match md with UP => 2 * size x | DOWN => size x end) <= 2 * n -> (md = DOWN -> Z.even (size x) = true) ->
      Forall2 (near (gain_of vec s p * G * M) (ulp1 * (gain_of vec s p * E + err_of vec s p n * G) * M))
        (stage (A := F32) FILTER_IIR md p vec s x) (stage (A := RA) FILTER_IIR md p false s X)).
    { intros s x' X' G E Hs Hsr H' HG HE Hsz Hev. pose proof (gain_range vec s p Hs HP) as Gs.
      assert (GM : (1 * M <= G * M <= 1089 * M)%R) by (split; apply Rmult_le_compat_r; lra).
      eapply nears_more; [apply (stage_near md p vec s n x' X' (G * M) (ulp1 * E * M)); try assumption | |]; try lra.
      - rewrite Rmult_assoc, Rmult_comm, Rmult_assoc. apply Rmult_le_pos; [exact HE | lra].
      - assert (gain_of vec s p * (G * M) <= 33 * (G * M))%R by (apply Rmult_le_compat_r; lra). lra.
      - destruct md; [lia|]. pose proof (Z.div_mod (size x') 2 ltac:(lia)). pose proof (Z.mod_pos_bound (size x') 2 ltac:(lia)). lia.
      - intros P. apply (HN s); assumption. }
    assert (H0 : Forall2 (near (1 * M) (ulp1 * 0 * M)) x (vals x)) by (eapply nears_more; [exact H | lra | lra]).
    assert (Szu : forall s (x : list F32), md = UP -> size (stage (A := F32) FILTER_IIR md p vec s x) = 2 * size x) by (intros s x' ->; rewrite iir_stage_size by discriminate; reflexivity).
    assert (Szd : forall s (x : list F32), md = DOWN -> Z.even (size x) = true -> size (stage (A := F32) FILTER_IIR md p vec s x) = size x / 2) by (intros s x' -> Ev; rewrite iir_stage_size by auto; reflexivity).
    assert (D2 : size x / 4 = size x / 2 / 2) by (rewrite Z.div_div by lia; reflexivity).
    destruct Hr as [->|[->| ->]]; unfold resample, tot_gain, tot_err; cbn [Z.eqb Pos.eqb].
    + assert (R : forall y Y, Forall2 (near (gain_of vec 2 p * 1 * M) (ulp1 * (gain_of vec 2 p * 0 + err_of vec 2 p n * 1) * M)) y Y ->
        Forall2 (near (gain_of vec 2 p * M) (ulp1 * err_of vec 2 p n * M)) y Y) by (intros y Y Hy; eapply nears_more; [exact Hy | lra | lra]).
      destruct md; apply R; (apply St; try assumption; try lia; try lra; try discriminate).
      intros _. specialize (Hmod eq_refl). rewrite <- (Z.div_1_r (size x)). now apply even_div.
    + destruct md.
      * pose proof (St 2 x _ 1%R 0%R S2 ltac:(lia) H0 ltac:(lra) ltac:(lra) ltac:(lia) ltac:(discriminate)) as J2.
        pose proof (St 4 _ _ _ _ S4 ltac:(lia) J2 ltac:(lra) ltac:(lra) ltac:(rewrite Szu by reflexivity; lia) ltac:(discriminate)) as J4.
        eapply nears_more; [exact J4 | lra | lra].
      * specialize (Hmod eq_refl).
        assert (Ev1 : Z.even (size x) = true) by (rewrite <- (Z.div_1_r (size x)); apply even_div; [lia|]; apply Z.mod_divide; [lia|]; apply Z.mod_divide in Hmod; [|lia]; destruct Hmod as [q Hq]; exists (2 * q); lia).
        assert (Ev2 : Z.even (size x / 2) = true) by (apply even_div; [lia | exact Hmod]).
        pose proof (Z.div_mod (size x) 2 ltac:(lia)). pose proof (Z.mod_pos_bound (size x) 2 ltac:(lia)).
        pose proof (St 4 x _ 1%R 0%R S4 ltac:(lia) H0 ltac:(lra) ltac:(lra) ltac:(lia) ltac:(auto)) as J4.
        pose proof (St 2 _ _ _ _ S2 ltac:(lia) J4 ltac:(lra) ltac:(lra) ltac:(rewrite Szd by auto; lia) ltac:(rewrite Szd by auto; auto)) as J2.
        eapply nears_more; [exact J2 | lra | lra].
    + destruct md.
      * pose proof (St 2 x _ 1%R 0%R S2 ltac:(lia) H0 ltac:(lra) ltac:(lra) ltac:(lia) ltac:(discriminate)) as J2.
        pose proof (St 4 _ _ _ _ S4 ltac:(lia) J2 ltac:(lra) ltac:(lra) ltac:(rewrite Szu by reflexivity; lia) ltac:(discriminate)) as J4.
        refine (_ (St 8 _ _ _ _ S8 _ J4 _ _ _ _)); [intros J8; eapply nears_more; [exact J8 | lra | lra] | lia | lra | | rewrite !Szu by reflexivity; lia | discriminate].
        assert (0 <= gain_of vec 4 p * (gain_of vec 2 p * 0 + err_of vec 2 p n * 1))%R by (apply Rmult_le_pos; lra).
        assert (0 <= err_of vec 4 p n * (gain_of vec 2 p * 1))%R by (apply Rmult_le_pos; lra). lra.
      * specialize (Hmod eq_refl). apply Z.mod_divide in Hmod; [|lia]. destruct Hmod as [q Hq].
        assert (Q1 : size x / 2 = 4 * q) by (rewrite Hq; replace (q * 8) with (4 * q * 2) by lia; apply Z.div_mul; lia).
        assert (Q2 : size x / 2 / 2 = 2 * q) by (rewrite Q1; replace (4 * q) with (2 * q * 2) by lia; apply Z.div_mul; lia).
        assert (Ev1 : Z.even (size x) = true) by (apply Z.even_spec; exists (4 * q); lia).
        assert (Ev2 : Z.even (size x / 2) = true) by (apply Z.even_spec; exists (2 * q); lia).
        assert (Ev3 : Z.even (size x / 2 / 2) = true) by (apply Z.even_spec; exists q; lia).
        pose proof (St 8 x _ 1%R 0%R S8 ltac:(lia) H0 ltac:(lra) ltac:(lra) ltac:(lia) ltac:(auto)) as J8.
        assert (Z8 : size (stage (A := F32) FILTER_IIR DOWN p vec 8 x) = size x / 2) by (apply Szd; auto).
        pose proof (St 4 _ _ _ _ S4 ltac:(lia) J8 ltac:(lra) ltac:(lra) ltac:(rewrite Z8; lia) ltac:(rewrite Z8; auto)) as J4.
        assert (Z4 : size (stage (A := F32) FILTER_IIR DOWN p vec 4 (stage (A := F32) FILTER_IIR DOWN p vec 8 x)) = size x / 2 / 2) by (rewrite Szd by (rewrite ?Z8; auto); now rewrite Z8).
        refine (_ (St 2 _ _ _ _ S2 _ J4 _ _ _ _)); [intros J2; eapply nears_more; [exact J2 | lra | lra] | lia | lra | | rewrite Z4; lia | rewrite Z4; auto].
        assert (0 <= gain_of vec 4 p * (gain_of vec 8 p * 0 + err_of vec 8 p n * 1))%R by (apply Rmult_le_pos; lra).
        assert (0 <= err_of vec 4 p n * (gain_of vec 8 p * 1))%R by (apply Rmult_le_pos; lra). lra.
Qed.

(** ** Numbers *)

(** units in the last place of a bound of the input *)
Definition iir_units (ratio p : Z) : Z :=
  match ratio, p with
  | 2, 8 => 69 | 2, 12 => 191 | 2, 16 => 295 | 2, 20 => 680 | 2, 24 => 1014
  | 4, 8 => 215 | 4, 12 => 701 | 4, 16 => 1035 | 4, 20 => 2866 | 4, 24 => 5358
  | 8, 8 => 440 | 8, 12 => 1724 | 8, 16 => 2499 | 8, 20 => 8594 | 8, 24 => 15715
  | _, _ => 0
  end.
(** the same with vector code: a fixed number, and a number for every two samples at the high rate *)
Definition iir_units_sse (ratio p : Z) : Z * Z :=
  match ratio, p with
  | 2, 8 => (89, 20) | 2, 12 => (225, 34) | 2, 16 => (295, 0) | 2, 20 => (680, 0) | 2, 24 => (1111, 97)
  | 4, 8 => (324, 43) | 4, 12 => (1757, 356) | 4, 16 => (1929, 116) | 4, 20 => (2866, 0) | 4, 24 => (12255, 1540)
  | 8, 8 => (1393, 289) | 8, 12 => (4721, 740) | 8, 16 => (4706, 241) | 8, 20 => (16517, 616) | 8, 24 => (74639, 11780)
  | _, _ => (0, 0)
  end.
Lemma units_ok ratio p n : valid FILTER_IIR ratio p -> (tot_err false ratio p n <= IZR (iir_units ratio p))%R.
Proof.
  intros [Hr HT]. unfold ratio_no in Hr. destruct Hr as [->|Hr]; [unfold tot_err, iir_units; cbn [Z.eqb Pos.eqb]; lra|].
  assert (HP : iir_prec p) by (apply HT; lia). clear HT. unfold iir_prec in HP. unfold tot_err, gain_of, err_of, Kr, padded. cbn [andb].
  destruct Hr as [->|[->| ->]], HP as [->|[->|[->|[->| ->]]]]; cbn [Z.eqb Pos.eqb K100 E1 iir_units]; lra.
Qed.
Lemma units_sse_ok ratio p n : valid FILTER_IIR ratio p -> 0 <= n ->
  (tot_err true ratio p n <= IZR (fst (iir_units_sse ratio p) + snd (iir_units_sse ratio p) * n))%R.
Proof.
  intros [Hr HT] Hn. apply IZR_le in Hn. rewrite plus_IZR, mult_IZR. unfold ratio_no in Hr. destruct Hr as [->|Hr]; [unfold tot_err, iir_units_sse; cbn [Z.eqb Pos.eqb fst snd]; lra|].
  assert (HP : iir_prec p) by (apply HT; lia). clear HT. unfold iir_prec in HP. unfold tot_err, gain_of, err_of, Kr. rewrite !plus_IZR, !mult_IZR.
  destruct Hr as [->|[->| ->]], HP as [->|[->|[->|[->| ->]]]]; cbn -[IZR Rmult Rplus Rdiv Rle]; lra.
Qed.
Lemma padded_sse ratio p s : valid FILTER_IIR ratio p -> stage_no s -> s <= ratio -> padded true s p = true -> snd (iir_units_sse ratio p) <> 0.
Proof.
  intros [Hr HT] Hs L. unfold ratio_no in Hr. unfold stage_no in Hs. destruct Hr as [->|Hr]; [lia|].
  assert (HP : iir_prec p) by (apply HT; lia). clear HT. unfold iir_prec in HP.
  destruct Hs as [->|[->| ->]], Hr as [->|[->| ->]], HP as [->|[->|[->|[->| ->]]]]; try lia; cbn; intros; discriminate.
Qed.
