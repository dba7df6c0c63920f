(** * How long the responses to an impulse are, in single precision *)
From Coq Require Import ZArith Reals List Lia Lra Bool ZifyNat ZifyBool.
From Flocq Require Import Core BinarySingleNaN.
From Verif Require Import Arith ArithF Mem Tables ResamplerModel ResamplerOk Spec SpecOk TablesF FloatComm FloatSum FloatFir LitProof Impulse
  AccuracyModel RunModel RunProof.
Import ListNotations.
Open Scope Z_scope.

Lemma smp_out (x : list F32) i : i < 0 \/ size (A := F32) x <= i -> smp (A := F32) x i = f0.
Proof.
  intros H. unfold smp. destruct (Z.ltb_spec i 0); [reflexivity|]. apply nth_overflow. unfold size in H. lia.
Qed.

(** finite numbers, zero from c on *)
Definition ends (x : list F32) (c : Z) : Prop := (forall i, fin (smp (A := F32) x i)) /\ forall i, c <= i -> is_val (smp (A := F32) x i) 0.

Section Tail.
Variables (vec : bool) (s p : Z) (tb : list dec).
Hypothesis Hs : stage_no s.
Hypothesis Hp : fir_prec p.
Hypothesis E : fir_table s p = Some tb.
Let N := Z.of_nat (length tb).
Lemma N_even : 2 <= N.
Proof. destruct (fir_table_some s p Hs Hp) as (t' & E' & B). rewrite E in E'. injection E' as <-. unfold N. lia. Qed.
Lemma N_size md : size (A := F32) (coeffs (A := F32) FILTER_FIR md p s) = N.
Proof. unfold coeffs, size. rewrite E, map_length. reflexivity. Qed.

(** a window of zeros *)
Lemma zero_sum md (w : Z -> F32) v : (forall i, fin (w i)) -> (forall i, 0 <= i < N -> is_val (w i) 0) ->
  sum_of (A := F32) vec N w (smp (coeffs (A := F32) FILTER_FIR md p s)) v -> is_val v 0.
Proof.
  intros FW ZW H. pose proof N_even as N2.
  assert (T : forall i, is_val (b32_mult (w i) (smp (coeffs (A := F32) FILTER_FIR md p s) i)) (if i =? -1 then 0 else 0)).
  { intros i. pose proof (tap_value s p tb md i Hs Hp E) as TV. destruct (Z.ltb_spec i 0) as [L|L]; [|destruct (Z.ltb_spec i N) as [L2|L2]].
    - rewrite (smp_out _ i) by lia. eapply iv_eq; [apply iv_null, FW|]. now destruct (i =? -1).
    - eapply iv_eq; [apply (iv_mult _ _ _ _ (ZW i ltac:(lia)) TV); auto|]. rewrite Rmult_0_l. now destruct (i =? -1).
    - rewrite (smp_out _ i) by (rewrite N_size; lia). eapply iv_eq; [apply iv_null, FW|]. now destruct (i =? -1). }
  apply (iv_sum1 w _ (-1) 0 T FW) in H; [exact H | lia].
Qed.

Lemma up_ends (x y : list F32) c : 0 <= c -> ends x c -> stage_any (A := F32) FILTER_FIR UP p vec s x y ->
  forall j, 2 * (c + N - 1) <= j -> is_val (smp (A := F32) y j) 0.
Proof.
  intros Hc [FX ZX] [Sz H] j Hj. pose proof N_even as N2. destruct (Z.ltb_spec j (size (A := F32) y)) as [L|L]; [|rewrite smp_out by lia; exact iv_zero].
  assert (D : exists m, j = 2 * m \/ j = 2 * m + 1) by (exists (j / 2); Z.div_mod_to_equations; lia). destruct D as [m D].
  destruct (H m) as [H1 H2]; [lia|]. rewrite N_size in H1, H2. destruct D as [->| ->].
  - apply zero_sum in H1; [exact H1 | intros i; apply FX | intros i Hi; apply ZX; lia].
  - rewrite H2. apply ZX. Z.div_mod_to_equations; lia.
Qed.

Lemma down_ends (x y : list F32) c : 0 <= c -> ends x c -> stage_any (A := F32) FILTER_FIR DOWN p vec s x y ->
  forall n, c <= 2 * (n - N + 1) -> is_val (smp (A := F32) y n) 0.
Proof.
  intros Hc [FX ZX] [Sz H] n Hn. pose proof N_even as N2. destruct (Z.ltb_spec n (size (A := F32) y)) as [L|L]; [|rewrite smp_out by lia; exact iv_zero].
  destruct (H n) as (v & H1 & H2); [lia|]. rewrite N_size in H1, H2. rewrite H2.
  apply zero_sum in H1; [|intros i; apply FX | intros i Hi; apply ZX; lia].
  assert (P : is_val (b32_mult (@fhalf F32) (smp (A := F32) x (2 * (n - N / 2) + 1))) 0).
  { rewrite b32_mult_comm. eapply iv_eq; [apply (iv_mult _ _ 0 (/ 2)%R); [apply ZX; Z.div_mod_to_equations; lia | split; [reflexivity|] | auto]|].
    - rewrite <- (Rmult_1_l (/ 2)). exact half_val.
    - ring. }
  eapply iv_eq; [apply (iv_plus _ _ _ _ H1 P); auto|]. ring.
Qed.

Lemma impulse_ends x : impulse x 0 -> ends x 1.
Proof.
  intros I. split; intros i; [exact (proj1 (impulse_at x 0 i I))|]. intros Hi. eapply iv_eq; [apply (impulse_at x 0 i I)|]. now replace (i =? 0) with false by lia.
Qed.
Lemma up_impulse_ends x y : impulse x 0 -> stage_any (A := F32) FILTER_FIR UP p vec s x y -> ends y (2 * N).
Proof.
  intros I S. split.
  - intros i. destruct (Z.ltb_spec i 0) as [L|L]; [rewrite smp_out by lia; reflexivity|]. destruct (Z.ltb_spec i (size (A := F32) y)) as [L2|L2]; [|rewrite smp_out by lia; reflexivity].
    pose proof S as [Sz _]. destruct (up_impulse vec s p tb x y 0 Hs Hp E I S (i / 2)) as [[A1 _] [A2 _]]; [Z.div_mod_to_equations; lia|].
    assert (D : i = 2 * (i / 2) \/ i = 2 * (i / 2) + 1) by (Z.div_mod_to_equations; lia). destruct D as [D|D]; rewrite D; assumption.
  - intros i Hi. apply (up_ends x y 1); [lia | apply impulse_ends, I | exact S | lia].
Qed.
Lemma down_impulse_ends x y : impulse x 0 -> stage_any (A := F32) FILTER_FIR DOWN p vec s x y -> ends y N.
Proof.
  intros I S. split.
  - intros i. destruct (Z.ltb_spec i 0) as [L|L]; [rewrite smp_out by lia; reflexivity|]. destruct (Z.ltb_spec i (size (A := F32) y)) as [L2|L2]; [|rewrite smp_out by lia; reflexivity].
    apply (down_impulse vec s p tb x y 0 Hs Hp E I S i). lia.
  - intros i Hi. apply (down_ends x y 1); [lia | apply impulse_ends, I | exact S | lia].
Qed.

(** down and up again: the last sample that is not zero *)
Lemma last_sample x u y : impulse x 0 -> stage_any (A := F32) FILTER_FIR DOWN p vec s x u -> stage_any (A := F32) FILTER_FIR UP p vec s u y ->
  4 * N - 4 < size (A := F32) y -> (bpow radix2 (-60) <= Rabs (literal tb 0))%R -> (Rabs (literal tb 0) <= 1)%R ->
  is_val (smp (A := F32) y (4 * N - 4)) (rnd32 (rnd32 (literal tb 0) * rnd32 (literal tb 0 * 2))) /\ val (smp (A := F32) y (4 * N - 4)) <> 0%R.
Proof.
  intros I S1 [Sz H] L T0 T1. pose proof N_even as N2. pose proof (down_impulse_ends x u I S1) as [FU ZU].
  destruct (H (2 * N - 2)) as [H1 _]; [lia|]. rewrite N_size in H1. replace (2 * (2 * N - 2)) with (4 * N - 4) in H1 by lia.
  assert (U0 : is_val (smp (A := F32) u (N - 1)) (rnd32 (literal tb 0))).
  { eapply iv_eq; [apply (down_impulse vec s p tb x u 0 Hs Hp E I S1); lia|]. cbn [Z.even]. change (0 / 2) with 0. fold N. do 2 f_equal. lia. }
  assert (G : forall v k, (bpow radix2 k <= Rabs v)%R -> -149 <= k -> (bpow radix2 k <= Rabs (rnd32 v))%R).
  { intros v k Hv Hk. unfold rnd32. apply abs_round_ge_generic; [apply FLT_exp_valid; reflexivity | apply valid_rnd_N | | exact Hv].
    apply generic_format_bpow. unfold FLT_exp. lia. }
  assert (G1 : forall v k, (Rabs v <= bpow radix2 k)%R -> -149 <= k -> (Rabs (rnd32 v) <= bpow radix2 k)%R).
  { intros v k Hv Hk. unfold rnd32. apply abs_round_le_generic; [apply FLT_exp_valid; reflexivity | apply valid_rnd_N | | exact Hv].
    apply generic_format_bpow. unfold FLT_exp. lia. }
  set (a := rnd32 (literal tb 0)) in *. set (b := rnd32 (literal tb 0 * 2)).
  assert (Ha : (bpow radix2 (-60) <= Rabs a)%R) by (apply G; [exact T0 | lia]).
  assert (Hb : (bpow radix2 (-60) <= Rabs b)%R) by (apply G; [rewrite Rabs_mult, (Rabs_pos_eq 2) by lra; pose proof (Rabs_pos (literal tb 0)); lra | lia]).
  assert (Ha1 : (Rabs a <= bpow radix2 0)%R) by (apply G1; [exact T1 | lia]).
  assert (Hb1 : (Rabs b <= bpow radix2 1)%R) by (apply G1; [rewrite Rabs_mult, (Rabs_pos_eq 2) by lra; change (bpow radix2 1) with 2%R; lra | lia]).
  assert (Hab : (bpow radix2 (-120) <= Rabs (a * b))%R).
  { change (-120) with (-60 + -60). rewrite bpow_plus, Rabs_mult. apply Rmult_le_compat; try apply bpow_ge_0; assumption. }
  assert (Hab1 : (Rabs (a * b) <= bpow radix2 1)%R).
  { change 1 with (0 + 1). rewrite bpow_plus, Rabs_mult. apply Rmult_le_compat; try apply Rabs_pos; assumption. }
  pose proof (fun i => tap_value s p tb UP i Hs Hp E) as TV. cbn beta in TV.
  assert (PV : is_val (b32_mult (smp (A := F32) u (N - 1)) (smp (coeffs (A := F32) FILTER_FIR UP p s) 0)) (rnd32 (a * b))).
  { destruct U0 as [Fu Vu], (TV 0) as [Ft Vt]. fold b in Vt.
    assert (F : fin (b32_mult (smp (A := F32) u (N - 1)) (smp (coeffs (A := F32) FILTER_FIR UP p s) 0))).
    { apply mult_fin; [exact Fu | exact Ft|]. rewrite Vu, Vt. eapply Rle_lt_trans; [apply (G1 _ 1 Hab1); lia|]. apply bpow_lt. lia. }
    split; [exact F|]. rewrite mult_val by exact F. rewrite Vu, Vt. reflexivity. }
  assert (R : is_val (smp (A := F32) y (4 * N - 4)) (rnd32 (a * b))).
  { apply (iv_sum1 (fun i => smp (A := F32) u (2 * N - 2 - N + 1 + i)) _ 0 (rnd32 (a * b))) in H1; [| |intros i; apply FU|lia].
    - replace ((0 <=? 0) && (0 <? N)) with true in H1 by lia. exact H1.
    - intros i. destruct (Z.eqb_spec i 0) as [->|Ni]; [replace (2 * N - 2 - N + 1 + 0) with (N - 1) by lia; exact PV|].
      destruct (Z.ltb_spec i 0) as [L0|L0].
      + rewrite (smp_out (coeffs (A := F32) FILTER_FIR UP p s) i) by lia. apply iv_null with (w := fun i => smp (A := F32) u (2 * N - 2 - N + 1 + i)). intros k; apply FU.
      + eapply iv_eq; [apply (iv_mult _ _ _ _ (ZU (2 * N - 2 - N + 1 + i) ltac:(lia)) (TV i)); auto|]. ring. }
  split; [exact R|]. rewrite (proj2 R). intros Z0. pose proof (G _ _ Hab ltac:(lia)) as Q. rewrite Z0, Rabs_R0 in Q. pose proof (bpow_gt_0 radix2 (-120)). lra.
Qed.
End Tail.

(** from which index on there are only zeros *)
Definition last_index (rt : resample_type) (N : Z) : Z :=
  match rt with RES_UPSAMPLE => 2 * N | RES_DOWNSAMPLE => N | RES_OVERSAMPLE => 2 * N - 1 | RES_SUBSAMPLE => 4 * N - 2 end.
Theorem response_ends vec rt p tb (x y : list F32) : fir_prec p -> fir_table 2 p = Some tb -> impulse x 0 -> responds (A := F32) vec p rt x y ->
  forall j, last_index rt (Z.of_nat (length tb)) <= j -> is_val (smp (A := F32) y j) 0.
Proof.
  intros Hp E I R j Hj. assert (S2 : stage_no 2) by (left; reflexivity). pose proof (N_even 2 p tb S2 Hp E) as N2. unfold responds, resample_any in R. cbn [Z.eqb Pos.eqb] in R. cbv zeta in R. unfold last_index in Hj.
  set (N := Z.of_nat (length tb)) in *. destruct rt.
  - apply (down_impulse_ends vec 2 p tb S2 Hp E x y I R). exact Hj.
  - apply (up_impulse_ends vec 2 p tb S2 Hp E x y I R). exact Hj.
  - destruct R as (u & R1 & R2). apply (up_ends vec 2 p tb S2 Hp E u y N); [lia | apply (down_impulse_ends vec 2 p tb S2 Hp E x u I R1) | exact R2 | fold N; lia].
  - destruct R as (u & R1 & R2). apply (down_ends vec 2 p tb S2 Hp E u y (2 * N)); [lia | apply (up_impulse_ends vec 2 p tb S2 Hp E x u I R1) | exact R2 | fold N; lia].
Qed.

Lemma table_length p tb : fir_prec p -> fir_table 2 p = Some tb ->
  Z.of_nat (length tb) = if p =? 24 then 52 else if p =? 20 then 42 else if p =? 16 then 32 else if p =? 12 then 24 else if p =? 8 then 16 else 2.
Proof. intros [->|[->|[->|[->|[->| ->]]]]] E; injection E as <-; reflexivity. Qed.

(** the first literals of the two longest tables *)
Lemma first_literal p t : fir_table 2 p = Some t -> p = 20 \/ p = 24 -> (bpow radix2 (-60) <= Rabs (literal t 0) <= 1)%R.
Proof.
  assert (G : forall z, 10 ^ 10 <= Z.abs z <= 10 ^ 22 -> (bpow radix2 (-60) <= Rabs (dec_val (Dec z (-22))) <= 1)%R).
  { intros z [Z1 Z2]. unfold dec_val. cbn [dmant dexp]. change (-22) with (- (22)). rewrite powerRZ_neg'. rewrite ten_pow by lia.
    rewrite Rabs_mult, <- abs_IZR, (Rabs_pos_eq (/ _)%R) by (apply Rlt_le, Rinv_0_lt_compat, IZR_lt; reflexivity).
    change (bpow radix2 (-60)) with (/ IZR (2 ^ 60))%R. apply IZR_le in Z1, Z2.
    assert (P : (0 < IZR (10 ^ 22))%R) by (apply IZR_lt; reflexivity). split.
    - apply Rle_trans with (IZR (10 ^ 10) * / IZR (10 ^ 22))%R; [|apply Rmult_le_compat_r; [apply Rlt_le, Rinv_0_lt_compat, P | exact Z1]].
      change (10 ^ 22) with (10 ^ 10 * 10 ^ 12). rewrite mult_IZR, Rinv_mult, <- Rmult_assoc, Rinv_r, Rmult_1_l by (apply IZR_neq; discriminate).
      apply Rinv_le; [apply IZR_lt; reflexivity | apply IZR_le; discriminate].
    - rewrite <- (Rinv_r (IZR (10 ^ 22))) by lra. apply Rmult_le_compat_r; [apply Rlt_le, Rinv_0_lt_compat, P | exact Z2]. }
  intros E [->| ->]; injection E as <-; apply G; vm_compute; split; discriminate.
Qed.
