(** * Single precision response of FIR stages to an impulse: the taps, exactly *)
From Coq Require Import ZArith Reals List Lia Lra Bool ZifyNat ZifyBool.
From Flocq Require Import Core BinarySingleNaN.
From Verif Require Import Arith ArithF Tables ResamplerModel ResamplerOk Spec SpecOk TablesF FloatComm FloatSum FloatFir LitProof.
Import ListNotations.
Open Scope Z_scope.

Definition is_val (v : b32) (x : R) : Prop := fin v /\ val v = x.

Lemma val_format (v : b32) : rnd (val v) = val v.
Proof. apply round_generic; [apply valid_rnd_N | exact (generic_format_B2R 24 128 v)]. Qed.
Lemma val_small (v : b32) : (Rabs (val v) < bpow radix2 128)%R.
Proof. exact (abs_B2R_lt_emax 24 128 v). Qed.

Lemma iv_plus a b x y : is_val a x -> is_val b y -> x = 0%R \/ y = 0%R -> is_val (b32_plus a b) (x + y).
Proof.
  intros [Fa Va] [Fb Vb] H.
  assert (E : rnd (val a + val b) = (val a + val b)%R) by (destruct H as [-> | ->]; rewrite ?Va, ?Vb, ?Rplus_0_l, ?Rplus_0_r; rewrite <- ?Va, <- ?Vb; apply val_format).
  assert (F : fin (b32_plus a b)).
  { apply plus_fin; [exact Fa | exact Fb|]. rewrite E. destruct H as [H|H]; [rewrite Va, H, Rplus_0_l | rewrite Vb, H, Rplus_0_r]; apply val_small. }
  split; [exact F|]. rewrite plus_val, E, Va, Vb by exact F. reflexivity.
Qed.
Lemma iv_mult a b x y : is_val a x -> is_val b y -> x = 0%R \/ x = 1%R -> is_val (b32_mult a b) (x * y).
Proof.
  intros [Fa Va] [Fb Vb] H.
  assert (E : rnd (val a * val b) = (val a * val b)%R).
  { rewrite Va. destruct H as [-> | ->]; [rewrite Rmult_0_l; apply round_0, valid_rnd_N | rewrite Rmult_1_l; apply val_format]. }
  assert (F : fin (b32_mult a b)).
  { apply mult_fin; [exact Fa | exact Fb|]. rewrite E, Va. destruct H as [-> | ->]; [rewrite Rmult_0_l, Rabs_R0; apply bpow_gt_0 | rewrite Rmult_1_l; apply val_small]. }
  split; [exact F|]. rewrite mult_val, E, Va, Vb by exact F. reflexivity.
Qed.
Lemma iv_zero : is_val (@f0 F32) 0.
Proof. split; reflexivity. Qed.
Lemma iv_eq v x y : is_val v x -> x = y -> is_val v y.
Proof. intros H <-. exact H. Qed.

(** a sum in which all terms but one are zero *)
Section Term.
Variables (w t : Z -> F32) (i0 : Z) (q : R).
Hypothesis T : forall i, is_val (b32_mult (w i) (t i)) (if i =? i0 then q else 0).
Hypothesis FW : forall i, fin (w i).
Lemma iv_null i : is_val (b32_mult (w i) (@f0 F32)) 0.
Proof. rewrite b32_mult_comm. eapply iv_eq; [apply (iv_mult _ _ 0 (val (w i)) iv_zero); [split; [apply FW | reflexivity] | auto]|]. ring. Qed.
Lemma iv_mac1 n : is_val (mac (A := F32) n w t) (if (0 <=? i0) && (i0 <? Z.of_nat n) then q else 0).
Proof.
  induction n as [|n IH]; cbn [mac].
  - replace ((0 <=? i0) && (i0 <? Z.of_nat 0)) with false by lia. exact iv_zero.
  - eapply iv_eq; [apply (iv_plus _ _ _ _ IH (T (Z.of_nat n)))|].
    + destruct (Z.eqb_spec (Z.of_nat n) i0) as [E|E]; [left | right; reflexivity]. now replace ((0 <=? i0) && (i0 <? Z.of_nat n)) with false by lia.
    + destruct (Z.eqb_spec (Z.of_nat n) i0) as [E|E].
      * replace ((0 <=? i0) && (i0 <? Z.of_nat n)) with false by lia. replace ((0 <=? i0) && (i0 <? Z.of_nat (S n))) with true by lia. ring.
      * replace ((0 <=? i0) && (i0 <? Z.of_nat (S n))) with ((0 <=? i0) && (i0 <? Z.of_nat n)) by lia. ring.
Qed.
Lemma iv_vterm1 n i : is_val (vterm (A := F32) n w t i) (if (i =? i0) && ((0 <=? i0) && (i0 <? n)) then q else 0).
Proof.
  unfold vterm, tap0. destruct ((0 <=? i) && (i <? n)) eqn:B.
  - eapply iv_eq; [apply T|]. destruct (Z.eqb_spec i i0) as [->|]; [now rewrite B | reflexivity].
  - eapply iv_eq; [apply iv_null|]. destruct (Z.eqb_spec i i0) as [->|]; [now rewrite B | reflexivity].
Qed.
Definition in_lane (s : Z) (g : nat) : bool := ((i0 - s) mod 4 =? 0) && ((0 <=? i0 - s) && (i0 - s <=? 4 * Z.of_nat g)).
Lemma iv_vlane1 n s g : is_val (vlane (A := F32) n w t s g) (if in_lane s g && ((0 <=? i0) && (i0 <? n)) then q else 0).
Proof.
  induction g as [|g IH]; cbn [vlane].
  - eapply iv_eq; [apply iv_vterm1|]. assert (E : (s =? i0) = in_lane s 0); [|now rewrite E].
    unfold in_lane. destruct (Z.eqb_spec s i0) as [->|]; [rewrite Z.sub_diag; reflexivity|]. lia.
  - assert (X : in_lane s (S g) = in_lane s g || (4 * Z.of_nat (S g) + s =? i0)) by (unfold in_lane; Z.div_mod_to_equations; lia).
    assert (Y : 4 * Z.of_nat (S g) + s = i0 -> in_lane s g = false) by (unfold in_lane; intros; lia).
    eapply iv_eq; [apply (iv_plus _ _ _ _ IH (iv_vterm1 n (4 * Z.of_nat (S g) + s)))|].
    + destruct (Z.eqb_spec (4 * Z.of_nat (S g) + s) i0) as [E|E]; [left; now rewrite Y by exact E | right; reflexivity].
    + rewrite X. destruct (Z.eqb_spec (4 * Z.of_nat (S g) + s) i0) as [E|E]; [rewrite Y by exact E|]; cbn [orb andb]; [|rewrite orb_false_r; ring].
      destruct ((0 <=? i0) && (i0 <? n)); ring.
Qed.
Lemma iv_vmac1 n j : 1 <= n -> 0 <= j <= 3 -> is_val (vmac (A := F32) n w t j) (if (0 <=? i0) && (i0 <? n) then q else 0).
Proof.
  intros Hn Hj. unfold vmac. set (g := Z.to_nat ((n + 6) / 4 - 1)).
  assert (G : n + 2 <= 4 * Z.of_nat g + 3) by (unfold g; Z.div_mod_to_equations; lia). clearbody g.
  pose proof (iv_vlane1 n (0 - j) g) as L0. pose proof (iv_vlane1 n (1 - j) g) as L1. pose proof (iv_vlane1 n (2 - j) g) as L2. pose proof (iv_vlane1 n (3 - j) g) as L3.
  destruct ((0 <=? i0) && (i0 <? n)) eqn:B.
  - rewrite andb_true_r in L0, L1, L2, L3.
    assert (K : forall l, 0 <= l <= 3 -> in_lane (l - j) g = ((i0 + j) mod 4 =? l)) by (intros l Hl; unfold in_lane; Z.div_mod_to_equations; lia).
    rewrite (K 0) in L0 by lia. rewrite (K 1) in L1 by lia. rewrite (K 2) in L2 by lia. rewrite (K 3) in L3 by lia.
    pose proof (Z.mod_pos_bound (i0 + j) 4 eq_refl) as M. set (m := (i0 + j) mod 4) in *. clearbody m.
    assert (D : m = 0 \/ m = 1 \/ m = 2 \/ m = 3) by lia.
    eapply iv_eq; [apply iv_plus; [apply iv_plus; [apply iv_plus; [exact L0 | exact L1|] | exact L2|] | exact L3|]|];
      destruct D as [->|[->|[->| ->]]]; cbn [Z.eqb Pos.eqb]; rewrite ?Rplus_0_l, ?Rplus_0_r; auto.
  - rewrite andb_false_r in L0, L1, L2, L3.
    eapply iv_eq; [apply iv_plus; [apply iv_plus; [apply iv_plus; [exact L0 | exact L1|] | exact L2|] | exact L3|]|]; rewrite ?Rplus_0_l; auto.
Qed.
Lemma iv_sum1 vec n v : 1 <= n -> sum_of (A := F32) vec n w t v -> is_val v (if (0 <=? i0) && (i0 <? n) then q else 0).
Proof.
  intros Hn [->|(_ & j & Hj & ->)]; [|apply iv_vmac1; assumption]. pose proof (iv_mac1 (Z.to_nat n)) as M. rewrite Z2Nat.id in M by lia. exact M.
Qed.
End Term.

Section Sum.
Variables (w t : Z -> F32) (i0 : Z) (b : R) (c : Z -> R).
Hypothesis B01 : b = 0%R \/ b = 1%R.
Hypothesis W : forall i, is_val (w i) (if i =? i0 then b else 0).
Hypothesis C : forall i, is_val (t i) (c i).
Lemma iv_term i : is_val (b32_mult (w i) (t i)) (if i =? i0 then b * c i0 else 0).
Proof.
  eapply iv_eq; [apply (iv_mult _ _ _ _ (W i) (C i)); destruct (i =? i0); auto|]. destruct (Z.eqb_spec i i0) as [->|]; ring.
Qed.
Lemma iv_sum vec n v : 1 <= n -> sum_of (A := F32) vec n w t v -> is_val v (if (0 <=? i0) && (i0 <? n) then b * c i0 else 0).
Proof. apply iv_sum1; [exact iv_term | intros i; apply W]. Qed.
End Sum.

(** the literal with index i, as a number; 0 outside the table *)
Definition literal (tb : list dec) (i : Z) : R := if (0 <=? i) && (i <? Z.of_nat (length tb)) then dec_val (nth (Z.to_nat i) tb (Dec 0 0)) else 0.

Lemma rnd32_0 : rnd32 0 = 0%R. Proof. apply round_0, valid_rnd_N. Qed.
Lemma tap_value s p tb md i : stage_no s -> fir_prec p -> fir_table s p = Some tb ->
  is_val (smp (coeffs (A := F32) FILTER_FIR md p s) i) (rnd32 (literal tb i * match md with UP => 2 | DOWN => 1 end)).
Proof.
  intros Hs Hp E. unfold coeffs. rewrite E. set (k := match md with UP => 1 | DOWN => 0 end).
  unfold literal, smp. destruct (Z.ltb_spec i 0) as [N|N].
  { replace (0 <=? i) with false by lia. cbn [andb]. rewrite Rmult_0_l, rnd32_0. exact iv_zero. }
  replace (0 <=? i) with true by lia. cbn [andb]. destruct (Z.ltb_spec i (Z.of_nat (length tb))) as [L|L].
  - assert (L' : (Z.to_nat i < length tb)%nat) by lia.
    rewrite (nth_indep _ _ (lit (A := F32) (Dec 0 0) k)) by (rewrite map_length; exact L'). change (lit (A := F32) (Dec 0 0) k) with ((fun d => lit (A := F32) d k) (Dec 0 0)). rewrite map_nth. set (d := nth (Z.to_nat i) tb (Dec 0 0)).
    destruct (lit_once d k) as (F & V & _).
    { apply (in_tables s p d Hs); [destruct Hp as [->|[->|[->|[->|[->| ->]]]]]; cbn; auto 7|]. left. rewrite E. unfold d. apply nth_In. exact L'. }
    { unfold k. destruct md; auto. }
    split; [exact F|]. rewrite V. unfold k. destruct md; cbn [bpow]; reflexivity.
  - rewrite nth_overflow by (rewrite map_length; lia). rewrite Rmult_0_l, rnd32_0. exact iv_zero.
Qed.

(** a stream with a one at k *)
Definition impulse (x : list F32) (k : Z) : Prop := 0 <= k < size (A := F32) x /\ forall i, 0 <= i < size (A := F32) x -> is_val (smp x i) (if i =? k then 1 else 0).
Lemma impulse_at x k i : impulse x k -> is_val (smp x i) (if i =? k then 1 else 0).
Proof.
  intros [K H]. destruct (Z.ltb_spec i 0) as [N|N].
  { unfold smp. replace (i <? 0) with true by lia. replace (i =? k) with false by lia. exact iv_zero. }
  destruct (Z.ltb_spec i (size (A := F32) x)) as [L|L]; [apply H; lia|].
  unfold smp. replace (i <? 0) with false by lia. replace (i =? k) with false by lia. rewrite nth_overflow by (unfold size in *; lia). exact iv_zero.
Qed.

Theorem up_impulse vec s p tb (x y : list F32) k : stage_no s -> fir_prec p -> fir_table s p = Some tb -> impulse x k ->
  stage_any (A := F32) FILTER_FIR UP p vec s x y ->
  let N := Z.of_nat (length tb) in
  forall m, 0 <= m < size (A := F32) x ->
  is_val (smp y (2 * m)) (rnd32 (literal tb (N - 1 - (m - k)) * 2)) /\
  is_val (smp y (2 * m + 1)) (if m =? k + N / 2 - 1 then 1 else 0).
Proof.
  intros Hs Hp E I [Sz H] N m Hm. destruct (H m Hm) as [H1 H2].
  assert (SN : size (A := F32) (coeffs (A := F32) FILTER_FIR UP p s) = N) by (unfold coeffs, size; rewrite E, map_length; reflexivity).
  assert (N1 : 2 <= N) by (destruct (fir_table_some s p Hs Hp) as (t' & E' & B); rewrite E in E'; injection E' as <-; unfold N; lia).
  rewrite SN in H1, H2. split.
  - apply (iv_sum _ _ (N - 1 - (m - k)) 1 (fun i => rnd32 (literal tb i * 2))) in H1.
    + eapply iv_eq; [exact H1|]. cbv beta. rewrite Rmult_1_l. destruct ((0 <=? N - 1 - (m - k)) && (N - 1 - (m - k) <? N)) eqn:B; [reflexivity|].
      unfold literal. fold N. rewrite B, Rmult_0_l, rnd32_0. reflexivity.
    + auto.
    + intros i. eapply iv_eq; [apply (impulse_at x k _ I)|]. destruct (Z.eqb_spec (m - N + 1 + i) k), (Z.eqb_spec i (N - 1 - (m - k))); try reflexivity; exfalso; clear - e n; lia.
    + intros i. exact (tap_value s p tb UP i Hs Hp E).
    + lia.
  - rewrite H2. eapply iv_eq; [apply (impulse_at x k _ I)|]. destruct (Z.eqb_spec (m - N / 2 + 1) k), (Z.eqb_spec m (k + N / 2 - 1)); try reflexivity; exfalso; clear - e n; lia.
Qed.

Theorem down_impulse vec s p tb (x y : list F32) k : stage_no s -> fir_prec p -> fir_table s p = Some tb -> impulse x k ->
  stage_any (A := F32) FILTER_FIR DOWN p vec s x y ->
  let N := Z.of_nat (length tb) in
  forall n, 0 <= n < size (A := F32) y ->
  is_val (smp y n) (if Z.even k then rnd32 (literal tb (N - 1 - (n - k / 2))) else if n =? k / 2 + N / 2 then 1 / 2 else 0).
Proof.
  intros Hs Hp E I [Sz H] N n Hn. destruct (H n Hn) as (v & H1 & H2).
  assert (SN : size (A := F32) (coeffs (A := F32) FILTER_FIR DOWN p s) = N) by (unfold coeffs, size; rewrite E, map_length; reflexivity).
  assert (N1 : 2 <= N) by (destruct (fir_table_some s p Hs Hp) as (t' & E' & B); rewrite E in E'; injection E' as <-; unfold N; lia).
  rewrite SN in H1, H2.
  assert (Kd : k = 2 * (k / 2) + (if Z.even k then 0 else 1)).
  { rewrite (Z.div_mod k 2) at 1 by discriminate. rewrite Zmod_even. destruct (Z.even k); reflexivity. }
  assert (V : is_val v (if Z.even k then rnd32 (literal tb (N - 1 - (n - k / 2))) else 0)).
  { destruct (Z.even k) eqn:Ev.
    - apply (iv_sum _ _ (N - 1 - (n - k / 2)) 1 (fun i => rnd32 (literal tb i * 1))) in H1.
      + eapply iv_eq; [exact H1|]. cbv beta. rewrite Rmult_1_l, Rmult_1_r. destruct ((0 <=? N - 1 - (n - k / 2)) && (N - 1 - (n - k / 2) <? N)) eqn:B; [reflexivity|].
        unfold literal. fold N. rewrite B, rnd32_0. reflexivity.
      + auto.
    + intros i. eapply iv_eq; [apply (impulse_at x k _ I)|]. destruct (Z.eqb_spec (2 * (n - N + 1 + i)) k), (Z.eqb_spec i (N - 1 - (n - k / 2))); try reflexivity; exfalso; clear - e n0 Kd; lia.
      + intros i. exact (tap_value s p tb DOWN i Hs Hp E).
      + lia.
    - apply (iv_sum _ _ (-1) 0 (fun i => rnd32 (literal tb i * 1))) in H1.
      + exact H1.
      + auto.
      + intros i. eapply iv_eq; [apply (impulse_at x k _ I)|]. destruct (Z.eqb_spec (2 * (n - N + 1 + i)) k); [exfalso; clear - e Kd; lia | now destruct (i =? -1)].
      + intros i. exact (tap_value s p tb DOWN i Hs Hp E).
      + lia. }
  assert (P : is_val (b32_mult (@fhalf F32) (smp x (2 * (n - N / 2) + 1))) (if 2 * (n - N / 2) + 1 =? k then 1 / 2 else 0)).
  { rewrite b32_mult_comm. eapply iv_eq; [apply iv_mult; [apply (impulse_at x k _ I) | split; [reflexivity | exact half_val] | destruct (_ =? k); auto]|]. destruct (_ =? k); ring. }
  rewrite H2. destruct (Z.even k) eqn:Ev.
  - replace (2 * (n - N / 2) + 1 =? k) with false in P by lia. eapply iv_eq; [apply (iv_plus _ _ _ _ V P); auto|]. ring.
  - eapply iv_eq; [apply (iv_plus _ _ _ _ V P); auto|]. rewrite Rplus_0_l. destruct (Z.eqb_spec (2 * (n - N / 2) + 1) k), (Z.eqb_spec n (k / 2 + N / 2)); try reflexivity; exfalso; clear - e n0 Kd; lia.
Qed.
