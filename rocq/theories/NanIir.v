(** * NaN and infinities in IIR resamplers: once there, they stay *)
From Coq Require Import ZArith Reals List Lia Lra Bool ZifyNat ZifyBool.
From Flocq Require Import Core BinarySingleNaN.
From Verif Require Import Arith ArithR ArithF Mem FirModel IirModel Tables ResamplerModel Wp Stage Cascade
  ResamplerProof ResamplerOk Spec SpecOk SpecR Client Feed StreamFacts DelayFacts ConfigFacts TablesF TableFacts IirReal FloatSum FloatIir.
Import ListNotations.
Open Scope Z_scope.

Notation nan v := (is_nan (v : b32) = true).
Notation bad v := (is_finite (v : b32) = false).
(** a positive number *)
Definition positive (c : b32) : Prop := is_finite_strict c = true /\ Bsign c = false.

Lemma nan_bad (v : b32) : nan v -> bad v.
Proof. destruct v; cbn; congruence. Qed.
Lemma bad_plus a b : bad a \/ bad b -> bad (b32_plus a b).
Proof. intros H. destruct (is_finite (b32_plus a b)) eqn:E; [|reflexivity]. destruct (plus_fin_inv _ _ E). destruct H; congruence. Qed.
Lemma bad_mult a b : bad a \/ bad b -> bad (b32_mult a b).
Proof. intros H. destruct (is_finite (b32_mult a b)) eqn:E; [|reflexivity]. destruct (mult_fin_inv _ _ E). destruct H; congruence. Qed.
Lemma bad_minus a b : bad a \/ bad b -> bad (b32_minus a b).
Proof. unfold b32_minus. intros [H|H]; destruct a as [sa|sa| |sa ma ea Ha], b as [sb|sb| |sb mb eb Hb]; try discriminate H; try reflexivity; cbn; destruct sa, sb; reflexivity. Qed.
Lemma nan_plus a b : nan a \/ nan b -> nan (b32_plus a b).
Proof. intros [H|H]; destruct a as [sa|sa| |sa ma ea Ha], b as [sb|sb| |sb mb eb Hb]; try discriminate H; reflexivity. Qed.
Lemma nan_mult a b : nan a \/ nan b -> nan (b32_mult a b).
Proof. intros [H|H]; destruct a as [sa|sa| |sa ma ea Ha], b as [sb|sb| |sb mb eb Hb]; try discriminate H; reflexivity. Qed.
Lemma nan_minus a b : nan a \/ nan b -> nan (b32_minus a b).
Proof. intros [H|H]; destruct a as [sa|sa| |sa ma ea Ha], b as [sb|sb| |sb mb eb Hb]; try discriminate H; reflexivity. Qed.

(** ** One section *)
Definition step (c x1 y1 x0 : b32) : b32 := b32_plus (b32_mult (b32_minus x0 y1) c) x1.
(** last input and output such that everything after is NaN *)
Definition dead_state (x1 y1 : b32) : Prop := nan y1 \/ exists s, x1 = B754_infinity s /\ y1 = B754_infinity s.
Lemma step_dead c x1 y1 x0 : positive c -> dead_state x1 y1 -> nan (step c x1 y1 x0).
Proof.
  intros [Pc Sc] [H|(s & -> & ->)]; unfold step.
  - apply nan_plus. left. apply nan_mult. left. apply nan_minus. right. exact H.
  - destruct c as [?|?| |sc mc ec Hc]; try discriminate Pc. cbn in Sc. subst sc.
    destruct x0 as [sa|sa| |sa ma ea Ha], s; try reflexivity; destruct sa; reflexivity.
Qed.
Lemma step_bad c x1 y1 x0 : bad x0 -> bad (step c x1 y1 x0).
Proof. intros H. apply bad_plus. left. apply bad_mult. left. apply bad_minus. left. exact H. Qed.
Lemma step_bad_dead c x1 y1 x0 : positive c -> bad x0 -> dead_state x0 (step c x1 y1 x0).
Proof.
  intros [Pc Sc] H. destruct c as [?|?| |sc mc ec Hc]; try discriminate Pc. cbn in Sc. subst sc.
  destruct x0 as [?|s| |? ? ? ?]; try discriminate H.
  - destruct y1 as [sb|sb| |sb mb eb Hb], x1 as [sd|sd| |sd md ed Hd], s; try destruct sb; try destruct sd; (left; reflexivity) || (right; eexists; split; reflexivity).
  - left. apply nan_plus. left. apply nan_mult. left. apply nan_minus. left. reflexivity.
Qed.
Lemma step_nan c x1 y1 x0 : nan x0 -> nan (step c x1 y1 x0).
Proof. intros H. apply nan_plus. left. apply nan_mult. left. apply nan_minus. left. exact H. Qed.

Lemma allpass_dead c (x : list F32) : positive c -> forall x1 y1, dead_state x1 y1 -> forall j, (j < length x)%nat -> nan (nth j (allpass_from (A := F32) c x1 y1 x) f0).
Proof.
  intros Hc. induction x as [|x0 x IH]; intros x1 y1 D j Hj; cbn [length] in Hj; [lia|]. cbn [allpass_from]. cbn zeta.
  pose proof (step_dead c x1 y1 x0 Hc D) as N. destruct j as [|j]; cbn [nth]; [exact N|]. apply IH; [left; exact N | lia].
Qed.
Lemma allpass_bad c (x : list F32) : forall x1 y1 k, (k < length x)%nat -> bad (nth k x f0) -> bad (nth k (allpass_from (A := F32) c x1 y1 x) f0).
Proof.
  induction x as [|x0 x IH]; intros x1 y1 k Hk H; cbn [length] in Hk; [lia|]. cbn [allpass_from]. cbn zeta.
  destruct k as [|k]; cbn [nth] in *; [now apply step_bad | apply IH; [lia | exact H]].
Qed.
Lemma allpass_nan c (x : list F32) : forall x1 y1 k, (k < length x)%nat -> nan (nth k x f0) -> nan (nth k (allpass_from (A := F32) c x1 y1 x) f0).
Proof.
  induction x as [|x0 x IH]; intros x1 y1 k Hk H; cbn [length] in Hk; [lia|]. cbn [allpass_from]. cbn zeta.
  destruct k as [|k]; cbn [nth] in *; [now apply step_nan | apply IH; [lia | exact H]].
Qed.
Lemma allpass_dies c (x : list F32) : positive c -> forall x1 y1 k j, bad (nth k x f0) -> (k < j < length x)%nat -> nan (nth j (allpass_from (A := F32) c x1 y1 x) f0).
Proof.
  intros Hc. induction x as [|x0 x IH]; intros x1 y1 k j H Hj; cbn [length] in Hj; [lia|]. cbn [allpass_from]. cbn zeta.
  destruct j as [|j]; [lia|]. cbn [nth]. destruct k as [|k]; cbn [nth] in H.
  - apply allpass_dead; [exact Hc | now apply step_bad_dead | lia].
  - apply (IH _ _ k); [exact H | lia].
Qed.

(** ** Chains *)
Lemma allpass_length' c (x : list F32) : length (allpass (A := F32) c x) = length x.
Proof. exact (chain_length [c] x). Qed.
Lemma chain_bad (cs x : list F32) k : (k < length x)%nat -> bad (nth k x f0) -> bad (nth k (chain (A := F32) cs x) f0).
Proof.
  revert x. induction cs as [|c cs IH]; intros x Hk H; [exact H|]. cbn [chain fold_left]. apply IH; [now rewrite allpass_length'|]. now apply allpass_bad.
Qed.
Lemma chain_nan (cs x : list F32) k : (k < length x)%nat -> nan (nth k x f0) -> nan (nth k (chain (A := F32) cs x) f0).
Proof.
  revert x. induction cs as [|c cs IH]; intros x Hk H; [exact H|]. cbn [chain fold_left]. apply IH; [now rewrite allpass_length'|]. now apply allpass_nan.
Qed.
Lemma chain_dies (cs x : list F32) k j : Forall positive cs -> cs <> [] -> bad (nth k x f0) -> (k < j < length x)%nat -> nan (nth j (chain (A := F32) cs x) f0).
Proof.
  intros F N H Hj. destruct cs as [|c cs]; [congruence|]. inversion F; subst. cbn [chain fold_left]. apply chain_nan; [rewrite allpass_length'; lia|].
  apply (allpass_dies c x H2 _ _ k); assumption.
Qed.

(** ** Stages *)
Lemma nth_smp (x : list F32) k : smp (A := F32) x (Z.of_nat k) = nth k x f0.
Proof. unfold smp. replace (Z.of_nat k <? 0) with false by lia. now rewrite Nat2Z.id. Qed.
Lemma smp_nth (x : list F32) k : 0 <= k -> smp (A := F32) x k = nth (Z.to_nat k) x f0.
Proof. intros H. rewrite <- nth_smp. now rewrite Z2Nat.id. Qed.

(** not finite from k on, NaN from a on *)
Definition dead (x : list F32) (k a : Z) : Prop := k <= a /\ (forall i, k <= i < size x -> bad (smp x i)) /\ (forall i, a <= i < size x -> nan (smp x i)).

Lemma weave_nth (x y : list F32) j : length x = length y -> nth j (weave x y) f0 = if Nat.even j then nth (Nat.div2 j) x f0 else nth (Nat.div2 j) y f0.
Proof.
  revert y j. induction x as [|a x IH]; intros [|b y] j L; try discriminate.
  - cbn [weave]. rewrite !(nth_overflow (A := F32)) by (cbn; lia). now destruct (Nat.even j).
  - cbn [weave]. destruct j as [|[|j]]; [reflexivity | reflexivity|]. cbn [nth Nat.even Nat.div2]. apply IH. now injection L.
Qed.
Lemma weave_smp' (x y : list F32) j : length x = length y -> 0 <= j -> smp (A := F32) (weave x y) j = if Z.even j then smp x (j / 2) else smp y (j / 2).
Proof.
  intros L Hj. assert (0 <= j / 2) by (apply Z.div_pos; lia). rewrite !smp_nth by lia. rewrite weave_nth by exact L.
  replace (Nat.even (Z.to_nat j)) with (Z.even j).
  2:{ rewrite <- (Z2Nat.id j Hj) at 1. apply eq_true_iff_eq. rewrite Z.even_spec, Nat.even_spec. split; intros [q Q]; [exists (Z.to_nat q) | exists (Z.of_nat q)]; lia. }
  rewrite Nat.div2_div. replace (Z.to_nat j / 2)%nat with (Z.to_nat (j / 2)) by (rewrite Z2Nat.inj_div by lia; reflexivity). reflexivity.
Qed.
Lemma zip_smp' f (x y : list F32) k : length x = length y -> 0 <= k < size (A := F32) x -> smp (A := F32) (zip f x y) k = f (smp x k) (smp y k).
Proof.
  intros L [H0 H1]. rewrite !smp_nth by lia. unfold size in H1. assert (H2 : (Z.to_nat k < length x)%nat) by lia. clear H0 H1. revert y L H2. generalize (Z.to_nat k) as n. clear k.
  induction x as [|a x IH]; intros n [|b y] L Hn; cbn [length] in *; try lia. destruct n as [|n]; cbn [zip nth]; [reflexivity|]. apply IH; [now injection L | lia].
Qed.

Lemma chain_bad_smp (cs x : list F32) k : 0 <= k < size (A := F32) x -> bad (smp x k) -> bad (smp (chain (A := F32) cs x) k).
Proof. intros Hk. rewrite !smp_nth by lia. apply chain_bad. unfold size in Hk. lia. Qed.
Lemma chain_nan_smp (cs x : list F32) k : 0 <= k < size (A := F32) x -> nan (smp x k) -> nan (smp (chain (A := F32) cs x) k).
Proof. intros Hk. rewrite !smp_nth by lia. apply chain_nan. unfold size in Hk. lia. Qed.
Lemma chain_dies_smp (cs x : list F32) k j : Forall positive cs -> cs <> [] -> 0 <= k -> bad (smp x k) -> k < j < size (A := F32) x -> nan (smp (chain (A := F32) cs x) j).
Proof. intros F N H0 H Hj. rewrite smp_nth in * by lia. apply (chain_dies cs x (Z.to_nat k)); try assumption. unfold size in Hj. lia. Qed.

Lemma up_dead (cs x : list F32) k a : 0 <= k -> dead x k a -> dead (iir_up2 (A := F32) cs x) (2 * k) (2 * a).
Proof.
  intros H0 (L & B & N). assert (Len : length (chain (A := F32) (evens cs) x) = length (chain (A := F32) (odds cs) x)) by now rewrite !chain_length.
  assert (Sz : size (A := F32) (iir_up2 (A := F32) cs x) = 2 * size (A := F32) x).
  { unfold iir_up2, size. rewrite weave_length by exact Len. rewrite chain_length. lia. }
  split; [lia|]. split; intros i Hi; rewrite Sz in Hi; unfold iir_up2; rewrite weave_smp' by (try exact Len; lia);
    (assert (D : k <= i / 2 < size (A := F32) x) by (Z.div_mod_to_equations; lia)).
  - destruct (Z.even i); apply chain_bad_smp; try lia; apply B; exact D.
  - assert (a <= i / 2) by (Z.div_mod_to_equations; lia). destruct (Z.even i); apply chain_nan_smp; try lia; apply N; lia.
Qed.
Lemma up_dies (cs x : list F32) k : Forall positive (evens cs) -> Forall positive (odds cs) -> evens cs <> [] -> odds cs <> [] -> 0 <= k -> bad (smp (A := F32) x k) ->
  dead (iir_up2 (A := F32) cs x) (2 * k) (2 * (k + 1)).
Proof.
  intros FE FO NE NO H0 B. assert (Len : length (chain (A := F32) (evens cs) x) = length (chain (A := F32) (odds cs) x)) by now rewrite !chain_length.
  assert (Sz : size (A := F32) (iir_up2 (A := F32) cs x) = 2 * size (A := F32) x).
  { unfold iir_up2, size. rewrite weave_length by exact Len. rewrite chain_length. lia. }
  assert (N : forall i, 2 * (k + 1) <= i < size (A := F32) (iir_up2 (A := F32) cs x) -> nan (smp (iir_up2 (A := F32) cs x) i)).
  { intros i Hi. rewrite Sz in Hi. unfold iir_up2. rewrite weave_smp' by (try exact Len; lia). assert (D : k < i / 2 < size (A := F32) x) by (Z.div_mod_to_equations; lia).
    destruct (Z.even i); apply (chain_dies_smp _ _ k); assumption. }
  split; [lia|]. split; [|exact N]. intros i Hi. destruct (Z_lt_le_dec i (2 * (k + 1))) as [Li|Li]; [|apply nan_bad, N; lia].
  rewrite Sz in Hi. unfold iir_up2. rewrite weave_smp' by (try exact Len; lia). assert (D : i / 2 = k) by (Z.div_mod_to_equations; lia). rewrite D.
  destruct (Z.even i); apply chain_bad_smp; try exact B; lia.
Qed.

(** downsampling; [f] is one of the two ways to write the mean *)
Definition spreads (f : b32 -> b32 -> b32) : Prop := (forall a b, bad a \/ bad b -> bad (f a b)) /\ (forall a b, nan a \/ nan b -> nan (f a b)).
Definition down_with f (cs x : list F32) : list F32 := zip (A := F32) f (chain (A := F32) (evens cs) (odds x)) (chain (A := F32) (odds cs) (evens x)).
Lemma spreads_1 : spreads (fun a b => @fmul F32 fhalf (@fadd F32 a b)).
Proof. split; intros a b H; [apply bad_mult; right; now apply bad_plus | apply nan_mult; right; now apply nan_plus]. Qed.
Lemma spreads_2 : spreads (fun a b => @fmul F32 (@fadd F32 b a) fhalf).
Proof. split; intros a b H; [apply bad_mult; left; apply bad_plus; tauto | apply nan_mult; left; apply nan_plus; tauto]. Qed.

Lemma half_sizes (x : list F32) : Z.even (size (A := F32) x) = true -> size (A := F32) (evens x) = size (A := F32) x / 2 /\ size (A := F32) (odds x) = size (A := F32) x / 2.
Proof.
  intros Ev. apply Z.even_spec in Ev. destruct Ev as [n En]. unfold size in *. rewrite evens_length, odds_length. replace (length x) with (2 * Z.to_nat n)%nat by lia.
  rewrite Nat.div2_double, Nat.div2_succ_double. rewrite Nat2Z.inj_mul. change (Z.of_nat 2) with 2. rewrite (Z.mul_comm 2), Z.div_mul by lia. split; reflexivity.
Qed.
Lemma down_bad f (cs x : list F32) k : spreads f -> Z.even (size (A := F32) x) = true -> 0 <= k < size (A := F32) x -> bad (smp x k) ->
  bad (smp (A := F32) (down_with f cs x) (k / 2)).
Proof.
  intros [SB _] Ev Hk B. destruct (half_sizes x Ev) as [S1 S2].
  assert (Len : length (chain (A := F32) (evens cs) (odds x)) = length (chain (A := F32) (odds cs) (evens x))) by (rewrite !chain_length; unfold size in *; lia).
  assert (Hk2 : 0 <= k / 2 < size (A := F32) x / 2). { apply Z.even_spec in Ev. destruct Ev as [n En]. Z.div_mod_to_equations. lia. }
  unfold down_with. rewrite zip_smp' by (try exact Len; unfold size in *; rewrite chain_length; lia). apply SB.
  destruct (Z.even k) eqn:E.
  - right. apply chain_bad_smp; [lia|]. rewrite smp_evens. apply Z.even_spec in E. destruct E as [q Q]. replace (2 * (k / 2)) with k by (Z.div_mod_to_equations; lia). exact B.
  - left. apply chain_bad_smp; [lia|]. rewrite smp_odds. replace (k / 2 <? 0) with false by lia. assert (Z.odd k = true) by (rewrite <- Z.negb_even, E; reflexivity).
    apply Z.odd_spec in H. destruct H as [q Q]. replace (2 * (k / 2) + 1) with k by (Z.div_mod_to_equations; lia). exact B.
Qed.
Lemma down_dies f (cs x : list F32) k : spreads f -> Forall positive (evens cs) -> Forall positive (odds cs) -> evens cs <> [] -> odds cs <> [] ->
  Z.even (size (A := F32) x) = true -> 0 <= k < size (A := F32) x -> bad (smp x k) ->
  dead (down_with f cs x) (k / 2) (k / 2 + 1).
Proof.
  intros SP FE FO NE NO Ev Hk B. destruct (half_sizes x Ev) as [S1 S2]. pose proof SP as [SB SN].
  assert (Len : length (chain (A := F32) (evens cs) (odds x)) = length (chain (A := F32) (odds cs) (evens x))) by (rewrite !chain_length; unfold size in *; lia).
  assert (Sz : size (A := F32) (down_with f cs x) = size (A := F32) x / 2).
  { unfold down_with, size. rewrite zip_length. unfold size in *. rewrite !chain_length in *. lia. }
  assert (H0 : 0 <= k / 2) by (apply Z.div_pos; lia).
  assert (N : forall i, k / 2 + 1 <= i < size (A := F32) (down_with f cs x) -> nan (smp (down_with f cs x) i)).
  { intros i Hi. rewrite Sz in Hi. unfold down_with. rewrite zip_smp' by (try exact Len; unfold size in *; rewrite chain_length; lia). apply SN.
    destruct (Z.even k) eqn:E.
    - right. apply (chain_dies_smp _ _ (k / 2)); try assumption; [|lia]. rewrite smp_evens. apply Z.even_spec in E. destruct E as [q Q]. replace (2 * (k / 2)) with k by (Z.div_mod_to_equations; lia). exact B.
    - left. apply (chain_dies_smp _ _ (k / 2)); try assumption; [|lia]. rewrite smp_odds. replace (k / 2 <? 0) with false by lia. assert (Q : Z.odd k = true) by (rewrite <- Z.negb_even, E; reflexivity).
      apply Z.odd_spec in Q. destruct Q as [q Q]. replace (2 * (k / 2) + 1) with k by (Z.div_mod_to_equations; lia). exact B. }
  split; [lia|]. split; [|exact N]. intros i Hi. destruct (Z.eq_dec i (k / 2)) as [->|]; [|apply nan_bad, N; lia]. now apply down_bad.
Qed.

(** ** The coefficients *)
Lemma coef_positive (c : b32) : fin c -> (0 < val c)%R -> positive c.
Proof.
  intros F H. destruct c as [s|s| |s m e Hc]; cbn in *; try discriminate; try lra. split; [reflexivity|]. destruct s; [|reflexivity].
  exfalso. cbn in H. unfold F2R in H. cbn in H. pose proof (bpow_gt_0 radix2 e). assert (IZR (Z.neg m) < 0)%R by (apply IZR_lt; lia).
  assert (IZR (Z.neg m) * bpow radix2 e <= 0)%R by (apply Rmult_le_0_r_neg || (rewrite <- (Rmult_0_l (bpow radix2 e)); apply Rmult_le_compat_r; lra)). lra.
Qed.
Lemma forall2_left {X Y} (P : X -> Y -> Prop) (Q : Y -> Prop) (G : X -> Prop) l k : (forall x y, P x y -> Q y -> G x) -> Forall2 P l k -> Forall Q k -> Forall G l.
Proof. intros H. induction 1; intros F; constructor; inversion F; subst; eauto. Qed.
Lemma coeffs_positive md s p : stage_no s -> iir_prec p -> Forall positive (coeffs (A := F32) FILTER_IIR md p s).
Proof.
  intros Hs Hp. pose proof (iir_coeffs_F md s p Hs Hp) as F.
  assert (P : forallb (fun s => forallb (fun p => forallb (fun n => 0 <? n) (iir_ints s p)) [8; 12; 16; 20; 24]) stages = true) by (vm_compute; reflexivity).
  rewrite forallb_forall in P. specialize (P s ltac:(unfold stages; cbn; unfold stage_no in Hs; lia)).
  rewrite forallb_forall in P. specialize (P p ltac:(cbn; unfold iir_prec in Hp; lia)).
  refine (forall2_left _ (fun c : R => 0 < c)%R _ _ _ _ F _).
  - intros c C [Fc Vc] HC. apply coef_positive; [exact Fc | rewrite Vc; exact HC].
  - apply Forall_map, Forall_forall. intros n Hn. rewrite forallb_forall in P. specialize (P n Hn). apply Z.ltb_lt in P. unfold coef.
    apply Rmult_lt_0_compat; [apply IZR_lt; lia | apply Rinv_0_lt_compat; apply IZR_lt; lia].
Qed.
Lemma positive_f1 : positive (@f1 F32).
Proof. split; reflexivity. Qed.
Lemma padded_positive (cs : list F32) : Forall positive cs -> Forall positive (even_up (A := F32) cs).
Proof. intros F. unfold even_up. destruct (Nat.odd _); [|exact F]. apply Forall_app. split; [exact F|]. constructor; [apply positive_f1 | constructor]. Qed.
Lemma evens_forall {X} (P : X -> Prop) n : forall l, (length l <= n)%nat -> Forall P l -> Forall P (evens l) /\ Forall P (odds l).
Proof.
  induction n as [|n IH]; intros [|a [|b l]] L F; cbn [length] in L; try lia; cbn [evens odds]; try (split; constructor; fail).
  - inversion F; subst. split; [constructor; [assumption|constructor] | constructor].
  - inversion F as [|? ? Ha F1]; subst. inversion F1 as [|? ? Hb F2]; subst. destruct (IH l ltac:(lia) F2). split; constructor; assumption.
Qed.
Lemma coeffs_two md s p : s = 2 \/ s = 4 -> iir_prec p -> exists a b l, coeffs (A := F32) FILTER_IIR md p s = a :: b :: l.
Proof.
  intros Hs Hp. assert (L : 2 <= size (A := F32) (coeffs (A := F32) FILTER_IIR md p s)).
  { rewrite coeffs_size. destruct Hs as [->| ->], Hp as [->|[->|[->|[->| ->]]]]; vm_compute; discriminate. }
  destruct (coeffs (A := F32) FILTER_IIR md p s) as [|a [|b l]]; unfold size in L; cbn [length] in L; try lia. eauto.
Qed.
(** the coefficients of a stage, with the 1 of the vector code *)
Definition stage_cs (md : rmode) (p : Z) (vec : bool) (s : Z) : list F32 := let cs := coeffs (A := F32) FILTER_IIR md p s in if vec then even_up (A := F32) cs else cs.
Lemma stage_cs_positive md p vec s : stage_no s -> iir_prec p -> Forall positive (evens (stage_cs md p vec s)) /\ Forall positive (odds (stage_cs md p vec s)).
Proof.
  intros Hs Hp. apply (evens_forall positive _ _ (le_n _)). unfold stage_cs. destruct vec; [apply padded_positive|]; now apply coeffs_positive.
Qed.
Lemma stage_cs_two md p vec s : s = 2 \/ s = 4 -> iir_prec p -> evens (stage_cs md p vec s) <> [] /\ odds (stage_cs md p vec s) <> [].
Proof.
  intros Hs Hp. unfold stage_cs. destruct (coeffs_two md s p Hs Hp) as (a & b & l & ->). destruct vec; [|split; discriminate].
  unfold even_up. destruct (Nat.odd _); cbn [app evens odds]; split; discriminate.
Qed.
Lemma stage_up p vec s x : stage (A := F32) FILTER_IIR UP p vec s x = iir_up2 (A := F32) (stage_cs UP p vec s) x.
Proof. unfold stage, stage_cs. destruct vec; reflexivity. Qed.
Lemma stage_down p vec s x : exists f, spreads f /\ stage (A := F32) FILTER_IIR DOWN p vec s x = down_with f (stage_cs DOWN p vec s) x.
Proof. unfold stage, stage_cs. destruct vec; [exists (fun a b => @fmul F32 (@fadd F32 b a) fhalf); split; [apply spreads_2 | reflexivity] | eexists; split; [apply spreads_1 | reflexivity]]. Qed.

(** ** Resamplers *)
Theorem resample_dies md p vec ratio (x : list F32) k : valid FILTER_IIR ratio p -> 2 <= ratio -> (md = DOWN -> size (A := F32) x mod ratio = 0) ->
  0 <= k < size (A := F32) x -> bad (smp x k) ->
  match md with
  | UP => dead (resample (A := F32) FILTER_IIR UP p vec ratio x) (ratio * k) (ratio * (k + 1))
  | DOWN => dead (resample (A := F32) FILTER_IIR DOWN p vec ratio x) (k / ratio) (k / ratio + 1)
  end.
Proof.
  intros [Hr HT] H2 Hmod Hk B. assert (HP : iir_prec p) by exact (HT H2). assert (Hra : ratio = 2 \/ ratio = 4 \/ ratio = 8) by (unfold ratio_no in Hr; lia).
  assert (S2 : stage_no 2) by (unfold stage_no; auto). assert (S4 : stage_no 4) by (unfold stage_no; auto). assert (S8 : stage_no 8) by (unfold stage_no; auto).
  destruct md.
  - destruct (stage_cs_positive UP p vec 2 S2 HP) as [FE FO]. destruct (stage_cs_two UP p vec 2 ltac:(auto) HP) as [NE NO].
    pose proof (up_dies _ x k FE FO NE NO ltac:(lia) B) as D2. rewrite <- stage_up in D2.
    destruct Hra as [->|[->| ->]]; unfold resample; cbn [Z.eqb Pos.eqb].
    + exact D2.
    + rewrite (stage_up p vec 4). replace (4 * k) with (2 * (2 * k)) by lia. replace (4 * (k + 1)) with (2 * (2 * (k + 1))) by lia. apply up_dead; [lia | exact D2].
    + rewrite (stage_up p vec 8), (stage_up p vec 4). replace (8 * k) with (2 * (2 * (2 * k))) by lia. replace (8 * (k + 1)) with (2 * (2 * (2 * (k + 1)))) by lia.
      apply up_dead; [lia|]. apply up_dead; [lia | exact D2].
  - specialize (Hmod eq_refl).
    assert (DS : forall s (z : list F32), Z.even (size (A := F32) z) = true -> size (A := F32) (stage (A := F32) FILTER_IIR DOWN p vec s z) = size (A := F32) z / 2).
    { intros s z _. exact (stage_any_size FILTER_IIR DOWN p vec s z _ eq_refl). }
    assert (DB : forall s (z : list F32) i, Z.even (size (A := F32) z) = true -> 0 <= i < size (A := F32) z -> bad (smp z i) -> bad (smp (stage (A := F32) FILTER_IIR DOWN p vec s z) (i / 2))).
    { intros s z i Ev Hi Hb. destruct (stage_down p vec s z) as (f & SP & ->). now apply down_bad. }
    destruct (stage_cs_positive DOWN p vec 2 S2 HP) as [FE FO]. destruct (stage_cs_two DOWN p vec 2 ltac:(auto) HP) as [NE NO].
    assert (DD : forall (z : list F32) i, Z.even (size (A := F32) z) = true -> 0 <= i < size (A := F32) z -> bad (smp z i) -> dead (stage (A := F32) FILTER_IIR DOWN p vec 2 z) (i / 2) (i / 2 + 1)).
    { intros z i Ev Hi Hb. destruct (stage_down p vec 2 z) as (f & SP & ->). now apply down_dies. }
    assert (EV : forall n q, n = 2 * q -> Z.even n = true) by (intros n q ->; now rewrite Z.even_mul).
    set (n := size (A := F32) x) in *. apply Z.mod_divide in Hmod; [|lia]. destruct Hmod as [q Q].
    destruct Hra as [->|[->| ->]]; unfold resample; cbn [Z.eqb Pos.eqb].
    + apply DD; [apply (EV _ q); fold n; lia | exact Hk | exact B].
    + assert (E4 : Z.even n = true) by (apply (EV _ (2 * q)); lia). pose proof (DB 4 x k E4 Hk B) as B4. pose proof (DS 4 x E4) as L4. fold n in L4.
      assert (L4' : n / 2 = 2 * q) by (Z.div_mod_to_equations; lia).
      change 4 with (2 * 2) at 2 3. rewrite <- Z.div_div by lia. apply DD; [apply (EV _ q); lia | rewrite L4; Z.div_mod_to_equations; lia | exact B4].
    + assert (E8 : Z.even n = true) by (apply (EV _ (4 * q)); lia). pose proof (DB 8 x k E8 Hk B) as B8. pose proof (DS 8 x E8) as L8. fold n in L8.
      assert (L8' : n / 2 = 4 * q) by (Z.div_mod_to_equations; lia). set (a := stage (A := F32) FILTER_IIR DOWN p vec 8 x) in *.
      assert (E4 : Z.even (size (A := F32) a) = true) by (apply (EV _ (2 * q)); lia).
      assert (K2 : 0 <= k / 2 < size (A := F32) a) by (rewrite L8; Z.div_mod_to_equations; lia).
      pose proof (DB 4 a (k / 2) E4 K2 B8) as B4. pose proof (DS 4 a E4) as L4. set (b := stage (A := F32) FILTER_IIR DOWN p vec 4 a) in *.
      assert (L4' : size (A := F32) a / 2 = 2 * q) by (Z.div_mod_to_equations; lia).
      change 8 with (2 * 2 * 2) at 1 2. rewrite <- !Z.div_div by lia. apply DD; [apply (EV _ q); lia | rewrite L4; Z.div_mod_to_equations; lia | exact B4].
Qed.

(** ** Overflow: once a section holds an infinity it produces no finite number again *)
Lemma step_bad_state c x1 y1 x0 : bad y1 -> bad (step c x1 y1 x0).
Proof. intros H. apply bad_plus. left. apply bad_mult. left. apply bad_minus. right. exact H. Qed.
Lemma allpass_bad_state c (x : list F32) : forall x1 y1, bad y1 -> forall j, (j < length x)%nat -> bad (nth j (allpass_from (A := F32) c x1 y1 x) f0).
Proof.
  induction x as [|x0 x IH]; intros x1 y1 B j Hj; cbn [length] in Hj; [lia|]. cbn [allpass_from]. cbn zeta.
  pose proof (step_bad_state c x1 y1 x0 B) as N. destruct j as [|j]; cbn [nth]; [exact N|]. apply IH; [exact N | lia].
Qed.
(** the largest number, and its opposite *)
Definition huge : b32 := b32_dy (2 ^ 24 - 1) 104.
Definition explodes (c : b32) : bool := negb (is_finite (step c huge (step c (B754_zero false) (B754_zero false) huge) (Bopp huge))).
Lemma all_explode : forallb (fun p => forallb (fun vec =>
    match evens (stage_cs UP p vec 2), odds (stage_cs UP p vec 2) with c :: _, d :: _ => explodes c && explodes d | _, _ => false end) [false; true]) [8; 12; 16; 20; 24] = true.
Proof. vm_compute. reflexivity. Qed.
Lemma chain_explodes c cs (x : list F32) j : explodes c = true -> (1 <= j < length x + 2)%nat -> bad (nth j (chain (A := F32) (c :: cs) (huge :: Bopp huge :: x)) f0).
Proof.
  intros H Hj. cbn [chain fold_left]. apply chain_bad; [rewrite allpass_length'; cbn [length]; lia|]. unfold explodes in H. apply negb_true_iff in H.
  unfold allpass. cbn [allpass_from]. cbn zeta. destruct j as [|[|j]]; [lia | exact H|]. cbn [nth]. apply allpass_bad_state; [exact H | lia].
Qed.
Theorem resample_explodes p vec ratio (x : list F32) : valid FILTER_IIR ratio p -> 2 <= ratio ->
  forall j, ratio <= j < ratio * (size (A := F32) x + 2) -> bad (smp (resample (A := F32) FILTER_IIR UP p vec ratio (huge :: Bopp huge :: x)) j).
Proof.
  intros [Hr HT] H2. assert (HP : iir_prec p) by exact (HT H2). assert (Hra : ratio = 2 \/ ratio = 4 \/ ratio = 8) by (unfold ratio_no in Hr; lia).
  set (z := huge :: Bopp huge :: x : list F32). assert (Sz : size (A := F32) z = size (A := F32) x + 2) by (unfold z, size; cbn [length]; lia).
  pose proof (Nat2Z.is_nonneg (length x)) as L0. fold (size (A := F32) x) in L0.
  assert (Len : forall (cs y : list F32), length (chain (A := F32) (evens cs) y) = length (chain (A := F32) (odds cs) y)) by (intros; now rewrite !chain_length).
  assert (SU : forall s (y : list F32), size (A := F32) (stage (A := F32) FILTER_IIR UP p vec s y) = 2 * size (A := F32) y).
  { intros s y. exact (stage_any_size FILTER_IIR UP p vec s y _ eq_refl). }
  assert (D2 : dead (stage (A := F32) FILTER_IIR UP p vec 2 z) 2 (2 * size (A := F32) z)).
  { split; [lia|]. rewrite SU. split; [|intros i Hi; lia]. intros i Hi. rewrite stage_up. unfold iir_up2. rewrite weave_smp' by (try apply Len; lia).
    pose proof all_explode as X. rewrite forallb_forall in X. specialize (X p ltac:(cbn; unfold iir_prec in HP; lia)). rewrite forallb_forall in X. specialize (X vec ltac:(destruct vec; cbn; auto)).
    assert (D : 1 <= i / 2 < size (A := F32) x + 2) by (Z.div_mod_to_equations; lia).
    destruct (evens (stage_cs UP p vec 2)) as [|c l]; [discriminate X|]. destruct (odds (stage_cs UP p vec 2)) as [|d k]; [discriminate X|]. apply andb_prop in X as [X1 X2].
    destruct (Z.even i); rewrite smp_nth by lia; unfold z; apply chain_explodes; try assumption; unfold size in D; lia. }
  destruct Hra as [->|[->| ->]]; unfold resample; cbn [Z.eqb Pos.eqb]; intros j Hj; fold z.
  - apply D2. rewrite SU. lia.
  - rewrite (stage_up p vec 4). apply (up_dead _ _ 2 _ ltac:(lia) D2). rewrite <- stage_up, !SU. lia.
  - rewrite (stage_up p vec 8). pose proof (up_dead (stage_cs UP p vec 4) _ 2 _ ltac:(lia) D2) as D4. rewrite <- stage_up in D4.
    apply (up_dead (stage_cs UP p vec 8) _ 4 _ ltac:(lia) D4). rewrite <- stage_up, !SU. lia.
Qed.
