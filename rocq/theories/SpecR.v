(** * The specification over the reals: order of additions and vector code do not matter *)
From Coq Require Import ZArith Reals List Lia Lra Bool ZifyNat ZifyBool.
From Verif Require Import Arith ArithR Tables ResamplerModel Wp IirProof ResamplerOk Spec SpecOk.
Import ListNotations.
Open Scope Z_scope.

(** plain sums *)
Fixpoint sumR (n : nat) (f : Z -> R) : R :=
  match n with O => 0%R | S k => (sumR k f + f (Z.of_nat k))%R end.

Lemma sumR_ext n f g : (forall k, 0 <= k < Z.of_nat n -> f k = g k) -> sumR n f = sumR n g.
Proof.
  induction n as [|n IH]; intros E; cbn [sumR]; [reflexivity|].
  rewrite IH by (intros; apply E; lia). now rewrite E by lia.
Qed.
Lemma sumR_plus n f g : sumR n (fun k => (f k + g k)%R) = (sumR n f + sumR n g)%R.
Proof. induction n as [|n IH]; cbn [sumR]; [lra | rewrite IH; lra]. Qed.
Lemma sumR_scal n a f : sumR n (fun k => (a * f k)%R) = (a * sumR n f)%R.
Proof. induction n as [|n IH]; cbn [sumR]; [lra | rewrite IH; lra]. Qed.
Lemma sumR_0 n : sumR n (fun _ => 0%R) = 0%R.
Proof. induction n as [|n IH]; cbn [sumR]; [reflexivity | rewrite IH; lra]. Qed.
Lemma sumR_add n k f : sumR (n + k) f = (sumR n f + sumR k (fun i => f (Z.of_nat n + i)%Z))%R.
Proof.
  induction k as [|k IH]; cbn [sumR]; [rewrite Nat.add_0_r; lra|].
  rewrite Nat.add_succ_r. cbn [sumR]. rewrite IH. rewrite Nat2Z.inj_add. lra.
Qed.
Lemma sumR_abs n f : (Rabs (sumR n f) <= sumR n (fun k => Rabs (f k)))%R.
Proof.
  induction n as [|n IH]; cbn [sumR]; [rewrite Rabs_R0; lra|].
  eapply Rle_trans; [apply Rabs_triang | lra].
Qed.
Lemma sumR_le n f g : (forall k, 0 <= k < Z.of_nat n -> (f k <= g k)%R) -> (sumR n f <= sumR n g)%R.
Proof.
  induction n as [|n IH]; intros E; cbn [sumR]; [lra|].
  pose proof (E (Z.of_nat n) ltac:(lia)).
  assert (sumR n f <= sumR n g)%R by (apply IH; intros; apply E; lia). lra.
Qed.

Lemma mac_sum n (w t : Z -> RA) : mac n w t = sumR n (fun i => (w i * t i)%R).
Proof. induction n as [|n IH]; cbn [mac sumR]; [reflexivity|]. rewrite IH. reflexivity. Qed.

(** ** Four lanes *)
Lemma vlane_four n (w t : Z -> RA) (j : Z) g :
  (vlane n w t (0 - j)%Z g + vlane n w t (1 - j)%Z g + vlane n w t (2 - j)%Z g + vlane n w t (3 - j)%Z g)%R =
  sumR (4 * g + 4) (fun i => vterm n w t (i - j)).
Proof.
  induction g as [|g IH].
  - cbn [vlane]. change (4 * 0 + 4)%nat with 4%nat. cbn [sumR Z.of_nat Pos.of_succ_nat Pos.succ].
    cbn. lra.
  - cbn [vlane]. replace (4 * S g + 4)%nat with ((4 * g + 4) + 4)%nat by lia.
    rewrite sumR_add, <- IH. cbn [sumR].
    replace (Z.of_nat (4 * g + 4) + Z.of_nat 0 - j) with (4 * Z.of_nat (S g) + (0 - j)) by lia.
    replace (Z.of_nat (4 * g + 4) + Z.of_nat 1 - j) with (4 * Z.of_nat (S g) + (1 - j)) by lia.
    replace (Z.of_nat (4 * g + 4) + Z.of_nat 2 - j) with (4 * Z.of_nat (S g) + (2 - j)) by lia.
    replace (Z.of_nat (4 * g + 4) + Z.of_nat 3 - j) with (4 * Z.of_nat (S g) + (3 - j)) by lia.
    change (@fadd RA) with Rplus. lra.
Qed.

Lemma vterm_out n (w t : Z -> RA) i : i < 0 \/ n <= i -> vterm n w t i = 0%R.
Proof.
  intros H. unfold vterm, tap0. replace ((0 <=? i) && (i <? n)) with false by lia.
  cbn. lra.
Qed.

Lemma vmac_sum n (w t : Z -> RA) j : 0 <= n -> 0 <= j <= 3 ->
  vmac n w t j = sumR (Z.to_nat n) (fun i => (w i * t i)%R).
Proof.
  intros Hn Hj. unfold vmac. cbv zeta. change (@fadd RA) with Rplus.
  rewrite vlane_four.
  set (g := Z.to_nat ((n + 6) / 4 - 1)).
  assert (Hg : n + 3 <= Z.of_nat (4 * g + 4)).
  { unfold g. pose proof (Z.div_mod (n + 6) 4 ltac:(lia)). pose proof (Z.mod_pos_bound (n + 6) 4 ltac:(lia)).
    assert (1 <= (n + 6) / 4) by (apply Z.div_le_lower_bound; lia). lia. }
  clearbody g.
  replace (4 * g + 4)%nat with (Z.to_nat j + (Z.to_nat n + (4 * g + 4 - Z.to_nat j - Z.to_nat n)))%nat by lia.
  rewrite sumR_add. rewrite (sumR_ext (Z.to_nat j) _ (fun _ => 0%R)).
  2:{ intros k Hk. apply vterm_out. lia. }
  rewrite sumR_0, Rplus_0_l. rewrite sumR_add.
  rewrite (sumR_ext (4 * g + 4 - Z.to_nat j - Z.to_nat n) _ (fun _ => 0%R)).
  2:{ intros k Hk. apply vterm_out. lia. }
  rewrite sumR_0, Rplus_0_r. apply sumR_ext. intros k Hk.
  replace (Z.of_nat (Z.to_nat j) + k - j) with k by lia.
  unfold vterm, tap0. replace ((0 <=? k) && (k <? n)) with true by lia. reflexivity.
Qed.

Lemma sum_of_R vec n (w t : Z -> RA) v : 0 <= n -> sum_of vec n w t v -> sum_of false n w t v.
Proof.
  intros Hn [H|(_ & j & Hj & ->)]; [left; exact H|]. left.
  rewrite vmac_sum by assumption. now rewrite mac_sum.
Qed.

Lemma fir_up_any_R vec (t x y : list RA) : fir_up_any vec t x y -> y = fir_up2 t x.
Proof.
  intros [L H]. apply fir_up_any_scalar. split; [exact L|]. intros m Hm. destruct (H m Hm) as [H1 H2].
  split; [|exact H2]. eapply sum_of_R; [unfold size; lia | exact H1].
Qed.
Lemma fir_down_any_R vec (t x y : list RA) : fir_down_any vec t x y -> y = fir_down2 t x.
Proof.
  intros [L H]. apply fir_down_any_scalar. split; [exact L|]. intros n Hn. destruct (H n Hn) as (v & H1 & H2).
  exists v. split; [|exact H2]. eapply sum_of_R; [unfold size; lia | exact H1].
Qed.

(** ** An all-pass section with coefficient 1 is the identity *)
Lemma allpass_one (x : list RA) : allpass (1%R : RA) x = x.
Proof.
  unfold allpass. cut (forall s : R, allpass_from (A := RA) 1%R s s x = x); [intros H; apply H|].
  induction x as [|x0 x IH]; intros s; cbn [allpass_from]; [reflexivity|].
  assert (E : @fadd RA (@fmul RA (@fsub RA x0 s) 1%R) s = x0) by (cbn; lra).
  cbv zeta. rewrite E. f_equal. apply IH.
Qed.

Lemma evens_snoc_odd {X} (l : list X) a : Nat.odd (length l) = true -> evens (l ++ [a]) = evens l.
Proof.
  enough (H : (Nat.odd (length l) = true -> evens (l ++ [a]) = evens l) /\
    forall b, Nat.odd (S (length l)) = true -> evens ((b :: l) ++ [a]) = evens (b :: l)) by apply H.
  induction l as [|c l [IH1 IH2]].
  - split; [discriminate | reflexivity].
  - split; [apply IH2|]. intros b Hb. cbn [app evens]. rewrite IH1; [reflexivity | exact Hb].
Qed.
Lemma odds_snoc_odd {X} (l : list X) a : Nat.odd (length l) = true -> odds (l ++ [a]) = odds l ++ [a].
Proof.
  enough (H : (Nat.odd (length l) = true -> odds (l ++ [a]) = odds l ++ [a]) /\
    forall b, Nat.odd (S (length l)) = true -> odds ((b :: l) ++ [a]) = odds (b :: l) ++ [a]) by apply H.
  induction l as [|c l [IH1 IH2]].
  - split; [discriminate | reflexivity].
  - split; [apply IH2|]. intros b Hb. cbn [app odds]. rewrite IH1; [reflexivity | exact Hb].
Qed.

Lemma chain_evens_up {A : arith} (cs x : list A) : chain (evens (even_up cs)) x = chain (evens cs) x.
Proof.
  unfold even_up. destruct (Nat.odd (length cs)) eqn:E; [|reflexivity]. now rewrite evens_snoc_odd.
Qed.
Lemma chain_odds_up (cs x : list RA) : chain (odds (even_up cs)) x = chain (odds cs) x.
Proof.
  unfold even_up. destruct (Nat.odd (length cs)) eqn:E; [|reflexivity].
  rewrite odds_snoc_odd, chain_snoc by exact E. apply allpass_one.
Qed.

Lemma iir_up2_sse_R (cs x : list RA) : iir_up2_sse cs x = iir_up2 cs x.
Proof. unfold iir_up2_sse, iir_up2. now rewrite chain_evens_up, chain_odds_up. Qed.
Lemma zip_ext {A : arith} (f g : A -> A -> A) (x y : list A) : (forall a b, f a b = g a b) -> zip f x y = zip g x y.
Proof. intros E. revert y. induction x as [|a x IH]; intros [|b y]; cbn [zip]; auto. now rewrite E, IH. Qed.
Lemma iir_down2_sse_R (cs x : list RA) : iir_down2_sse cs x = iir_down2 cs x.
Proof.
  unfold iir_down2_sse, iir_down2. rewrite chain_evens_up, chain_odds_up. apply zip_ext.
  intros a b. cbn. lra.
Qed.

(** with an even number of coefficients, commutativity is enough *)
Lemma even_up_even {A : arith} (cs : list A) : Nat.even (length cs) = true -> even_up cs = cs.
Proof. intros E. unfold even_up. now rewrite <- Nat.negb_even, E. Qed.
Lemma iir_down2_sse_comm {A : arith} (cs x : list A) :
  (forall a b : A, fadd a b = fadd b a) -> (forall a b : A, fmul a b = fmul b a) ->
  Nat.even (length cs) = true -> iir_down2_sse cs x = iir_down2 cs x.
Proof.
  intros CA CM E. unfold iir_down2_sse, iir_down2. rewrite even_up_even by exact E. apply zip_ext.
  intros a b. now rewrite CM, (CA b a).
Qed.

(** ** The whole resampler in exact arithmetic *)
Lemma stage_R f md prec vec s (x : list RA) : stage f md prec vec s x = stage f md prec false s x.
Proof.
  unfold stage. destruct f, md, vec; try reflexivity; [apply iir_up2_sse_R | apply iir_down2_sse_R].
Qed.
Lemma stage_any_R f md prec vec s (x y : list RA) : stage_any f md prec vec s x y -> y = stage f md prec false s x.
Proof.
  unfold stage_any. destruct f, md.
  - intros ->. apply stage_R.
  - intros ->. apply stage_R.
  - apply fir_up_any_R.
  - apply fir_down_any_R.
Qed.
Theorem resample_any_R f md prec vec ratio (x y : list RA) :
  resample_any f md prec vec ratio x y -> y = resample f md prec false ratio x.
Proof.
  pose proof (fun s x y => stage_any_R f md prec vec s x y) as F.
  unfold resample_any, resample. destruct md.
  - destruct (ratio =? 1); [auto|]. destruct (ratio =? 2); [apply F|]. destruct (ratio =? 4).
    + intros (a & H1 & H2). apply F in H1. apply F in H2. now subst.
    + intros (a & b & H1 & H2 & H3). apply F in H1. apply F in H2. apply F in H3. now subst.
  - destruct (ratio =? 1); [auto|]. destruct (ratio =? 2); [apply F|]. destruct (ratio =? 4).
    + intros (a & H1 & H2). apply F in H1. apply F in H2. now subst.
    + intros (a & b & H1 & H2 & H3). apply F in H1. apply F in H2. apply F in H3. now subst.
Qed.

(** ** Vector and scalar IIR code, in any commutative arithmetic *)
Section Comm.
Context {A : arith}.
Hypotheses (CA : forall a b : A, fadd a b = fadd b a) (CM : forall a b : A, fmul a b = fmul b a).

Lemma iir_stage_comm md prec s (x : list A) : Nat.even (length (coeffs (A := A) FILTER_IIR md prec s)) = true ->
  stage FILTER_IIR md prec true s x = stage FILTER_IIR md prec false s x.
Proof.
  intros E. unfold stage. destruct md.
  - unfold iir_up2_sse. now rewrite even_up_even.
  - now apply iir_down2_sse_comm.
Qed.
Lemma iir_resample_comm md prec ratio (x : list A) : ratio_no ratio ->
  (forall s, s <= ratio -> s = 2 \/ s = 4 \/ s = 8 -> Nat.even (length (coeffs (A := A) FILTER_IIR md prec s)) = true) ->
  resample FILTER_IIR md prec true ratio x = resample FILTER_IIR md prec false ratio x.
Proof.
  intros Hr Ev. unfold resample. destruct md, Hr as [->|[->|[->| ->]]]; cbn [Z.eqb Pos.eqb]; try reflexivity;
    rewrite !iir_stage_comm by (apply Ev; lia); reflexivity.
Qed.
End Comm.
