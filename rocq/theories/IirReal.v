(** * IIR resamplers in exact arithmetic: bounds, convergence, energy *)
From Coq Require Import ZArith Reals List Lia Lra Bool ZifyNat ZifyBool.
From Verif Require Import Arith ArithR Tables ResamplerModel ResamplerProof ResamplerOk Spec SpecOk SpecR Client Feed Twin TablesF.
Import ListNotations.
Open Scope Z_scope.

Ltac raops := change (@fadd RA) with Rplus in *; change (@fsub RA) with Rminus in *; change (@fmul RA) with Rmult in *;
  change (@fhalf RA) with (/ 2)%R in *; change (@f0 RA) with 0%R in *; change (@f1 RA) with 1%R in *.

Lemma smp_0 {A : arith} (v : A) x : smp (v :: x) 0 = v.
Proof. reflexivity. Qed.
Lemma smp_S {A : arith} (v : A) x k : 0 <= k -> smp (v :: x) (k + 1) = smp x k.
Proof.
  intros Hk. unfold smp. replace (k + 1 <? 0) with false by lia. replace (k <? 0) with false by lia.
  replace (Z.to_nat (k + 1)) with (S (Z.to_nat k)) by lia. reflexivity.
Qed.
Lemma size_cons {A : arith} (v : A) x : size (v :: x) = size x + 1.
Proof. unfold size. cbn [length]. lia. Qed.

(** ** Weights *)

(** a positive weight that falls at most by the factor rho from sample to sample *)
Definition steady (rho : R) (w : Z -> R) : Prop := forall k, 0 <= k -> (0 <= w k /\ rho * w k <= w (k + 1)%Z)%R.
(** x tends to a like M w *)
Definition tends (x : list RA) (a M : R) (w : Z -> R) : Prop :=
  (0 <= M /\ Rabs a <= M * w 0%Z)%R /\ forall k, 0 <= k < size x -> (Rabs (smp x k - a) <= M * w k)%R.

Definition section_gain (rho c : R) : R := (c + (1 - c * c) / (rho - c))%R.
Fixpoint chain_gain (rho : R) (cs : list R) : R :=
  match cs with [] => 1%R | c :: r => (chain_gain rho r * section_gain rho c)%R end.

Lemma steady_weaken rho rho' w : steady rho w -> (rho' <= rho)%R -> steady rho' w.
Proof.
  intros H L k Hk. destruct (H k Hk) as [H1 H2]. split; [exact H1|]. eapply Rle_trans; [|exact H2]. apply Rmult_le_compat_r; assumption.
Qed.
Lemma section_gain_ge rho c : (0 <= c < rho)%R -> (rho <= 1)%R -> (1 <= (1 - c * c) / (rho - c) /\ 1 <= section_gain rho c)%R.
Proof.
  intros Hc Hr. assert (G : (1 <= (1 - c * c) / (rho - c))%R).
  { apply Rmult_le_reg_r with (rho - c)%R; [lra|]. unfold Rdiv. rewrite Rmult_assoc, Rinv_l by lra.
    assert (c * c <= c)%R by (assert (c * c <= c * 1)%R by (apply Rmult_le_compat_l; lra); lra). lra. }
  split; [exact G|]. unfold section_gain. lra.
Qed.

(** the state x1 - c y1 of a section tends to (1 - c) a *)
Lemma allpass_from_tends c rho : (0 <= c < rho)%R -> (rho <= 1)%R ->
  forall (x : list RA) a M B w (x1 y1 : R), steady rho w -> (0 <= M)%R -> B = ((1 - c * c) / (rho - c) * M)%R ->
  (forall k, 0 <= k < size x -> (Rabs (smp x k - a) <= M * w k)%R) ->
  (Rabs ((x1 - c * y1) - (1 - c) * a) <= B * w 0%Z)%R ->
  forall k, 0 <= k < size x -> (Rabs (smp (allpass_from (A := RA) c x1 y1 x) k - a) <= section_gain rho c * M * w k)%R.
Proof.
  intros Hc Hr x. induction x as [|x0 x IH]; intros a M B w x1 y1 Hw HM HB Hx Hs k Hk; [unfold size in Hk; cbn in Hk; lia|].
  cbn [allpass_from]. cbn zeta. set (y0 := fadd (a := RA) _ _). raops.
  assert (Ey : @eq R y0 (c * x0 + (x1 - c * y1))%R) by (unfold y0; raops; lra).
  assert (S0 : 0 <= 0 < size (A := RA) (x0 :: x)) by (unfold size; cbn [length]; lia).
  pose proof (Hx 0 S0) as H0. rewrite smp_0 in H0.
  destruct (Hw 0 ltac:(lia)) as [W0 W1]. cbn [Z.add] in W1.
  destruct (Z.eq_dec k 0) as [->|].
  - rewrite smp_0, Ey. replace (c * x0 + (x1 - c * y1) - a)%R with (c * (x0 - a) + ((x1 - c * y1) - (1 - c) * a))%R by ring.
    eapply Rle_trans; [apply Rabs_triang|]. rewrite Rabs_mult, (Rabs_pos_eq c) by lra. unfold section_gain. rewrite HB in Hs.
    assert (c * Rabs (x0 - a) <= c * (M * w 0%Z))%R by (apply Rmult_le_compat_l; lra). lra.
  - replace k with ((k - 1) + 1) at 1 by lia. rewrite smp_S by lia.
    replace (w k) with ((fun i => w (i + 1)) (k - 1)) by (cbn; f_equal; lia).
    apply (IH a M B (fun i => w (i + 1)) x0 y0).
    + intros i Hi. apply Hw. lia.
    + exact HM.
    + exact HB.
    + intros i Hi. rewrite <- (smp_S x0) by lia. apply Hx. rewrite (size_cons (A := RA)). lia.
    + cbn [Z.add]. rewrite Ey. replace (x0 - c * (c * x0 + (x1 - c * y1)) - (1 - c) * a)%R
        with ((1 - c * c) * (x0 - a) + - (c * ((x1 - c * y1) - (1 - c) * a)))%R by ring.
      eapply Rle_trans; [apply Rabs_triang|]. rewrite Rabs_Ropp, !Rabs_mult, (Rabs_pos_eq c) by lra.
      assert (C2 : (0 <= 1 - c * c)%R) by (assert (c * c <= 1 * 1)%R by (apply Rmult_le_compat; lra); lra).
      rewrite (Rabs_pos_eq (1 - c * c)) by exact C2.
      assert (A1 : ((1 - c * c) * Rabs (x0 - a) <= (1 - c * c) * (M * w 0%Z))%R) by (apply Rmult_le_compat_l; lra).
      assert (A2 : (c * Rabs (x1 - c * y1 - (1 - c) * a) <= c * (B * w 0%Z))%R) by (apply Rmult_le_compat_l; lra).
      assert (B0 : (0 <= B)%R) by (rewrite HB; apply Rmult_le_pos; [pose proof (section_gain_ge rho c Hc Hr); lra | exact HM]).
      assert (A3 : (B * (rho * w 0%Z) <= B * w 1%Z)%R) by (apply Rmult_le_compat_l; assumption).
      assert (E : ((1 - c * c) * (M * w 0%Z) = (rho - c) * (B * w 0%Z))%R) by (rewrite HB; field; lra). lra.
    + rewrite (size_cons (A := RA)) in Hk. lia.
Qed.
Lemma allpass_tends c rho (x : list RA) a M w : (0 <= c < rho)%R -> (rho <= 1)%R -> steady rho w -> tends x a M w ->
  tends (allpass (A := RA) c x) a (section_gain rho c * M) w.
Proof.
  intros Hc Hr Hw ((HM & Ha) & Hx). destruct (section_gain_ge rho c Hc Hr) as [G1 G2].
  destruct (Hw 0 ltac:(lia)) as [W0 _]. assert (MW : (0 <= M * w 0%Z)%R) by (apply Rmult_le_pos; assumption).
  split; [split|].
  - apply Rmult_le_pos; lra.
  - rewrite Rmult_assoc. assert (1 * (M * w 0%Z) <= section_gain rho c * (M * w 0%Z))%R by (apply Rmult_le_compat_r; assumption). lra.
  - intros k Hk. unfold allpass in *. raops. assert (Sz : size (allpass_from (A := RA) c 0%R 0%R x) = size x) by (unfold size; now rewrite allpass_from_length).
    rewrite Sz in Hk. apply (allpass_from_tends c rho Hc Hr x a M ((1 - c * c) / (rho - c) * M) w 0 0); try assumption; try reflexivity.
    replace (0 - c * 0 - (1 - c) * a)%R with (- ((1 - c) * a))%R by ring. rewrite Rabs_Ropp, Rabs_mult, Rabs_pos_eq by lra.
    assert ((1 - c) * Rabs a <= 1 * (M * w 0%Z))%R by (apply Rmult_le_compat; [lra | apply Rabs_pos | lra | exact Ha]).
    assert (1 * (M * w 0%Z) <= (1 - c * c) / (rho - c) * (M * w 0%Z))%R by (apply Rmult_le_compat_r; assumption). lra.
Qed.
Lemma chain_tends cs rho : (rho <= 1)%R -> Forall (fun c => 0 <= c < rho)%R cs -> forall (x : list RA) a M w, steady rho w -> tends x a M w ->
  tends (chain (A := RA) cs x) a (chain_gain rho cs * M) w.
Proof.
  intros Hr. induction cs as [|c cs IH]; intros F x a M w Hw H.
  - cbn. now rewrite Rmult_1_l.
  - inversion F as [|? ? Hc Hcs]; subst. cbn [chain_gain]. rewrite Rmult_assoc.
    change (chain (A := RA) (c :: cs) x) with (chain (A := RA) cs (allpass (A := RA) c x)). apply IH; [exact Hcs | exact Hw|]. now apply allpass_tends.
Qed.
Lemma chain_gain_ge rho cs : (rho <= 1)%R -> Forall (fun c => 0 <= c < rho)%R cs -> (1 <= chain_gain rho cs)%R.
Proof.
  intros Hr. induction 1 as [|c cs Hc _ IH]; cbn [chain_gain]; [lra|]. pose proof (section_gain_ge rho c Hc Hr) as [_ G].
  assert (1 * 1 <= chain_gain rho cs * section_gain rho c)%R by (apply Rmult_le_compat; lra). lra.
Qed.

Lemma tends_more x a M M' w : tends x a M w -> (M <= M')%R -> (forall k, 0 <= k -> (0 <= w k)%R) -> tends x a M' w.
Proof.
  intros ((HM & Ha) & H) L Hw. split; [split; [lra|]|].
  - assert (M * w 0%Z <= M' * w 0%Z)%R by (apply Rmult_le_compat_r; [apply Hw; lia | exact L]). lra.
  - intros k Hk. specialize (H k Hk). assert (M * w k <= M' * w k)%R by (apply Rmult_le_compat_r; [apply Hw; lia | exact L]). lra.
Qed.

(** upsampling: one weight for two samples *)
Lemma weave_smp (x y : list RA) j : length x = length y -> 0 <= j -> smp (weave x y) j = if Z.even j then smp x (j / 2) else smp y (j / 2).
Proof.
  intros L Hj. pose proof (Z.div_mod j 2 ltac:(lia)). pose proof (Z.mod_pos_bound j 2 ltac:(lia)). pose proof (Zmod_even j).
  assert (0 <= j / 2) by lia. destruct (Z.even j).
  - rewrite <- (weave_evens x y L) at 2. rewrite smp_evens. f_equal. lia.
  - rewrite <- (weave_odds x y L) at 2. rewrite smp_odds. replace (j / 2 <? 0) with false by lia. f_equal. lia.
Qed.
Lemma steady_half rho w : (rho <= 1)%R -> steady rho w -> steady rho (fun j => w (j / 2)).
Proof.
  intros Hr H j Hj. pose proof (Z.div_mod j 2 ltac:(lia)). pose proof (Z.mod_pos_bound j 2 ltac:(lia)).
  pose proof (Z.div_mod (j + 1) 2 ltac:(lia)). pose proof (Z.mod_pos_bound (j + 1) 2 ltac:(lia)).
  destruct (H (j / 2) ltac:(lia)) as [G0 G1]. split; [exact G0|].
  assert ((j + 1) / 2 = j / 2 \/ (j + 1) / 2 = j / 2 + 1) as [->| ->] by lia; [|exact G1].
  assert (rho * w (j / 2)%Z <= 1 * w (j / 2)%Z)%R by (apply Rmult_le_compat_r; assumption). lra.
Qed.
Lemma steady_double rho w : (0 <= rho)%R -> steady rho w -> steady (rho * rho) (fun k => w (2 * k)).
Proof.
  intros Hr H k Hk. destruct (H (2 * k) ltac:(lia)) as [H0 H1]. destruct (H (2 * k + 1) ltac:(lia)) as [H2 H3]. split; [exact H0|].
  replace (2 * (k + 1)) with (2 * k + 1 + 1) by lia. rewrite Rmult_assoc.
  assert (rho * (rho * w (2 * k)%Z) <= rho * w (2 * k + 1)%Z)%R by (apply Rmult_le_compat_l; assumption). lra.
Qed.
Lemma up_tends (cs : list RA) rho K (x : list RA) a M w : (rho <= 1)%R -> Forall (fun c => 0 <= c < rho)%R cs ->
  (chain_gain rho (evens cs) <= K)%R -> (chain_gain rho (odds cs) <= K)%R -> steady rho w -> tends x a M w ->
  tends (iir_up2 (A := RA) cs x) a (K * M) (fun j => w (j / 2)).
Proof.
  intros Hr F KE KO Hw H. destruct (evens_all _ _ F) as [FE FO].
  assert (W0 : forall k, 0 <= k -> (0 <= w k)%R) by (intros k Hk; exact (proj1 (Hw k Hk))).
  pose proof H as ((HM & _) & _).
  assert (TE : tends (chain (A := RA) (evens cs) x) a (K * M) w) by (eapply tends_more; [apply (chain_tends _ rho); eassumption | apply Rmult_le_compat_r; assumption | exact W0]).
  assert (TO : tends (chain (A := RA) (odds cs) x) a (K * M) w) by (eapply tends_more; [apply (chain_tends _ rho); eassumption | apply Rmult_le_compat_r; assumption | exact W0]).
  destruct TE as [I TE]. destruct TO as [_ TO]. split; [exact I|]. unfold iir_up2.
  assert (L : length (chain (A := RA) (evens cs) x) = length (chain (A := RA) (odds cs) x)) by now rewrite !chain_length.
  intros j Hj. unfold size in Hj. rewrite weave_length in Hj by exact L. rewrite chain_length in Hj.
  rewrite weave_smp by (exact L || lia). pose proof (Z.div_mod j 2 ltac:(lia)). pose proof (Z.mod_pos_bound j 2 ltac:(lia)).
  destruct (Z.even j); [apply TE | apply TO]; unfold size; rewrite chain_length; lia.
Qed.
Lemma zip_smp f (x y : list RA) k : length x = length y -> 0 <= k < size x -> smp (zip f x y) k = f (smp x k) (smp y k).
Proof.
  intros L Hk. unfold smp. replace (k <? 0) with false by lia. apply zip_nth; unfold size in Hk; lia.
Qed.
Lemma down_tends (cs : list RA) rho K (x : list RA) a M w : (rho <= 1)%R -> (forall i k, 0 <= i <= k -> (w k <= w i)%R) -> Forall (fun c => 0 <= c < rho)%R cs ->
  (chain_gain rho (evens cs) <= K)%R -> (chain_gain rho (odds cs) <= K)%R -> Z.even (size x) = true -> steady rho (fun k => w (2 * k)) -> tends x a M w ->
  tends (iir_down2 (A := RA) cs x) a (K * M) (fun k => w (2 * k)).
Proof.
  intros Hr Mon F KE KO Ev Hw2 H. destruct (evens_all _ _ F) as [FE FO].
  assert (W0 : forall k, 0 <= k -> (0 <= w (2 * k)%Z)%R) by (intros k Hk; exact (proj1 (Hw2 k Hk))).
  destruct H as ((HM & Ha) & H). apply Z.even_spec in Ev. destruct Ev as [n En].
  assert (Se : size (evens x) = n) by (unfold size in *; rewrite evens_length; replace (length x) with (2 * Z.to_nat n)%nat by lia; rewrite Nat.div2_succ_double; lia).
  assert (So : size (odds x) = n) by (unfold size in *; rewrite odds_length; replace (length x) with (2 * Z.to_nat n)%nat by lia; rewrite Nat.div2_double; lia).
  assert (T1 : tends (odds x) a M (fun k => w (2 * k))).
  { split; [split; assumption|]. intros k Hk. rewrite So in Hk. rewrite smp_odds. replace (k <? 0) with false by lia.
    eapply Rle_trans; [apply H; lia|]. apply Rmult_le_compat_l; [exact HM|]. apply Mon. lia. }
  assert (T2 : tends (evens x) a M (fun k => w (2 * k))).
  { split; [split; assumption|]. intros k Hk. rewrite Se in Hk. rewrite smp_evens. apply H; lia. }
  assert (TE : tends (chain (A := RA) (evens cs) (odds x)) a (K * M) (fun k => w (2 * k))) by (eapply tends_more; [apply (chain_tends _ rho); eassumption | apply Rmult_le_compat_r; assumption | exact W0]).
  assert (TO : tends (chain (A := RA) (odds cs) (evens x)) a (K * M) (fun k => w (2 * k))) by (eapply tends_more; [apply (chain_tends _ rho); eassumption | apply Rmult_le_compat_r; assumption | exact W0]).
  destruct TE as [I TE]. destruct TO as [_ TO]. split; [exact I|]. unfold iir_down2. intros k Hk.
  assert (L : length (chain (A := RA) (evens cs) (odds x)) = length (chain (A := RA) (odds cs) (evens x))) by (rewrite !chain_length; unfold size in *; lia).
  unfold size in Hk. rewrite zip_length, L, Nat.min_id, chain_length in Hk. fold (size (evens x)) in Hk. rewrite Se in Hk.
  assert (Hk1 : 0 <= k < size (chain (A := RA) (evens cs) (odds x))) by (unfold size; rewrite chain_length; unfold size in So; lia).
  assert (Hk2 : 0 <= k < size (chain (A := RA) (odds cs) (evens x))) by (unfold size; rewrite chain_length; unfold size in Se; lia).
  rewrite zip_smp by assumption. specialize (TE k Hk1). specialize (TO k Hk2). raops.
  set (u := smp (chain (A := RA) (evens cs) (odds x)) k) in *. set (v := smp (chain (A := RA) (odds cs) (evens x)) k) in *.
  replace (/ 2 * (u + v) - a)%R with (/ 2 * (u - a) + / 2 * (v - a))%R by lra.
  eapply Rle_trans; [apply Rabs_triang|]. rewrite !Rabs_mult, (Rabs_pos_eq (/ 2)) by lra. lra.
Qed.

(** ** The tables *)
Lemma evens_map {X Y} (f : X -> Y) : forall n l, (length l <= n)%nat -> evens (map f l) = map f (evens l) /\ odds (map f l) = map f (odds l).
Proof.
  induction n as [|n IH]; intros [|a [|b l]] L; cbn [length] in L; try lia; try (split; reflexivity).
  destruct (IH l ltac:(lia)) as [E1 E2]. cbn [map evens odds]. now rewrite E1, E2.
Qed.

Definition one48 : Z := 2 ^ 48.
(** section gain of the coefficient n/2^48 for rho = r/100, as a fraction *)
Definition gain_num (r n : Z) : Z := n * (r * one48 - 100 * n) + 100 * (one48 * one48 - n * n).
Definition gain_den (r n : Z) : Z := one48 * (r * one48 - 100 * n).
Definition prodZ (f : Z -> Z) (l : list Z) : Z := fold_right (fun n p => p * f n) 1 l.
Definition gain_below (r K : Z) (l : list Z) : bool := prodZ (gain_num r) l <=? K * prodZ (gain_den r) l.
Definition in_range (r : Z) (l : list Z) : bool := forallb (fun n => (0 <=? n) && (100 * n <? r * one48)) l.

Definition coef (n : Z) : RA := (IZR n * unit_of DOWN)%R.
Lemma coef_range r l : in_range r l = true -> Forall (fun c : R => (0 <= c < IZR r / 100)%R) (map coef l).
Proof.
  unfold in_range. rewrite forallb_forall. intros H. apply Forall_forall. intros c Hc. apply in_map_iff in Hc. destruct Hc as (n & <- & Hn).
  apply H in Hn. unfold coef, unit_of. fold one48. assert (P : (0 < IZR one48)%R) by (apply IZR_lt; reflexivity).
  split.
  - apply Rmult_le_pos; [apply IZR_le; lia | apply Rlt_le, Rinv_0_lt_compat, P].
  - apply Rmult_lt_reg_r with (IZR one48); [exact P|]. rewrite Rmult_assoc, Rinv_l, Rmult_1_r by lra.
    apply Rmult_lt_reg_r with 100%R; [lra|]. assert (I : (IZR (100 * n) < IZR (r * one48))%R) by (apply IZR_lt; lia). rewrite !mult_IZR in I. lra.
Qed.
Lemma chain_gain_frac r l : in_range r l = true ->
  (0 < IZR (prodZ (gain_den r) l) /\ chain_gain (IZR r / 100) (map coef l) = IZR (prodZ (gain_num r) l) / IZR (prodZ (gain_den r) l))%R.
Proof.
  induction l as [|n l IH]; intros H.
  - cbn. split; lra.
  - cbn [in_range forallb] in H. apply andb_prop in H. destruct H as [Hn Hl]. destruct (IH Hl) as [P E]. clear IH.
    cbn [map chain_gain]. rewrite E. cbn [prodZ fold_right]. fold (prodZ (gain_num r) l). fold (prodZ (gain_den r) l). rewrite !mult_IZR.
    set (a := IZR (prodZ (gain_num r) l)) in *. set (b := IZR (prodZ (gain_den r) l)) in *.
    assert (O : (0 < IZR one48)%R) by (apply IZR_lt; reflexivity).
    assert (I : (0 < IZR r * IZR one48 - 100 * IZR n)%R).
    { assert (I : (IZR (100 * n) < IZR (r * one48))%R) by (apply IZR_lt; lia). rewrite !mult_IZR in I. lra. }
    assert (ED : IZR (gain_den r n) = (IZR one48 * (IZR r * IZR one48 - 100 * IZR n))%R) by (unfold gain_den; now rewrite mult_IZR, minus_IZR, !mult_IZR).
    assert (EN : IZR (gain_num r n) = (IZR n * (IZR r * IZR one48 - 100 * IZR n) + 100 * (IZR one48 * IZR one48 - IZR n * IZR n))%R)
      by (unfold gain_num; now rewrite plus_IZR, !mult_IZR, !minus_IZR, !mult_IZR).
    assert (D0 : (0 < IZR (gain_den r n))%R) by (rewrite ED; apply Rmult_lt_0_compat; assumption).
    split; [apply Rmult_lt_0_compat; assumption|]. rewrite EN, ED. unfold section_gain, coef, unit_of. fold one48. raops.
    assert (N1 : (IZR r / 100 - IZR n * / IZR one48 <> 0)%R).
    { intros Z0. apply Rminus_diag_uniq in Z0. apply (f_equal (fun v => v * (100 * IZR one48))%R) in Z0. 
      replace (IZR r / 100 * (100 * IZR one48))%R with (IZR r * IZR one48)%R in Z0 by field.
      replace (IZR n * / IZR one48 * (100 * IZR one48))%R with (100 * IZR n)%R in Z0 by (field; lra). lra. }
    field. repeat split; try lra.
Qed.
Lemma gain_below_ok r K l : in_range r l = true -> gain_below r K l = true -> (chain_gain (IZR r / 100) (map coef l) <= IZR K)%R.
Proof.
  intros H B. destruct (chain_gain_frac r l H) as [P ->]. unfold gain_below in B. apply Z.leb_le, IZR_le in B. rewrite mult_IZR in B.
  apply Rmult_le_reg_r with (IZR (prodZ (gain_den r) l)); [exact P|]. unfold Rdiv. rewrite Rmult_assoc, Rinv_l by lra. lra.
Qed.

(** gains of the stages for rho = 1 and rho = 0.95 *)
Definition stage_K (r s : Z) : Z :=
  if r =? 100 then (if s =? 2 then 17 else if s =? 4 then 4 else 3) else (if s =? 2 then 48 else if s =? 4 then 6 else 3).
Lemma iir_tables_ok : forallb (fun r => forallb (fun s => forallb (fun p =>
  in_range r (iir_ints s p) && in_range r (evens (iir_ints s p)) && in_range r (odds (iir_ints s p)) &&
  gain_below r (stage_K r s) (evens (iir_ints s p)) && gain_below r (stage_K r s) (odds (iir_ints s p)))
  [8; 12; 16; 20; 24]) stages) [95; 100] = true.
Proof. vm_compute. reflexivity. Qed.
Lemma iir_stage_ok r s p : r = 95 \/ r = 100 -> stage_no s -> iir_prec p ->
  let cs := coeffs (A := RA) FILTER_IIR UP p s in
  Forall (fun c : R => (0 <= c < IZR r / 100)%R) cs /\
  (chain_gain (IZR r / 100) (evens cs) <= IZR (stage_K r s))%R /\ (chain_gain (IZR r / 100) (odds cs) <= IZR (stage_K r s))%R.
Proof.
  intros Hr Hs Hp cs. pose proof iir_tables_ok as H. rewrite forallb_forall in H. specialize (H r ltac:(cbn; lia)).
  rewrite forallb_forall in H. specialize (H s ltac:(unfold stages; cbn; unfold stage_no in Hs; lia)).
  rewrite forallb_forall in H. specialize (H p ltac:(cbn; unfold iir_prec in Hp; lia)).
  repeat (apply andb_prop in H as [H ?]).
  assert (E : cs = map coef (iir_ints s p)) by (unfold cs; now apply iir_coeffs_R).
  destruct (evens_map coef _ (iir_ints s p) (le_n _)) as [E1 E2]. rewrite E, E1, E2.
  split; [now apply coef_range|]. split; apply gain_below_ok; assumption.
Qed.

(** ** Whole resamplers *)
Definition resample_K (r ratio : Z) : Z :=
  if ratio =? 1 then 1 else if ratio =? 2 then stage_K r 2 else if ratio =? 4 then stage_K r 4 * stage_K r 2 else stage_K r 8 * (stage_K r 4 * stage_K r 2).

Lemma tends_ext x a M w w' : (forall k, 0 <= k -> w k = w' k) -> tends x a M w -> tends x a M w'.
Proof. intros E ((HM & Ha) & H). split; [rewrite <- E by lia; now split|]. intros k Hk. rewrite <- E by lia. now apply H. Qed.

Theorem resample_up_tends r ratio p (x : list RA) a M w : r = 95 \/ r = 100 -> valid FILTER_IIR ratio p ->
  steady (IZR r / 100) w -> tends x a M w ->
  tends (resample (A := RA) FILTER_IIR UP p false ratio x) a (IZR (resample_K r ratio) * M) (fun j => w (j / ratio)).
Proof.
  intros Hr [Hra HT] Hw H.
  assert (S2 : stage_no 2) by (unfold stage_no; auto). assert (S4 : stage_no 4) by (unfold stage_no; auto).
  assert (S8 : stage_no 8) by (unfold stage_no; auto).
  assert (R1 : (IZR r / 100 <= 1)%R) by (destruct Hr as [->| ->]; lra).
  destruct Hra as [->|Hra].
  - unfold resample, resample_K. cbn [Z.eqb Pos.eqb]. rewrite Rmult_1_l. eapply tends_ext; [|exact H]. intros k _. now rewrite Z.div_1_r.
  - assert (HP : iir_prec p) by (apply HT; lia). clear HT.
    assert (St : forall s x M w, stage_no s -> steady (IZR r / 100) w -> tends x a M w ->
      tends (stage (A := RA) FILTER_IIR UP p false s x) a (IZR (stage_K r s) * M) (fun j => w (j / 2)) /\ steady (IZR r / 100) (fun j => w (j / 2))).
    { intros s x' M' w' Hs Hw' H'. destruct (iir_stage_ok r s p Hr Hs HP) as (F & G1 & G2). split; [|now apply steady_half].
      now apply (up_tends _ (IZR r / 100)). }
    destruct Hra as [->|[->| ->]]; unfold resample, resample_K; cbn [Z.eqb Pos.eqb]; rewrite ?mult_IZR, ?Rmult_assoc.
    + apply St; assumption.
    + destruct (St 2 x M w S2 Hw H) as [T2 W2]. destruct (St 4 _ _ _ S4 W2 T2) as [T4 _]. eapply tends_ext; [|exact T4].
      intros k Hk. cbn. f_equal. now rewrite Z.div_div by lia.
    + destruct (St 2 x M w S2 Hw H) as [T2 W2]. destruct (St 4 _ _ _ S4 W2 T2) as [T4 W4]. destruct (St 8 _ _ _ S8 W4 T4) as [T8 _].
      eapply tends_ext; [|exact T8]. intros k Hk. cbn. f_equal. now rewrite !Z.div_div by lia.
Qed.

Theorem resample_down_tends r rho ratio p (x : list RA) a M w : r = 95 \/ r = 100 -> valid FILTER_IIR ratio p -> size x mod ratio = 0 ->
  (0 <= rho <= 1)%R -> (IZR r / 100 <= rho ^ 8)%R -> (forall i k, 0 <= i <= k -> (w k <= w i)%R) ->
  steady rho w -> tends x a M w ->
  tends (resample (A := RA) FILTER_IIR DOWN p false ratio x) a (IZR (resample_K r ratio) * M) (fun k => w (ratio * k)).
Proof.
  intros Hr [Hra HT] Hsz Hrho H8 Mon Hw H.
  assert (S2 : stage_no 2) by (unfold stage_no; auto). assert (S4 : stage_no 4) by (unfold stage_no; auto).
  assert (S8 : stage_no 8) by (unfold stage_no; auto).
  assert (R1 : (IZR r / 100 <= 1)%R) by (destruct Hr as [->| ->]; lra).
  destruct Hra as [->|Hra].
  - unfold resample, resample_K. cbn [Z.eqb Pos.eqb]. rewrite Rmult_1_l. eapply tends_ext; [|exact H]. intros k _. now rewrite Z.mul_1_l.
  - assert (HP : iir_prec p) by (apply HT; lia). clear HT.
    set (q2 := (rho * rho)%R). set (q4 := (q2 * q2)%R). set (q8 := (q4 * q4)%R).
    assert (Sq : forall v, (0 <= v <= 1)%R -> (0 <= v * v <= v)%R).
    { intros v Hv. split; [apply Rmult_le_pos; lra|]. assert (v * v <= 1 * v)%R by (apply Rmult_le_compat_r; lra). lra. }
    pose proof (Sq rho Hrho) as B2. fold q2 in B2. pose proof (Sq q2 ltac:(lra)) as B4. fold q4 in B4. pose proof (Sq q4 ltac:(lra)) as B8. fold q8 in B8.
    assert (E8 : (rho ^ 8 = q8)%R) by (unfold q8, q4, q2; ring). rewrite E8 in H8.
    assert (St : forall s x M q w, stage_no s -> Z.even (size x) = true -> (0 <= q)%R -> (IZR r / 100 <= q * q)%R -> (forall i k, 0 <= i <= k -> (w k <= w i)%R) ->
      steady q w -> tends x a M w ->
      size (stage (A := RA) FILTER_IIR DOWN p false s x) = size x / 2 /\
      tends (stage (A := RA) FILTER_IIR DOWN p false s x) a (IZR (stage_K r s) * M) (fun k => w (2 * k)) /\ steady (q * q) (fun k => w (2 * k)) /\
      (forall i k, 0 <= i <= k -> (w (2 * k)%Z <= w (2 * i)%Z)%R)).
    { intros s x' M' q w' Hs Ev Hq Hq2 Mon' Hw' H'. destruct (iir_stage_ok r s p Hr Hs HP) as (F & G1 & G2).
      pose proof (steady_double q w' Hq Hw') as Hw2. split; [|split; [|split]].
      - cbn [stage]. unfold iir_down2, size. rewrite zip_length, !chain_length, evens_length, odds_length.
        apply Z.even_spec in Ev. destruct Ev as [n En]. unfold size in En. replace (length x') with (2 * Z.to_nat n)%nat by lia.
        rewrite Nat.div2_succ_double, Nat.div2_double, Nat.min_id. replace (Z.of_nat (2 * Z.to_nat n)) with (Z.of_nat (Z.to_nat n) * 2) by lia. now rewrite Z.div_mul.
      - apply (down_tends _ (IZR r / 100)); try assumption. eapply steady_weaken; [exact Hw2 | exact Hq2].
      - exact Hw2.
      - intros i k Hk. apply Mon'. lia. }
    assert (Szx : 0 <= size x) by (unfold size; lia).
    assert (Ev : forall z n, z = 2 * n -> Z.even z = true) by (intros z n ->; now rewrite Z.even_mul).
    pose proof (Z.div_mod (size x) ratio ltac:(lia)) as DM. rewrite Hsz in DM. set (n := size x / ratio) in DM. clearbody n.
    destruct Hra as [->|[->| ->]]; unfold resample, resample_K; cbn [Z.eqb Pos.eqb]; rewrite ?mult_IZR, ?Rmult_assoc.
    + destruct (St 2 x M rho w S2 (Ev (size x) n ltac:(lia)) ltac:(lra) ltac:(fold q2; lra) Mon Hw H) as (_ & T2 & _). exact T2.
    + destruct (St 4 x M rho w S4 (Ev (size x) (2 * n) ltac:(lia)) ltac:(lra) ltac:(fold q2; lra) Mon Hw H) as (Z4 & T4 & W4 & M4). fold q2 in W4.
      assert (E4 : size (stage (A := RA) FILTER_IIR DOWN p false 4 x) = 2 * n) by (rewrite Z4; replace (size x) with ((2 * n) * 2) by lia; apply Z.div_mul; lia).
      destruct (St 2 _ _ q2 _ S2 (Ev _ n E4) ltac:(lra) ltac:(fold q4; lra) M4 W4 T4) as (_ & T2 & _).
      eapply tends_more; [eapply tends_ext; [|exact T2] | |].
      * intros k Hk. cbn beta. f_equal. lia.
      * apply Req_le. rewrite <- !Rmult_assoc. now rewrite (Rmult_comm (IZR (stage_K r 2))).
      * intros k Hk. apply Hw. lia.
    + destruct (St 8 x M rho w S8 (Ev (size x) (4 * n) ltac:(lia)) ltac:(lra) ltac:(fold q2; lra) Mon Hw H) as (Z8 & T8 & W8 & M8). fold q2 in W8.
      assert (E8' : size (stage (A := RA) FILTER_IIR DOWN p false 8 x) = 2 * (2 * n)) by (rewrite Z8; replace (size x) with ((2 * (2 * n)) * 2) by lia; apply Z.div_mul; lia).
      destruct (St 4 _ _ q2 _ S4 (Ev _ (2 * n) E8') ltac:(lra) ltac:(fold q4; lra) M8 W8 T8) as (Z4 & T4 & W4 & M4). fold q4 in W4.
      assert (E4 : size (stage (A := RA) FILTER_IIR DOWN p false 4 (stage (A := RA) FILTER_IIR DOWN p false 8 x)) = 2 * n) by (rewrite Z4, E8', Z.mul_comm; apply Z.div_mul; lia).
      destruct (St 2 _ _ q4 _ S2 (Ev _ n E4) ltac:(lra) ltac:(fold q8; lra) M4 W4 T4) as (_ & T2 & _).
      eapply tends_more; [eapply tends_ext; [|exact T2] | |].
      * intros k Hk. cbn beta. f_equal. lia.
      * apply Req_le. ring.
      * intros k Hk. apply Hw. lia.
Qed.

(** ** Energy *)
Fixpoint energy (x : list RA) : R := match x with [] => 0%R | v :: r => (v * v + energy r)%R end.

(** the last state of a section, and what is stored in it *)
Fixpoint last_state (c x1 y1 : R) (x : list RA) : R :=
  match x with [] => (x1 - c * y1)%R | x0 :: r => last_state c x0 ((x0 - y1) * c + x1)%R r end.
Definition stored (c s : R) : R := (s * s / (1 - c * c))%R.
Fixpoint chain_stored (cs x : list RA) : R :=
  match cs with [] => 0%R | c :: r => (stored c (last_state c 0 0 x) + chain_stored r (allpass (A := RA) c x))%R end.

Lemma energy_pos x : (0 <= energy x)%R.
Proof. induction x as [|v x IH]; cbn; [lra|]. pose proof (Rle_0_sqr v) as Q. unfold Rsqr in Q. lra. Qed.
Lemma stored_pos c s : (-1 < c < 1)%R -> (0 <= stored c s)%R.
Proof.
  intros Hc. unfold stored. apply Rmult_le_pos; [apply Rle_0_sqr|]. apply Rlt_le, Rinv_0_lt_compat.
  replace (1 - c * c)%R with ((1 - c) * (1 + c))%R by ring. apply Rmult_lt_0_compat; lra.
Qed.
Lemma chain_stored_pos (cs : list RA) x : Forall (fun c => -1 < c < 1)%R cs -> (0 <= chain_stored cs x)%R.
Proof.
  intros F. revert x. induction F as [|c cs Hc _ IH]; intros x; cbn [chain_stored]; [lra|].
  pose proof (stored_pos c (last_state c 0 0 x) Hc). pose proof (IH (allpass (A := RA) c x)). lra.
Qed.
Lemma allpass_from_energy c (x : list RA) : (-1 < c < 1)%R -> forall x1 y1 : R,
  (energy (allpass_from (A := RA) c x1 y1 x) + stored c (last_state c x1 y1 x) = energy x + stored c (x1 - c * y1))%R.
Proof.
  intros Hc. assert (N : (1 - c * c <> 0)%R).
  { replace (1 - c * c)%R with ((1 - c) * (1 + c))%R by ring. apply Rmult_integral_contrapositive. split; lra. }
  induction x as [|x0 x IH]; intros x1 y1; [cbn; lra|]. cbn [allpass_from energy last_state]. cbn zeta. raops. rewrite Rplus_assoc.
  rewrite (IH x0 ((x0 - y1) * c + x1)%R). unfold stored. field. exact N.
Qed.
Theorem chain_energy (cs : list RA) : Forall (fun c => -1 < c < 1)%R cs -> forall x : list RA, (energy (chain (A := RA) cs x) + chain_stored cs x = energy x)%R.
Proof.
  induction 1 as [|c cs Hc _ IH]; intros x; cbn [chain_stored].
  - cbn. lra.
  - change (chain (A := RA) (c :: cs) x) with (chain (A := RA) cs (allpass (A := RA) c x)). specialize (IH (allpass (A := RA) c x)).
    pose proof (allpass_from_energy c x Hc 0%R 0%R) as Q. unfold stored at 2 in Q. unfold allpass in *. raops.
    replace ((0 - c * 0) * (0 - c * 0) / (1 - c * c))%R with 0%R in Q by (unfold Rdiv; ring). lra.
Qed.
Corollary chain_energy_le (cs : list RA) x : Forall (fun c => -1 < c < 1)%R cs -> (energy (chain (A := RA) cs x) <= energy x)%R.
Proof. intros F. pose proof (chain_energy cs F x). pose proof (chain_stored_pos cs x F). lra. Qed.

Lemma energy_weave x y : length x = length y -> energy (weave x y) = (energy x + energy y)%R.
Proof. revert y. induction x as [|a x IH]; intros [|b y] L; try discriminate; cbn [weave energy]; [lra|]. rewrite IH by (injection L; trivial). lra. Qed.
Lemma energy_split : forall n x, (length x <= n)%nat -> energy x = (energy (evens x) + energy (odds x))%R.
Proof.
  induction n as [|n IH]; intros [|a [|b x]] L; cbn [length] in L; try lia; cbn [evens odds energy]; try lra.
  rewrite (IH x) by lia. lra.
Qed.
Lemma energy_mean (x y : list RA) : (energy (zip (A := RA) (fun a b => fmul fhalf (fadd a b)) x y) <= / 2 * (energy x + energy y))%R.
Proof.
  revert y. induction x as [|a x IH]; intros [|b y]; cbn [zip energy]; raops; try (pose proof (energy_pos x)); try (pose proof (energy_pos y)).
  - lra.
  - pose proof (Rle_0_sqr b) as Q. unfold Rsqr in Q. lra.
  - pose proof (Rle_0_sqr a) as Q. unfold Rsqr in Q. lra.
  - specialize (IH y). pose proof (Rle_0_sqr (a - b)) as Q. unfold Rsqr in Q. lra.
Qed.
Theorem up_energy (cs : list RA) (x : list RA) : Forall (fun c => -1 < c < 1)%R cs ->
  (energy (iir_up2 (A := RA) cs x) + (chain_stored (evens cs) x + chain_stored (odds cs) x) = 2 * energy x)%R.
Proof.
  intros F. destruct (evens_all _ _ F) as [FE FO]. unfold iir_up2.
  assert (L : length (chain (A := RA) (evens cs) x) = length (chain (A := RA) (odds cs) x)) by now rewrite !chain_length.
  rewrite (energy_weave _ _ L).
  assert (E1 : (energy (chain (A := RA) (evens cs) x) + chain_stored (evens cs) x = energy x)%R) by exact (chain_energy _ FE x).
  assert (E2 : (energy (chain (A := RA) (odds cs) x) + chain_stored (odds cs) x = energy x)%R) by exact (chain_energy _ FO x). lra.
Qed.
Theorem down_energy (cs : list RA) (x : list RA) : Forall (fun c => -1 < c < 1)%R cs -> (energy (iir_down2 (A := RA) cs x) <= / 2 * energy x)%R.
Proof.
  intros F. destruct (evens_all _ _ F) as [FE FO]. unfold iir_down2. eapply Rle_trans; [apply energy_mean|].
  assert (E1 : (energy (chain (A := RA) (evens cs) (odds x)) <= energy (odds x))%R) by exact (chain_energy_le _ (odds x) FE).
  assert (E2 : (energy (chain (A := RA) (odds cs) (evens x)) <= energy (evens x))%R) by exact (chain_energy_le _ (evens x) FO). rewrite (energy_split (length x) x) by lia. lra.
Qed.
Lemma iir_stage_unit md s p : stage_no s -> iir_prec p -> Forall (fun c : R => (-1 < c < 1)%R) (coeffs (A := RA) FILTER_IIR md p s).
Proof.
  intros Hs Hp. destruct (iir_stage_ok 100 s p ltac:(auto) Hs Hp) as (F & _). eapply Forall_impl; [|exact F]. intros c Hc. cbv beta in *. lra.
Qed.
Theorem resample_energy md ratio p (x : list RA) : valid FILTER_IIR ratio p ->
  (energy (resample (A := RA) FILTER_IIR md p false ratio x) <= match md with UP => IZR ratio | DOWN => / IZR ratio end * energy x)%R.
Proof.
  intros [Hra HT].
  assert (S2 : stage_no 2) by (unfold stage_no; auto). assert (S4 : stage_no 4) by (unfold stage_no; auto).
  assert (S8 : stage_no 8) by (unfold stage_no; auto).
  destruct Hra as [->|Hra].
  - unfold resample. cbn [Z.eqb Pos.eqb]. destruct md; lra.
  - assert (HP : iir_prec p) by (apply HT; lia). clear HT.
    assert (U : forall s x, stage_no s -> (energy (stage (A := RA) FILTER_IIR UP p false s x) <= 2 * energy x)%R).
    { intros s z Hs. pose proof (iir_stage_unit UP s p Hs HP) as F. pose proof (up_energy _ z F) as Q. destruct (evens_all _ _ F) as [FE FO].
      set (cs := coeffs (A := RA) FILTER_IIR UP p s) in *.
      assert (0 <= chain_stored (evens cs) z)%R by exact (chain_stored_pos _ z FE). assert (0 <= chain_stored (odds cs) z)%R by exact (chain_stored_pos _ z FO).
      change (stage (A := RA) FILTER_IIR UP p false s z) with (iir_up2 (A := RA) cs z). lra. }
    assert (D : forall s x, stage_no s -> (energy (stage (A := RA) FILTER_IIR DOWN p false s x) <= / 2 * energy x)%R).
    { intros s z Hs. exact (down_energy _ z (iir_stage_unit DOWN s p Hs HP)). }
    destruct md, Hra as [->|[->| ->]]; unfold resample; cbn [Z.eqb Pos.eqb].
    + apply U; assumption.
    + pose proof (U 2 x S2). pose proof (U 4 (stage (A := RA) FILTER_IIR UP p false 2 x) S4). lra.
    + pose proof (U 2 x S2). pose proof (U 4 (stage (A := RA) FILTER_IIR UP p false 2 x) S4).
      pose proof (U 8 (stage (A := RA) FILTER_IIR UP p false 4 (stage (A := RA) FILTER_IIR UP p false 2 x)) S8). lra.
    + apply D; assumption.
    + pose proof (D 4 x S4). pose proof (D 2 (stage (A := RA) FILTER_IIR DOWN p false 4 x) S2). lra.
    + pose proof (D 8 x S8). pose proof (D 4 (stage (A := RA) FILTER_IIR DOWN p false 8 x) S4).
      pose proof (D 2 (stage (A := RA) FILTER_IIR DOWN p false 4 (stage (A := RA) FILTER_IIR DOWN p false 8 x)) S2). lra.
Qed.
