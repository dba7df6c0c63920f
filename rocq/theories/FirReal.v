(** * FIR stages over the reals: straight lines, symmetric signals, bounds *)
From Coq Require Import ZArith Reals List Lia Lra Bool ZifyNat ZifyBool.
From Flocq Require Import Core.
From Verif Require Import Arith ArithR Tables ResamplerModel ResamplerProof ResamplerOk Spec SpecOk SpecR Client Feed TablesF TableFacts DelayFacts.
Import ListNotations.
Open Scope Z_scope.

Lemma sumR_rev n f : sumR n f = sumR n (fun i => f (Z.of_nat n - 1 - i)).
Proof.
  revert f. induction n as [|n IH]; intros f; [reflexivity|].
  replace (S n) with (1 + n)%nat at 2 by lia. rewrite sumR_add. cbn [sumR]. rewrite (IH f).
  replace (Z.of_nat (S n) - 1 - Z.of_nat 0) with (Z.of_nat n) by lia.
  rewrite (sumR_ext n (fun i => f (Z.of_nat (S n) - 1 - (Z.of_nat 1 + i))) (fun i => f (Z.of_nat n - 1 - i)))
    by (intros; f_equal; lia). lra.
Qed.
Lemma sumR_minus n f g : sumR n (fun k => (f k - g k)%R) = (sumR n f - sumR n g)%R.
Proof. induction n as [|n IH]; cbn [sumR]; [lra | rewrite IH; lra]. Qed.

(** sum over a window when the values are near a straight line *)
Section Window.
Variables (n : nat) (t : Z -> R) (S K : R).
Hypothesis (sym : forall i, 0 <= i < Z.of_nat n -> t i = t (Z.of_nat n - 1 - i)).
Hypothesis (HK : (sumR n (fun i => Rabs (t i)) <= K)%R).

Lemma sym_moment : (sumR n (fun i => t i * IZR i) = IZR (Z.of_nat n - 1) / 2 * sumR n t)%R.
Proof.
  assert (E : (sumR n (fun i => t i * IZR i) = sumR n (fun i => IZR (Z.of_nat n - 1) * t i - t i * IZR i))%R).
  { rewrite (sumR_rev n (fun i => (t i * IZR i)%R)). apply sumR_ext. intros i Hi. rewrite <- sym by lia.
    replace (IZR (Z.of_nat n - 1 - i)) with (IZR (Z.of_nat n - 1) - IZR i)%R by (rewrite <- minus_IZR; reflexivity). lra. }
  rewrite sumR_minus, sumR_scal in E. lra.
Qed.
Lemma line_sum a b : (sumR n (fun i => (a + b * IZR i) * t i) = sumR n t * (a + b * (IZR (Z.of_nat n - 1) / 2)))%R.
Proof.
  rewrite (sumR_ext n _ (fun i => (a * t i + b * (t i * IZR i))%R)) by (intros; lra).
  rewrite sumR_plus, !sumR_scal, sym_moment. lra.
Qed.
Lemma window_bound (w : Z -> R) e : (0 <= e)%R -> (forall i, 0 <= i < Z.of_nat n -> (Rabs (w i) <= e)%R) ->
  (Rabs (sumR n (fun i => w i * t i)) <= K * e)%R.
Proof.
  intros He H. eapply Rle_trans; [apply sumR_abs|]. eapply Rle_trans; [|apply Rmult_le_compat_r; [exact He | exact HK]].
  rewrite Rmult_comm, <- sumR_scal. apply sumR_le. intros i Hi. rewrite Rabs_mult. apply Rmult_le_compat_r; [apply Rabs_pos | now apply H].
Qed.
Lemma window_line (w : Z -> R) a b e : (0 <= e)%R ->
  (forall i, 0 <= i < Z.of_nat n -> (Rabs (w i - (a + b * IZR i)) <= e)%R) ->
  (Rabs (sumR n (fun i => w i * t i) - sumR n t * (a + b * (IZR (Z.of_nat n - 1) / 2))) <= K * e)%R.
Proof.
  intros He H. rewrite <- line_sum, <- sumR_minus.
  rewrite (sumR_ext n _ (fun i => ((w i - (a + b * IZR i)) * t i)%R)) by (intros; lra). now apply window_bound.
Qed.
End Window.

(** from sample lo on, x follows the line a + b k, which is at most M, with an error of at most e *)
Definition near (x : list RA) (lo : Z) (a b e M : R) : Prop :=
  0 <= lo /\ (0 <= e)%R /\ (0 <= M)%R /\
  (forall k, lo <= k < size x -> (Rabs (smp x k - (a + b * IZR k)) <= e)%R) /\
  (forall q, (IZR lo <= q <= IZR (size x - 1))%R -> (Rabs (a + b * q) <= M)%R).

Lemma near_weaken x lo a b e M lo' e' : near x lo a b e M -> lo <= lo' -> (e <= e')%R -> near x lo' a b e' M.
Proof.
  intros (H1 & H2 & HM & H3 & H4) L E. repeat split; [lia | lra | exact HM | |].
  - intros k Hk. specialize (H3 k ltac:(lia)). lra.
  - intros q Hq. apply H4. apply IZR_le in L. lra.
Qed.

Lemma up_near s p x lo a b e M : stage_no s -> fir_prec p -> near x lo a b e M ->
  let t := coeffs (A := RA) FILTER_FIR UP p s in let N := size t in
  near (fir_up2 t x) (2 * (lo + N - 1)) (a - b * (IZR (N - 1) / 2)) (b / 2) (stage_gain s * e + tolerance p * M) M.
Proof.
  intros Hs Hp (H1 & H2 & M0 & H3 & H4) t N.
  destruct (ft_facts UP s p Hs Hp) as (_ & Ev & N2 & _). fold t N in Ev, N2.
  pose proof (ft_sum UP s p Hs Hp) as HS. pose proof (ft_abs UP s p Hs Hp) as HK. fold t in HS, HK. cbn [half] in HS, HK. rewrite Rmult_1_l in HS, HK.
  pose proof (ft_sym UP s p Hs Hp) as Hsym. fold t N in Hsym. pose proof (tolerance_pos p Hp) as HT.
  assert (LN : Z.of_nat (length t) = N) by reflexivity.
  assert (K1 : (1 <= stage_gain s)%R) by (unfold stage_gain, gain100; destruct (s =? 2), (s =? 4); lra).
  assert (Sz : size (fir_up2 t x) = 2 * size x) by (unfold fir_up2; rewrite size_tab; unfold size; lia).
  assert (QB : forall q, (IZR (2 * (lo + N - 1)) <= q <= IZR (size (fir_up2 t x) - 1))%R ->
     (IZR lo <= (q - IZR (N - 1)) / 2 <= IZR (size x - 1))%R).
  { intros q Hq. rewrite Sz in Hq. apply IZR_le in N2. rewrite !minus_IZR, !mult_IZR, ?minus_IZR, ?plus_IZR in Hq. rewrite !minus_IZR. lra. }
  assert (Q : forall q, (a - b * (IZR (N - 1) / 2) + b / 2 * q = a + b * ((q - IZR (N - 1)) / 2))%R) by (intros; lra).
  assert (E0 : (e <= stage_gain s * e + tolerance p * M)%R).
  { assert (0 <= tolerance p * M)%R by (apply Rmult_le_pos; lra).
    assert (1 * e <= stage_gain s * e)%R by (apply Rmult_le_compat_r; lra). lra. }
  split; [lia|]. split; [lra|]. split; [exact M0|]. split.
  2: { intros q Hq. rewrite Q. apply H4. apply QB. exact Hq. }
  intros j Hj. rewrite Q. rewrite Sz in Hj. unfold fir_up2. rewrite smp_tab by lia. unfold fir_up_at. fold N.
  pose proof (Z.div_mod j 2 ltac:(lia)) as D. pose proof (Z.mod_pos_bound j 2 ltac:(lia)) as DB.
  set (m := j / 2) in *. destruct (Z.even j) eqn:Ej.
  - assert (j mod 2 = 0) by (rewrite Zmod_even, Ej; reflexivity).
    rewrite mac_sum.
    pose proof (window_line (length t) (smp t) _ Hsym HK (fun i => smp x (m - N + 1 + i)) (a + b * IZR (m - N + 1)) b e H2) as W.
    assert (C : forall i, 0 <= i < Z.of_nat (length t) -> (Rabs (smp x (m - N + 1 + i) - (a + b * IZR (m - N + 1) + b * IZR i)) <= e)%R).
    { intros i Hi. specialize (H3 (m - N + 1 + i) ltac:(lia)). rewrite plus_IZR in H3.
      replace (a + b * IZR (m - N + 1) + b * IZR i)%R with (a + b * (IZR (m - N + 1) + IZR i))%R by lra. exact H3. }
    specialize (W C). rewrite LN in W.
    replace (a + b * IZR (m - N + 1) + b * (IZR (N - 1) / 2))%R with (a + b * ((IZR j - IZR (N - 1)) / 2))%R in W.
    2: { replace j with (2 * m) by lia. rewrite mult_IZR, plus_IZR, !minus_IZR. lra. }
    set (P := (a + b * ((IZR j - IZR (N - 1)) / 2))%R) in *.
    assert (PM : (Rabs P <= M)%R). { apply H4, QB. rewrite Sz. split; apply IZR_le; lia. }
    replace (sumR (length t) (fun i => smp x (m - N + 1 + i) * smp t i) - P)%R with
      ((sumR (length t) (fun i => smp x (m - N + 1 + i) * smp t i) - sumR (length t) (smp t) * P) + (sumR (length t) (smp t) - 1) * P)%R by lra.
    eapply Rle_trans; [apply Rabs_triang|]. apply Rplus_le_compat; [exact W|].
    rewrite Rabs_mult. apply Rmult_le_compat; [apply Rabs_pos | apply Rabs_pos | exact HS | exact PM].
  - assert (j mod 2 = 1) by (rewrite Zmod_even, Ej; reflexivity).
    apply Z.even_spec in Ev. destruct Ev as [h Eh]. rewrite Eh, Z.mul_comm, Z.div_mul by lia.
    replace (a + b * ((IZR j - IZR (h * 2 - 1)) / 2))%R with (a + b * IZR (m - h + 1))%R.
    2: { replace j with (2 * m + 1) by lia. rewrite !minus_IZR, !plus_IZR, !mult_IZR, ?minus_IZR. lra. }
    eapply Rle_trans; [apply H3; lia | exact E0].
Qed.

Lemma down_near s p x lo a b e M lo' : stage_no s -> fir_prec p -> near x lo a b e M ->
  let t := coeffs (A := RA) FILTER_FIR DOWN p s in let N := size t in
  0 <= lo' -> lo <= 2 * (lo' - N + 1) ->
  near (fir_down2 t x) lo' (a - b * IZR (N - 1)) (2 * b) ((stage_gain s / 2 + / 2) * e + tolerance p / 2 * M) M.
Proof.
  intros Hs Hp (H1 & H2 & M0 & H3 & H4) t N L0 LL.
  destruct (ft_facts DOWN s p Hs Hp) as (_ & Ev & N2 & _). fold t N in Ev, N2.
  pose proof (ft_sum DOWN s p Hs Hp) as HS. pose proof (ft_abs DOWN s p Hs Hp) as HK. fold t in HS, HK. cbn [half] in HS, HK.
  pose proof (ft_sym DOWN s p Hs Hp) as Hsym. fold t N in Hsym. pose proof (tolerance_pos p Hp) as HT.
  assert (LN : Z.of_nat (length t) = N) by reflexivity.
  assert (K1 : (1 <= stage_gain s)%R) by (unfold stage_gain, gain100; destruct (s =? 2), (s =? 4); lra).
  assert (S0 : 0 <= size x) by (unfold size; lia).
  pose proof (Z.div_mod (size x) 2 ltac:(lia)) as D. pose proof (Z.mod_pos_bound (size x) 2 ltac:(lia)) as DB.
  assert (Sz : size (fir_down2 t x) = size x / 2) by (unfold fir_down2; rewrite size_tab; lia).
  assert (Q : forall q, (a - b * IZR (N - 1) + 2 * b * q = a + b * (2 * q - IZR (N - 1)))%R) by (intros; lra).
  assert (QB : forall q, (IZR lo' <= q <= IZR (size (fir_down2 t x) - 1))%R ->
     (IZR lo <= 2 * q - IZR (N - 1) <= IZR (size x - 1))%R).
  { intros q Hq. rewrite Sz in Hq. apply IZR_le in N2. apply IZR_le in LL. rewrite mult_IZR, plus_IZR, minus_IZR in LL.
    assert (2 * (size x / 2) <= size x) as D2 by lia. apply IZR_le in D2. rewrite mult_IZR in D2.
    rewrite minus_IZR in Hq. rewrite !minus_IZR. lra. }
  split; [lia|]. split.
  { assert (0 <= tolerance p / 2 * M)%R by (apply Rmult_le_pos; lra).
    assert (0 <= (stage_gain s / 2 + / 2) * e)%R by (apply Rmult_le_pos; lra). lra. }
  split; [exact M0|]. split.
  2: { intros q Hq. rewrite Q. apply H4. apply QB. exact Hq. }
  intros n Hn. rewrite Q. rewrite Sz in Hn. unfold fir_down2. rewrite smp_tab by lia. unfold fir_down_at. fold N. rewrite mac_sum.
  pose proof (window_line (length t) (smp t) _ Hsym HK (fun i => smp x (2 * (n - N + 1 + i))) (a + b * IZR (2 * (n - N + 1))) (2 * b) e H2) as W.
  assert (C : forall i, 0 <= i < Z.of_nat (length t) ->
    (Rabs (smp x (2 * (n - N + 1 + i)) - (a + b * IZR (2 * (n - N + 1)) + 2 * b * IZR i)) <= e)%R).
  { intros i Hi. specialize (H3 (2 * (n - N + 1 + i)) ltac:(lia)).
    replace (a + b * IZR (2 * (n - N + 1)) + 2 * b * IZR i)%R with (a + b * IZR (2 * (n - N + 1 + i)))%R; [exact H3|].
    rewrite !mult_IZR, (plus_IZR _ i). lra. }
  specialize (W C). rewrite LN in W.
  replace (a + b * IZR (2 * (n - N + 1)) + 2 * b * (IZR (N - 1) / 2))%R with (a + b * (2 * IZR n - IZR (N - 1)))%R in W.
  2: { rewrite mult_IZR, plus_IZR, !minus_IZR. lra. }
  set (P := (a + b * (2 * IZR n - IZR (N - 1)))%R) in *.
  assert (PM : (Rabs P <= M)%R). { apply H4, QB. rewrite Sz. split; apply IZR_le; lia. }
  apply Z.even_spec in Ev. destruct Ev as [h Eh]. replace (N / 2) with h by (rewrite Eh, Z.mul_comm, Z.div_mul; lia).
  pose proof (H3 (2 * (n - h) + 1) ltac:(lia)) as HC.
  replace (a + b * IZR (2 * (n - h) + 1))%R with P in HC.
  2: { unfold P. rewrite Eh, plus_IZR, mult_IZR, !minus_IZR, mult_IZR. lra. }
  set (c := smp x (2 * (n - h) + 1)) in *. set (sm := sumR (length t) (fun i => (smp x (2 * (n - N + 1 + i)) * smp t i)%R)) in *.
  change (@fadd RA) with Rplus. change (@fmul RA) with Rmult. change (@fhalf RA) with (/ 2)%R.
  replace (sm + / 2 * c - P)%R with ((sm - sumR (length t) (smp t) * P) + ((sumR (length t) (smp t) - / 2) * P + / 2 * (c - P)))%R by lra.
  eapply Rle_trans; [apply Rabs_triang|].
  assert (B1 : (Rabs ((sumR (length t) (smp t) - / 2) * P) <= / 2 * tolerance p * M)%R).
  { rewrite Rabs_mult. apply Rmult_le_compat; [apply Rabs_pos | apply Rabs_pos | exact HS | exact PM]. }
  assert (B2 : (Rabs (/ 2 * (c - P)) <= / 2 * e)%R).
  { rewrite Rabs_mult, (Rabs_pos_eq (/ 2)) by lra. apply Rmult_le_compat_l; [lra | exact HC]. }
  pose proof (Rabs_triang ((sumR (length t) (smp t) - / 2) * P) (/ 2 * (c - P))). lra.
Qed.

(** ** Cascades *)
Definition cascade_gain (md : rmode) (ratio : Z) : R :=
  match md with
  | UP => if ratio =? 1 then 1 else if ratio =? 2 then 251 / 100 else if ratio =? 4 then 447 / 100 else 72 / 10
  | DOWN => if ratio =? 1 then 1 else if ratio =? 2 then 176 / 100 else if ratio =? 4 then 244 / 100 else 319 / 100
  end%R.
Definition cascade_tol (md : rmode) (ratio : Z) : R :=
  (half md * if ratio =? 1 then 0 else if ratio =? 2 then 1 else if ratio =? 4 then 3 else 6)%R.

Lemma size_len (md : rmode) s p : size (coeffs (A := RA) FILTER_FIR md p s) = fir_len s p.
Proof. unfold coeffs, fir_len. destruct (fir_table s p); [|reflexivity]. unfold size. now rewrite map_length. Qed.

Lemma near_eq x lo a b e M a' b' : near x lo a b e M -> a = a' -> b = b' -> near x lo a' b' e M.
Proof. now intros H -> ->. Qed.

Theorem resample_up_near p ratio x lo a b e M lo' : valid FILTER_FIR ratio p -> near x lo a b e M ->
  ratio * lo * 4 + fir_delay8 UP ratio p <= 4 * lo' ->
  near (resample FILTER_FIR UP p false ratio x) lo'
    (a - b * (IZR (fir_delay8 UP ratio p) / 8 / IZR ratio)) (b / IZR ratio)
    (cascade_gain UP ratio * e + cascade_tol UP ratio * tolerance p * M) M.
Proof.
  intros [Hr HT] H L.
  assert (S2 : stage_no 2) by (unfold stage_no; auto). assert (S4 : stage_no 4) by (unfold stage_no; auto).
  assert (S8 : stage_no 8) by (unfold stage_no; auto).
  pose proof H as (_ & He & HM & _).
  destruct Hr as [->|Hr].
  - unfold resample, fir_delay8, cascade_gain, cascade_tol, half in *. cbn [Z.eqb Pos.eqb] in *. try change (8 * 0) with 0 in *. eapply near_eq; [eapply near_weaken; [exact H | lia | lra] | lra | lra].
  - assert (HP : fir_prec p) by (apply HT; lia). clear HT.
    pose proof (tolerance_pos p HP) as T0. assert (0 <= tolerance p * M)%R by (apply Rmult_le_pos; lra).
    pose proof (up_near 2 p x lo a b e M S2 HP H) as H2. cbn zeta in H2. rewrite size_len in H2.
    pose proof (up_near 4 p _ _ _ _ _ _ S4 HP H2) as H4. cbn zeta in H4. rewrite size_len in H4.
    pose proof (up_near 8 p _ _ _ _ _ _ S8 HP H4) as H8. cbn zeta in H8. rewrite size_len in H8.
    change (stage_gain 2) with (251 / 100)%R in *. change (stage_gain 4) with (178 / 100)%R in *. change (stage_gain 8) with (161 / 100)%R in *.
    destruct Hr as [->|[->| ->]]; unfold resample, fir_delay8, cascade_gain, cascade_tol, half in *; cbn [Z.eqb Pos.eqb] in *.
    + eapply near_eq; [eapply near_weaken; [exact H2 | lia | lra] | rewrite mult_IZR; lra | lra].
    + eapply near_eq; [eapply near_weaken; [exact H4 | lia | lra] | rewrite mult_IZR, plus_IZR, mult_IZR; lra | lra].
    + eapply near_eq; [eapply near_weaken; [exact H8 | lia | lra] | rewrite mult_IZR, !plus_IZR, !mult_IZR, plus_IZR, mult_IZR; lra | lra].
Qed.

Theorem resample_down_near p ratio x lo a b e M lo' : valid FILTER_FIR ratio p -> near x lo a b e M ->
  4 * lo + ratio * fir_delay8 DOWN ratio p <= 4 * ratio * lo' ->
  near (resample FILTER_FIR DOWN p false ratio x) lo'
    (a - b * (IZR (fir_delay8 DOWN ratio p) / 8 * IZR ratio)) (b * IZR ratio)
    (cascade_gain DOWN ratio * e + cascade_tol DOWN ratio * tolerance p * M) M.
Proof.
  intros [Hr HT] H L.
  assert (S2 : stage_no 2) by (unfold stage_no; auto). assert (S4 : stage_no 4) by (unfold stage_no; auto).
  assert (S8 : stage_no 8) by (unfold stage_no; auto).
  pose proof H as (Hlo & He & HM & _).
  destruct Hr as [->|Hr].
  - unfold resample, fir_delay8, cascade_gain, cascade_tol, half in *. cbn [Z.eqb Pos.eqb] in *. try change (8 * 0) with 0 in *. eapply near_eq; [eapply near_weaken; [exact H | lia | lra] | lra | lra].
  - assert (HP : fir_prec p) by (apply HT; lia). clear HT.
    pose proof (tolerance_pos p HP) as T0. assert (0 <= tolerance p * M)%R by (apply Rmult_le_pos; lra).
    assert (G : forall s, stage_no s -> 2 <= fir_len s p).
    { intros s Hs. rewrite <- (size_len DOWN). now apply ft_facts. }
    pose proof (G 2 S2) as G2. pose proof (G 4 S4) as G4. pose proof (G 8 S8) as G8.
    assert (Nx : forall s y l a' b' e', stage_no s -> near y l a' b' e' M ->
      near (fir_down2 (coeffs (A := RA) FILTER_FIR DOWN p s) y) ((l + 1) / 2 + fir_len s p - 1)
        (a' - b' * IZR (fir_len s p - 1)) (2 * b') ((stage_gain s / 2 + / 2) * e' + tolerance p / 2 * M) M).
    { intros s y l a' b' e' Hs Hn. rewrite <- (size_len DOWN). destruct Hn as (Hl & Hn).
      apply (down_near s p y l a' b' e' M); try assumption; try (split; assumption); rewrite (size_len DOWN); specialize (G s Hs); lia. }
    destruct Hr as [->|[->| ->]]; unfold resample, fir_delay8, cascade_gain, cascade_tol, half in *; cbn [Z.eqb Pos.eqb] in *.
    + pose proof (Nx 2 _ _ _ _ _ S2 H) as H2. change (stage_gain 2) with (251 / 100)%R in *.
      eapply near_eq; [eapply near_weaken; [exact H2 | lia | lra] | rewrite mult_IZR; lra | lra].
    + pose proof (Nx 4 _ _ _ _ _ S4 H) as H4. pose proof (Nx 2 _ _ _ _ _ S2 H4) as H2.
      change (stage_gain 2) with (251 / 100)%R in *. change (stage_gain 4) with (178 / 100)%R in *.
      eapply near_eq; [eapply near_weaken; [exact H2 | lia | lra] | rewrite !plus_IZR, !mult_IZR; lra | lra].
    + pose proof (Nx 8 _ _ _ _ _ S8 H) as H8. pose proof (Nx 4 _ _ _ _ _ S4 H8) as H4. pose proof (Nx 2 _ _ _ _ _ S2 H4) as H2.
      change (stage_gain 2) with (251 / 100)%R in *. change (stage_gain 4) with (178 / 100)%R in *. change (stage_gain 8) with (161 / 100)%R in *.
      eapply near_eq; [eapply near_weaken; [exact H2 | lia | lra] | rewrite !plus_IZR, !mult_IZR; lra | lra].
Qed.

(** ** Bounds *)
Definition bounded (x : list RA) (B : R) : Prop := forall k, (Rabs (smp x k) <= B)%R.

Lemma up_bounded s p x B : stage_no s -> fir_prec p -> (0 <= B)%R -> bounded x B ->
  bounded (fir_up2 (coeffs (A := RA) FILTER_FIR UP p s) x) (stage_gain s * B).
Proof.
  intros Hs Hp HB H j. set (t := coeffs (A := RA) FILTER_FIR UP p s).
  pose proof (ft_abs UP s p Hs Hp) as HK. fold t in HK. cbn [half] in HK. rewrite Rmult_1_l in HK.
  assert (K1 : (1 <= stage_gain s)%R) by (unfold stage_gain, gain100; destruct (s =? 2), (s =? 4); lra).
  assert (0 <= stage_gain s * B)%R by (apply Rmult_le_pos; lra).
  assert (1 * B <= stage_gain s * B)%R by (apply Rmult_le_compat_r; lra).
  destruct (Z_lt_le_dec j 0); [rewrite smp_neg by lia; cbn; rewrite Rabs_R0; lra|].
  assert (Sz : size (fir_up2 t x) = 2 * size x) by (unfold fir_up2; rewrite size_tab; unfold size; lia).
  destruct (Z_lt_le_dec j (2 * size x)); [|rewrite smp_over by lia; cbn; rewrite Rabs_R0; lra].
  unfold fir_up2. rewrite smp_tab by lia. unfold fir_up_at. destruct (Z.even j).
  - rewrite mac_sum. apply window_bound; [exact HK | exact HB | intros; apply H].
  - eapply Rle_trans; [apply H | lra].
Qed.
Lemma down_bounded s p x B : stage_no s -> fir_prec p -> (0 <= B)%R -> bounded x B ->
  bounded (fir_down2 (coeffs (A := RA) FILTER_FIR DOWN p s) x) ((stage_gain s / 2 + / 2) * B).
Proof.
  intros Hs Hp HB H j. set (t := coeffs (A := RA) FILTER_FIR DOWN p s).
  pose proof (ft_abs DOWN s p Hs Hp) as HK. fold t in HK. cbn [half] in HK.
  assert (K1 : (1 <= stage_gain s)%R) by (unfold stage_gain, gain100; destruct (s =? 2), (s =? 4); lra).
  assert (0 <= (stage_gain s / 2 + / 2) * B)%R by (apply Rmult_le_pos; lra).
  destruct (Z_lt_le_dec j 0); [rewrite smp_neg by lia; cbn; rewrite Rabs_R0; lra|].
  assert (0 <= size x / 2) by (apply Z.div_pos; unfold size; lia).
  assert (Sz : size (fir_down2 t x) = size x / 2) by (unfold fir_down2; rewrite size_tab; lia).
  destruct (Z_lt_le_dec j (size x / 2)); [|rewrite smp_over by lia; cbn; rewrite Rabs_R0; lra].
  unfold fir_down2. rewrite smp_tab by lia. unfold fir_down_at. rewrite mac_sum.
  change (@fadd RA) with Rplus. change (@fmul RA) with Rmult. change (@fhalf RA) with (/ 2)%R.
  eapply Rle_trans; [apply Rabs_triang|].
  pose proof (window_bound (length t) (smp t) _ HK (fun i => smp x (2 * (j - size t + 1 + i))) B HB (fun i _ => H _)) as W.
  pose proof (H (2 * (j - size t / 2) + 1)) as W2. rewrite (Rabs_mult (/ 2)), (Rabs_pos_eq (/ 2)) by lra. lra.
Qed.

Theorem resample_bounded md p ratio x B : valid FILTER_FIR ratio p -> (0 <= B)%R -> bounded x B ->
  bounded (resample FILTER_FIR md p false ratio x) (cascade_gain md ratio * B).
Proof.
  intros [Hr HT] HB H.
  assert (S2 : stage_no 2) by (unfold stage_no; auto). assert (S4 : stage_no 4) by (unfold stage_no; auto).
  assert (S8 : stage_no 8) by (unfold stage_no; auto).
  destruct Hr as [->|Hr].
  - unfold resample, cascade_gain. cbn [Z.eqb Pos.eqb]. destruct md; now rewrite Rmult_1_l.
  - assert (HP : fir_prec p) by (apply HT; lia). clear HT.
    assert (Wk : forall y b b', bounded y b -> (b <= b')%R -> bounded y b') by (intros y b b' Hy Hb k; specialize (Hy k); lra).
    assert (U : forall s y b, stage_no s -> (0 <= b)%R -> bounded y b ->
      bounded (stage (A := RA) FILTER_FIR md p false s y) (match md with UP => stage_gain s | DOWN => stage_gain s / 2 + / 2 end * b)).
    { intros. destruct md; [now apply up_bounded | now apply down_bounded]. }
    destruct md; destruct Hr as [->|[->| ->]]; unfold resample, cascade_gain in *; cbn [Z.eqb Pos.eqb] in *;
      (eapply Wk; [repeat (apply U; [assumption| |]); try exact H | ]);
      change (stage_gain 2) with (251 / 100)%R in *; change (stage_gain 4) with (178 / 100)%R in *; change (stage_gain 8) with (161 / 100)%R in *; lra.
Qed.

(** ** Symmetric signals *)

(** x(k) = x(k') whenever k + k' = C *)
Definition symmetric (x : list RA) (C : Z) : Prop := forall k k', k + k' = C -> k < size x -> k' < size x -> smp x k = smp x k'.

Lemma up_symmetric s p x C : stage_no s -> fir_prec p -> symmetric x C ->
  symmetric (fir_up2 (coeffs (A := RA) FILTER_FIR UP p s) x) (2 * C + 2 * (fir_len s p - 1)).
Proof.
  intros Hs Hp H j j'. set (t := coeffs (A := RA) FILTER_FIR UP p s). rewrite <- (size_len UP). fold t.
  destruct (ft_facts UP s p Hs Hp) as (_ & Ev & N2 & _). pose proof (ft_sym UP s p Hs Hp) as Hsym. fold t in Ev, N2, Hsym.
  apply Z.even_spec in Ev. destruct Ev as [h Eh].
  assert (Sz : size (fir_up2 t x) = 2 * size x) by (unfold fir_up2; rewrite size_tab; unfold size; lia). rewrite Sz.
  assert (F : forall q, q < 2 * size x -> smp (fir_up2 t x) q = fir_up_at t x q).
  { intros q Hq. destruct (Z_lt_le_dec q 0); [|unfold fir_up2; now rewrite smp_tab by lia].
    rewrite smp_neg by lia. unfold fir_up_at. pose proof (Z.div_mod q 2 ltac:(lia)). pose proof (Z.mod_pos_bound q 2 ltac:(lia)).
    destruct (Z.even q).
    - rewrite mac_sum. rewrite (sumR_ext _ _ (fun _ => 0%R)); [now rewrite sumR_0|]. intros i Hi. rewrite smp_neg by (unfold size in *; lia). cbn. lra.
    - rewrite smp_neg; [reflexivity|]. rewrite Eh, Z.mul_comm, Z.div_mul by lia. lia. }
  intros E Hj Hj'. rewrite !F by lia. unfold fir_up_at.
  pose proof (Z.div_mod j 2 ltac:(lia)). pose proof (Z.mod_pos_bound j 2 ltac:(lia)).
  pose proof (Z.div_mod j' 2 ltac:(lia)). pose proof (Z.mod_pos_bound j' 2 ltac:(lia)).
  pose proof (Zmod_even j) as M1. pose proof (Zmod_even j') as M2.
  assert (LN : Z.of_nat (length t) = size t) by reflexivity.
  destruct (Z.even j), (Z.even j'); try lia.
  - rewrite !mac_sum. rewrite (sumR_rev (length t) (fun i => (smp x (j' / 2 - size t + 1 + i) * smp t i)%R)).
    apply sumR_ext. intros i Hi. rewrite (Hsym i) by lia. rewrite LN. f_equal. apply H; lia.
  - rewrite Eh, Z.mul_comm, Z.div_mul by lia. apply H; lia.
Qed.

(** the axis of symmetry of the output is C/2 + N - 1, if this is an integer *)
Lemma down_symmetric s p x C C' : stage_no s -> fir_prec p -> symmetric x C -> 2 * C' = C + 2 * (fir_len s p - 1) ->
  size x mod 2 = 0 -> symmetric (fir_down2 (coeffs (A := RA) FILTER_FIR DOWN p s) x) C'.
Proof.
  intros Hs Hp H EC Hx j j'. set (t := coeffs (A := RA) FILTER_FIR DOWN p s). rewrite <- (size_len DOWN) in EC. fold t in EC.
  destruct (ft_facts DOWN s p Hs Hp) as (_ & Ev & N2 & _). pose proof (ft_sym DOWN s p Hs Hp) as Hsym. fold t in Ev, N2, Hsym.
  apply Z.even_spec in Ev. destruct Ev as [h Eh].
  assert (0 <= size x) by (unfold size; lia).
  pose proof (Z.div_mod (size x) 2 ltac:(lia)) as D.
  assert (Sz : size (fir_down2 t x) = size x / 2) by (unfold fir_down2; rewrite size_tab; lia). rewrite Sz.
  assert (F : forall q, q < size x / 2 -> smp (fir_down2 t x) q = fir_down_at t x q).
  { intros q Hq. destruct (Z_lt_le_dec q 0); [|unfold fir_down2; now rewrite smp_tab by lia].
    rewrite smp_neg by lia. unfold fir_down_at. rewrite mac_sum.
    rewrite (sumR_ext _ _ (fun _ => 0%R)); [rewrite sumR_0|].
    - rewrite smp_neg; [cbn; lra|]. replace (size t / 2) with h by (rewrite Eh, Z.mul_comm, Z.div_mul; lia). lia.
    - intros i Hi. rewrite smp_neg by (unfold size in *; lia). cbn. lra. }
  intros E Hj Hj'. rewrite !F by lia. unfold fir_down_at. assert (LN : Z.of_nat (length t) = size t) by reflexivity. f_equal.
  - rewrite !mac_sum. rewrite (sumR_rev (length t) (fun i => (smp x (2 * (j' - size t + 1 + i)) * smp t i)%R)).
    apply sumR_ext. intros i Hi. rewrite (Hsym i) by lia. rewrite LN. f_equal. apply H; lia.
  - f_equal. replace (size t / 2) with h by (rewrite Eh, Z.mul_comm, Z.div_mul; lia). apply H; lia.
Qed.

Lemma no_axis_symmetric x C : (forall k k', k + k' <> C) -> symmetric x C.
Proof. intros H k k' E. now apply H in E. Qed.

Theorem resample_up_symmetric p ratio x C : valid FILTER_FIR ratio p -> symmetric x C ->
  symmetric (resample FILTER_FIR UP p false ratio x) (ratio * C + fir_delay8 UP ratio p / 4).
Proof.
  intros [Hr HT] H.
  assert (S2 : stage_no 2) by (unfold stage_no; auto). assert (S4 : stage_no 4) by (unfold stage_no; auto).
  assert (S8 : stage_no 8) by (unfold stage_no; auto).
  destruct Hr as [->|Hr]; [unfold resample, fir_delay8; cbn [Z.eqb Pos.eqb]; replace (1 * C + 8 * 0 / 4) with C by (change (8 * 0 / 4) with 0; lia); exact H|].
  assert (HP : fir_prec p) by (apply HT; lia). clear HT.
  pose proof (up_symmetric 2 p x C S2 HP H) as H2. pose proof (up_symmetric 4 p _ _ S4 HP H2) as H4. pose proof (up_symmetric 8 p _ _ S8 HP H4) as H8.
  assert (D8 : forall z, 8 * z / 4 = 2 * z) by (intros; replace (8 * z) with (2 * z * 4) by lia; apply Z.div_mul; lia).
  destruct Hr as [->|[->| ->]]; unfold resample, fir_delay8; cbn [Z.eqb Pos.eqb]; rewrite D8.
  - exact H2.
  - replace (4 * C + 2 * (2 * (fir_len 2 p - 1) + (fir_len 4 p - 1))) with (2 * (2 * C + 2 * (fir_len 2 p - 1)) + 2 * (fir_len 4 p - 1)) by lia. exact H4.
  - replace (8 * C + _) with (2 * (2 * (2 * C + 2 * (fir_len 2 p - 1)) + 2 * (fir_len 4 p - 1)) + 2 * (fir_len 8 p - 1)) by lia. exact H8.
Qed.

Theorem resample_down_symmetric p ratio x C C' : valid FILTER_FIR ratio p -> symmetric x C -> size x mod ratio = 0 ->
  4 * ratio * C' = 4 * C + ratio * fir_delay8 DOWN ratio p ->
  symmetric (resample FILTER_FIR DOWN p false ratio x) C'.
Proof.
  intros [Hr HT] H Hx E.
  assert (S2 : stage_no 2) by (unfold stage_no; auto). assert (S4 : stage_no 4) by (unfold stage_no; auto).
  assert (S8 : stage_no 8) by (unfold stage_no; auto).
  destruct Hr as [->|Hr]; [unfold resample, fir_delay8 in *; cbn [Z.eqb Pos.eqb] in *; replace C' with C by lia; exact H|].
  assert (HP : fir_prec p) by (apply HT; lia). clear HT.
  assert (Sz : forall s (y : list RA), 0 <= size y / 2 -> size (fir_down2 (coeffs (A := RA) FILTER_FIR DOWN p s) y) = size y / 2).
  { intros. unfold fir_down2. now rewrite size_tab. }
  assert (P : forall y : list RA, 0 <= size y) by (intros; unfold size; lia).
  destruct Hr as [->|[->| ->]]; unfold resample, fir_delay8 in *; cbn [Z.eqb Pos.eqb] in *.
  - apply (down_symmetric 2 p x C C'); try assumption. lia.
  - pose proof (P x). pose proof (Z.div_mod (size x) 2 ltac:(lia)). pose proof (Z.mod_pos_bound (size x) 2 ltac:(lia)).
    pose proof (Z.div_mod (size x) 4 ltac:(lia)).
    assert (N4 : exists C1, 2 * C1 = C + 2 * (fir_len 4 p - 1)) by (exists (2 * C' - 2 * (fir_len 2 p - 1)); lia). destruct N4 as [C1 E1].
    assert (H4 := down_symmetric 4 p x C C1 S4 HP H E1 ltac:(lia)).
    apply (down_symmetric 2 p _ C1 C' S2 HP H4); [lia|]. rewrite Sz by lia. lia.
  - pose proof (P x). pose proof (Z.div_mod (size x) 2 ltac:(lia)). pose proof (Z.mod_pos_bound (size x) 2 ltac:(lia)).
    pose proof (Z.div_mod (size x) 8 ltac:(lia)).
    assert (N8 : exists C1, 2 * C1 = C + 2 * (fir_len 8 p - 1)) by (exists (4 * C' - 4 * (fir_len 2 p - 1) - 2 * (fir_len 4 p - 1)); lia). destruct N8 as [C1 E1].
    assert (N4 : exists C2, 2 * C2 = C1 + 2 * (fir_len 4 p - 1)) by (exists (2 * C' - 2 * (fir_len 2 p - 1)); lia). destruct N4 as [C2 E2].
    assert (H8 := down_symmetric 8 p x C C1 S8 HP H E1 ltac:(lia)).
    assert (H4 := down_symmetric 4 p _ C1 C2 S4 HP H8 E2 ltac:(rewrite Sz by lia; lia)).
    apply (down_symmetric 2 p _ C2 C' S2 HP H4); [lia|]. rewrite !Sz by (rewrite ?Sz by lia; lia). lia.
Qed.

(** ** Straight lines and sines *)
Lemma line_bound a b M lo hi q : (lo <= q <= hi)%R -> (Rabs (a + b * lo) <= M)%R -> (Rabs (a + b * hi) <= M)%R -> (Rabs (a + b * q) <= M)%R.
Proof.
  intros [H1 H2] Hl Hh. apply Rabs_le. apply Rabs_le_inv in Hl, Hh.
  destruct (Rle_lt_dec 0 b).
  - assert (b * lo <= b * q)%R by (apply Rmult_le_compat_l; lra). assert (b * q <= b * hi)%R by (apply Rmult_le_compat_l; lra). lra.
  - assert (b * q <= b * lo)%R by (apply Rmult_le_compat_neg_l; lra). assert (b * hi <= b * q)%R by (apply Rmult_le_compat_neg_l; lra). lra.
Qed.

Lemma near_line (x : list RA) a b M : 0 < size x ->
  (forall k, 0 <= k < size x -> smp x k = (a + b * IZR k)%R /\ (Rabs (smp x k) <= M)%R) -> near x 0 a b 0 M.
Proof.
  intros Hx H. assert (H0 := H 0 ltac:(lia)). assert (H1 := H (size x - 1) ltac:(lia)).
  destruct H0 as [E0 B0], H1 as [E1 B1]. rewrite E0 in B0. rewrite E1 in B1.
  split; [lia|]. split; [lra|]. split; [eapply Rle_trans; [apply Rabs_pos | exact B0]|]. split.
  - intros k Hk. destruct (H k Hk) as [-> _]. replace (a + b * IZR k - (a + b * IZR k))%R with 0%R by lra. rewrite Rabs_R0. lra.
  - intros q Hq. now apply (line_bound a b M 0 (IZR (size x - 1))).
Qed.

Lemma sine_sum n (t : Z -> R) th w : (forall i, 0 <= i < Z.of_nat n -> t i = t (Z.of_nat n - 1 - i)) ->
  (sumR n (fun i => sin (th + w * IZR i) * t i) =
   sumR n (fun i => t i * cos (w * (IZR i - IZR (Z.of_nat n - 1) / 2))) * sin (th + w * (IZR (Z.of_nat n - 1) / 2)))%R.
Proof.
  intros sym. set (c := (IZR (Z.of_nat n - 1) / 2)%R).
  assert (Z0 : (sumR n (fun i => t i * sin (w * (IZR i - c))) = 0)%R).
  { assert (E : (sumR n (fun i => t i * sin (w * (IZR i - c))) = sumR n (fun i => -1 * (t i * sin (w * (IZR i - c)))))%R).
    { rewrite (sumR_rev n (fun i => (t i * sin (w * (IZR i - c)))%R)). apply sumR_ext. intros i Hi. rewrite <- sym by lia.
      replace (w * (IZR (Z.of_nat n - 1 - i) - c))%R with (- (w * (IZR i - c)))%R by (unfold c; rewrite (minus_IZR (Z.of_nat n - 1) i); lra).
      rewrite sin_neg. lra. }
    rewrite sumR_scal in E. lra. }
  rewrite (sumR_ext n _ (fun i => (sin (th + w * c) * (t i * cos (w * (IZR i - c))) + cos (th + w * c) * (t i * sin (w * (IZR i - c))))%R)).
  - rewrite sumR_plus, !sumR_scal, Z0. lra.
  - intros i Hi. replace (th + w * IZR i)%R with ((th + w * c) + w * (IZR i - c))%R by lra. rewrite sin_plus. lra.
Qed.
