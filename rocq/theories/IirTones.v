(** * IIR resamplers: sums of sinusoids, and round trips *)
From Coq Require Import ZArith Reals List Lia Lra Psatz Bool Permutation ZifyNat ZifyBool.
From Flocq Require Import Core.
From Interval Require Import Tactic.
From Verif Require Import Arith ArithR Mem FirModel IirModel Tables ResamplerModel Wp Stage Cascade
  ResamplerProof ResamplerOk Spec SpecOk SpecR Client Feed StreamFacts DelayFacts Twin TablesF TableFacts FirReal IirReal PropsIir IirPhase IirCert IirLag IirFreq IirDelay IirSine.
Import ListNotations.
Open Scope Z_scope.

(** ** All-pass sections commute *)
Lemma allpass_from_comm (c d : R) (x : list RA) : forall x1 y1 z1 y1' z1' : R,
  (c * (x1 - d * y1) + (y1 - c * z1) = d * (x1 - c * y1') + (y1' - d * z1'))%R ->
  ((x1 - d * y1) * (1 - c * d - c * c) - c * (y1 - c * z1) = (x1 - c * y1') * (1 - c * d - d * d) - d * (y1' - d * z1'))%R ->
  allpass_from (A := RA) c y1 z1 (allpass_from (A := RA) d x1 y1 x) = allpass_from (A := RA) d y1' z1' (allpass_from (A := RA) c x1 y1' x).
Proof.
  induction x as [|x0 x IH]; intros x1 y1 z1 y1' z1' I1 I2; [reflexivity|]. cbn [allpass_from]. cbv zeta. raops.
  set (y := ((x0 - y1) * d + x1)%R). set (y' := ((x0 - y1') * c + x1)%R).
  assert (E : ((y - z1) * c + y1 = (y' - z1') * d + y1')%R) by (unfold y, y'; lra).
  f_equal; [exact E|]. apply IH.
  - unfold y, y'. lra.
  - unfold y, y'. apply (f_equal (Rmult (c * d))) in I1. apply (f_equal (Rmult (c + d))) in I2. lra.
Qed.
Lemma allpass_comm (c d : R) (x : list RA) : allpass (A := RA) c (allpass (A := RA) d x) = allpass (A := RA) d (allpass (A := RA) c x).
Proof. unfold allpass. raops. apply allpass_from_comm; ring. Qed.
Lemma chain_allpass (c : R) (cs : list RA) : forall x : list RA, chain (A := RA) cs (allpass (A := RA) c x) = allpass (A := RA) c (chain (A := RA) cs x).
Proof.
  induction cs as [|d cs IH]; intros x; [reflexivity|].
  change (chain (A := RA) (d :: cs) (allpass (A := RA) c x)) with (chain (A := RA) cs (allpass (A := RA) d (allpass (A := RA) c x))).
  rewrite allpass_comm, IH. reflexivity.
Qed.
Lemma chain_app (a b : list RA) (x : list RA) : chain (A := RA) (a ++ b) x = chain (A := RA) b (chain (A := RA) a x).
Proof. unfold chain. apply fold_left_app. Qed.
Lemma chain_perm (a b : list RA) : Permutation a b -> forall x : list RA, chain (A := RA) a x = chain (A := RA) b x.
Proof.
  induction 1 as [|c a b _ IH|c d a|a b e _ IH1 _ IH2]; intros x.
  - reflexivity.
  - change (chain (A := RA) a (allpass (A := RA) c x) = chain (A := RA) b (allpass (A := RA) c x)). apply IH.
  - change (chain (A := RA) a (allpass (A := RA) c (allpass (A := RA) d x)) = chain (A := RA) a (allpass (A := RA) d (allpass (A := RA) c x))).
    now rewrite allpass_comm.
  - now rewrite IH1.
Qed.
Lemma evens_odds_perm {X} (l : list X) : Permutation l (evens l ++ odds l).
Proof.
  enough (G : forall n l, (length l <= n)%nat -> Permutation l (evens l ++ odds l)) by (apply (G (length l)); lia). clear l.
  induction n as [|n IH]; intros [|a [|b l]] L; cbn [length] in L; try lia; cbn [evens odds app]; auto.
  apply perm_skip. eapply perm_trans; [apply perm_skip, (IH l); lia|]. apply Permutation_middle.
Qed.
Lemma evens_weave {X} (a b : list X) : length a = length b -> evens (weave a b) = a /\ odds (weave a b) = b.
Proof.
  revert b. induction a as [|x a IH]; intros [|y b] L; try discriminate; [split; reflexivity|]. cbn [weave evens odds].
  destruct (IH b ltac:(injection L; trivial)) as [-> ->]. split; reflexivity.
Qed.
(** up and down with the same coefficients is a chain of all-pass sections *)
Lemma zip_half (x : list RA) : zip (A := RA) (fun a b => fmul fhalf (fadd a b)) x x = x.
Proof. induction x as [|v x IH]; cbn [zip]; [reflexivity|]. f_equal; [raops; lra | exact IH]. Qed.
Theorem trip2 (cs x : list RA) : iir_down2 (A := RA) cs (iir_up2 (A := RA) cs x) = chain (A := RA) cs x.
Proof.
  unfold iir_down2, iir_up2. destruct (evens_weave (chain (A := RA) (evens cs) x) (chain (A := RA) (odds cs) x)) as [-> ->]; [now rewrite !chain_length|].
  rewrite <- !chain_app. rewrite (chain_perm (odds cs ++ evens cs) cs); [|apply Permutation_sym; eapply perm_trans; [apply evens_odds_perm | apply Permutation_app_comm]].
  rewrite (chain_perm (evens cs ++ odds cs) cs) by (apply Permutation_sym, evens_odds_perm). apply zip_half.
Qed.

Lemma lags_app a b f : lags (a ++ b) f = (lags a f + lags b f)%R.
Proof. induction a as [|c a IH]; cbn [app lags]; [lra|]. rewrite IH. lra. Qed.
Lemma lags_perm a b f : Permutation a b -> lags a f = lags b f.
Proof. induction 1; cbn [lags]; lra. Qed.
(** the lags of both phases together *)
Lemma mean_lag_twice cs f : (mean_lag cs f + (mean_lag cs f - f) = lags cs (2 * f))%R.
Proof. rewrite (lags_perm cs _ _ (evens_odds_perm cs)), lags_app. unfold mean_lag. lra. Qed.

(** ** Sums *)
Lemma waves_perm a b k : Permutation a b -> waves a k = waves b k.
Proof. induction 1; cbn [waves]; lra. Qed.
Lemma up_waves_perm cs a b : Permutation a b -> Permutation (up_waves cs a) (up_waves cs b).
Proof. intros H. unfold up_waves. apply Permutation_app; now apply Permutation_map. Qed.
Lemma up_waves_app cs a b : Permutation (up_waves cs (a ++ b)) (up_waves cs a ++ up_waves cs b).
Proof.
  unfold up_waves. rewrite !map_app, <- !app_assoc. apply Permutation_app_head. rewrite !app_assoc. apply Permutation_app_tail. apply Permutation_app_comm.
Qed.
(** operations on lists of waves that work wave by wave *)
Definition additive (F : list wave -> list wave) : Prop :=
  (forall a b, Permutation a b -> Permutation (F a) (F b)) /\ (forall a b, Permutation (F (a ++ b)) (F a ++ F b)) /\ F [] = [].
Lemma additive_up cs : additive (up_waves cs).
Proof. split; [apply up_waves_perm|]. split; [apply up_waves_app | reflexivity]. Qed.
Lemma additive_map f : additive (map f).
Proof. split; [intros a b H; now apply Permutation_map|]. split; [intros a b; now rewrite map_app | reflexivity]. Qed.
Lemma additive_id : additive (fun l => l).
Proof. split; [auto|]. split; auto. Qed.
Lemma additive_comp F G : additive F -> additive G -> additive (fun l => G (F l)).
Proof.
  intros (P1 & A1 & N1) (P2 & A2 & N2). split; [auto|]. split; [|now rewrite N1].
  intros a b. eapply perm_trans; [apply P2, A1|]. apply A2.
Qed.
Lemma additive_value F s l k : additive F -> waves (F (s :: l)) k = (waves (F [s]) k + waves (F l) k)%R.
Proof. intros (P & A & _). rewrite <- waves_app. apply waves_perm. exact (A [s] l). Qed.
(** an error for each wave is an error for the list *)
Lemma additive_close F G (e : R) (P : wave -> Prop) l k : additive F -> (forall s, P s -> (Rabs (waves (F [s]) k - wval (G s) k) <= e * Rabs (w_amp s))%R) -> Forall P l ->
  (Rabs (waves (F l) k - waves (map G l) k) <= e * amps l)%R.
Proof.
  intros HF HE. induction 1 as [|s l Hs _ IH]; cbn [map waves amps].
  - destruct HF as (_ & _ & ->). cbn [waves]. rewrite Rminus_0_r, Rabs_R0. lra.
  - rewrite (additive_value F s l k HF). specialize (HE s Hs).
    replace (waves (F [s]) k + waves (F l) k - (wval (G s) k + waves (map G l) k))%R with ((waves (F [s]) k - wval (G s) k) + (waves (F l) k - waves (map G l) k))%R by ring.
    eapply Rle_trans; [apply Rabs_triang|]. lra.
Qed.

Lemma additive_ups p ratio : additive (ups p ratio).
Proof.
  unfold ups. destruct (ratio =? 1); [apply additive_id|]. destruct (ratio =? 2); [apply additive_up|]. destruct (ratio =? 4).
  - apply (additive_comp (up_waves (cs_of p 2)) (up_waves (cs_of p 4))); apply additive_up.
  - apply (additive_comp (fun l => up_waves (cs_of p 4) (up_waves (cs_of p 2) l)) (up_waves (cs_of p 8))); [|apply additive_up].
    apply (additive_comp (up_waves (cs_of p 2)) (up_waves (cs_of p 4))); apply additive_up.
Qed.

(** ** Ideal outputs: amplitudes unchanged, with the lags of the filters *)
Definition up_tone (p ratio : Z) (s : wave) : wave := Wave (w_amp s) (w_freq s / IZR ratio) (w_phase s - up_shift p ratio (w_freq s)).
Definition down_tone (p ratio : Z) (s : wave) : wave := Wave (w_amp s) (IZR ratio * w_freq s) (w_phase s - down_shift p ratio (w_freq s)).
Definition over_shift (p ratio : Z) (w : R) : R := (up_shift p ratio w + down_shift p ratio (w / IZR ratio))%R.
Definition over_tone (p ratio : Z) (s : wave) : wave := delayed (over_shift p ratio) s.

Definition in_iband (s : wave) : Prop := (Rabs (w_freq s) <= iband)%R.
Definition ipassed (ratio : Z) (s : wave) : Prop := (Rabs (IZR ratio * w_freq s) <= iband)%R.
Definition istopped (ratio : Z) (s : wave) : Prop := exists k, (Rabs (IZR ratio * w_freq s - 2 * PI * IZR k) <= iband)%R /\ k mod ratio <> 0.

Lemma ups_sum p ratio l k : valid FILTER_IIR ratio p -> Forall in_iband l ->
  (Rabs (waves (ups p ratio l) k - waves (map (up_tone p ratio) l) k) <= iir_up_factor ratio * iir_error p * amps l)%R.
Proof.
  intros V. apply additive_close; [apply additive_ups|]. intros [a w ph] Hs. unfold in_iband in Hs. cbn [w_freq] in Hs. pose proof (ups_pure p ratio a w ph V Hs k) as U.
  unfold wval, up_tone. cbn [w_amp w_freq w_phase]. exact U.
Qed.
Lemma down_gain_wave p ratio s : (ratio = 1 \/ ratio = 2 \/ ratio = 4 \/ ratio = 8) ->
  downs p ratio s = Wave (w_amp s * down_gain_of p ratio (w_freq s)) (IZR ratio * w_freq s) (w_phase s - down_shift p ratio (w_freq s)).
Proof. intros Hr. destruct s as [a w ph]. now apply downs_eq. Qed.
Lemma sin_abs x : (Rabs (sin x) <= 1)%R.
Proof. pose proof (SIN_bound x). apply Rabs_le. lra. Qed.
Lemma downs_sum p ratio l k : valid FILTER_IIR ratio p -> Forall (ipassed ratio) l ->
  (Rabs (waves (map (downs p ratio) l) k - waves (map (down_tone p ratio) l) k) <= iir_down_factor ratio * (iir_error p * iir_error p) * amps l)%R.
Proof.
  intros V. apply additive_close; [apply additive_map|]. intros s Hs. pose proof (down_pass p ratio (w_freq s) V Hs) as B. cbn [map waves].
  rewrite Rplus_0_r, (down_gain_wave p ratio s (proj1 V)). unfold wval, down_tone. cbn [w_amp w_freq w_phase]. set (g := down_gain_of _ _ _) in *.
  set (q := (IZR ratio * w_freq s * IZR k + _)%R). pose proof (sin_abs q) as Q. pose proof (Rabs_pos (w_amp s)). pose proof (Rabs_pos (sin q)).
  replace (w_amp s * g * sin q - w_amp s * sin q)%R with (- ((1 - g) * (w_amp s * sin q)))%R by ring. rewrite Rabs_Ropp, !Rabs_mult, (Rabs_pos_eq (1 - g)) by lra.
  apply Rmult_le_compat; try lra; [apply Rmult_le_pos; lra|]. rewrite <- (Rmult_1_r (Rabs (w_amp s))) at 2. apply Rmult_le_compat_l; lra.
Qed.
Lemma amps_stopped p ratio l : valid FILTER_IIR ratio p -> Forall (istopped ratio) l -> (amps (map (downs p ratio) l) <= iir_error p * amps l)%R.
Proof.
  intros V. induction 1 as [|s l (k & Hk & Nk) _ IH]; cbn [map amps]; [lra|]. rewrite (down_gain_wave p ratio s (proj1 V)) at 1. cbn [w_amp]. rewrite Rabs_mult.
  pose proof (down_stop p ratio (w_freq s) k V Hk Nk). pose proof (Rabs_pos (w_amp s)). nra.
Qed.

(** ** The input: anything of size at most M before n0, a sum of sinusoids from then on *)
Lemma inputs_near (x : list RA) rho M l n0 : (0 <= rho <= 1)%R -> 0 <= n0 -> (amps l <= M)%R ->
  (forall k, 0 <= k < size x -> (Rabs (smp x k) <= M)%R) ->
  (forall k, n0 <= k < size x -> smp x k = waves l k) -> near x l (2 * M) (fun k => (rho ^ Z.to_nat (k - n0))%R).
Proof.
  intros Hr Hn Ha HM Hx. pose proof (amps_pos l) as A0. split; [split; [lra|]|].
  - replace (Z.to_nat (0 - n0)) with 0%nat by lia. cbn [pow]. lra.
  - intros k Hk. destruct (Z_lt_le_dec k n0).
    + replace (Z.to_nat (k - n0)) with 0%nat by lia. cbn [pow]. specialize (HM k Hk). pose proof (waves_abs l k). unfold Rminus. eapply Rle_trans; [apply Rabs_triang|]. rewrite Rabs_Ropp. lra.
    + rewrite Hx by lia. rewrite Rminus_eq_0, Rabs_R0. apply Rmult_le_pos; [lra | apply pow_le; lra].
Qed.

(** ** Round trips: up and down again *)
Definition trips (p ratio : Z) (l : list wave) : list wave :=
  if ratio =? 1 then l else if ratio =? 2 then map (delayed (lags (cs_of p 2))) l
  else if ratio =? 4 then map (down_wave (cs_of p 2)) (map (delayed (lags (cs_of p 4))) (up_waves (cs_of p 2) l))
  else map (down_wave (cs_of p 2)) (map (down_wave (cs_of p 4)) (map (delayed (lags (cs_of p 8))) (up_waves (cs_of p 4) (up_waves (cs_of p 2) l)))).
Lemma additive_trips p ratio : additive (trips p ratio).
Proof.
  unfold trips. destruct (ratio =? 1); [apply additive_id|]. destruct (ratio =? 2); [apply additive_map|]. destruct (ratio =? 4).
  - apply (additive_comp (fun l => map (delayed (lags (cs_of p 4))) (up_waves (cs_of p 2) l)) (map (down_wave (cs_of p 2)))); [|apply additive_map].
    apply (additive_comp (up_waves (cs_of p 2)) (map (delayed (lags (cs_of p 4))))); [apply additive_up | apply additive_map].
  - apply (additive_comp (fun l => map (down_wave (cs_of p 4)) (map (delayed (lags (cs_of p 8))) (up_waves (cs_of p 4) (up_waves (cs_of p 2) l)))) (map (down_wave (cs_of p 2)))); [|apply additive_map].
    apply (additive_comp (fun l => map (delayed (lags (cs_of p 8))) (up_waves (cs_of p 4) (up_waves (cs_of p 2) l))) (map (down_wave (cs_of p 4)))); [|apply additive_map].
    apply (additive_comp (fun l => up_waves (cs_of p 4) (up_waves (cs_of p 2) l)) (map (delayed (lags (cs_of p 8))))); [|apply additive_map].
    apply (additive_comp (up_waves (cs_of p 2)) (up_waves (cs_of p 4))); apply additive_up.
Qed.

Lemma chain_gain_app rho a b : chain_gain rho (a ++ b) = (chain_gain rho b * chain_gain rho a)%R.
Proof. induction a as [|c a IH]; cbn [app chain_gain]; [ring|]. rewrite IH. ring. Qed.
Lemma chain_gain_perm rho a b : Permutation a b -> chain_gain rho a = chain_gain rho b.
Proof. induction 1; cbn [chain_gain]; try congruence. ring. Qed.
(** the stages of a round trip *)
Lemma resample_trip ratio p (x : list RA) : ratio = 1 \/ ratio = 2 \/ ratio = 4 \/ ratio = 8 ->
  resample (A := RA) FILTER_IIR DOWN p false ratio (resample (A := RA) FILTER_IIR UP p false ratio x) =
  if ratio =? 1 then x else if ratio =? 2 then chain (A := RA) (cs_of p 2) x
  else if ratio =? 4 then iir_down2 (A := RA) (cs_of p 2) (chain (A := RA) (cs_of p 4) (iir_up2 (A := RA) (cs_of p 2) x))
  else iir_down2 (A := RA) (cs_of p 2) (iir_down2 (A := RA) (cs_of p 4) (chain (A := RA) (cs_of p 8) (iir_up2 (A := RA) (cs_of p 4) (iir_up2 (A := RA) (cs_of p 2) x)))).
Proof.
  assert (T : forall s z, stage (A := RA) FILTER_IIR DOWN p false s (stage (A := RA) FILTER_IIR UP p false s z) = chain (A := RA) (cs_of p s) z) by (intros s z; exact (trip2 (cs_of p s) z)).
  intros [->|[->|[->| ->]]]; unfold resample; cbn [Z.eqb Pos.eqb]; rewrite ?T; reflexivity.
Qed.
Lemma iir_up2_size cs (x : list RA) : size (iir_up2 (A := RA) cs x) = 2 * size x.
Proof. unfold iir_up2, size. rewrite weave_length by now rewrite !chain_length. rewrite chain_length. lia. Qed.
Lemma trip_near ratio p (x : list RA) l M w : valid FILTER_IIR ratio p -> steady (95 / 100) w -> (forall i k, 0 <= i <= k -> (w k <= w i)%R) -> near x l M w ->
  near (resample (A := RA) FILTER_IIR DOWN p false ratio (resample (A := RA) FILTER_IIR UP p false ratio x)) (trips p ratio l) (settle_gain ratio * settle_gain ratio * M) w.
Proof.
  intros [Hra HT] Hw Mon H. rewrite (resample_trip _ _ _ Hra).
  assert (S2 : stage_no 2) by (unfold stage_no; auto). assert (S4 : stage_no 4) by (unfold stage_no; auto).
  assert (S8 : stage_no 8) by (unfold stage_no; auto).
  destruct Hra as [->|Hra].
  { unfold trips, settle_gain. cbn [Z.eqb Pos.eqb]. now rewrite Rmult_1_l, Rmult_1_l. }
  assert (HP : iir_prec p) by (apply HT; lia). clear HT.
  assert (K1 : forall s, stage_no s -> (2 <= IZR (stage_K 95 s))%R) by (intros s Hs; unfold stage_K, stage_no in *; destruct Hs as [->|[->| ->]]; cbn; lra).
  assert (C : forall s x l M w, stage_no s -> steady (95 / 100) w -> near x l M w ->
    near (chain (A := RA) (cs_of p s) x) (map (delayed (lags (cs_of p s))) l) (IZR (stage_K 95 s) * IZR (stage_K 95 s) * M) w).
  { intros s x' l' M' w' Hs Hw' H'. destruct (iir_stage_ok 95 s p ltac:(auto) Hs HP) as (F & G1 & G2). pose proof H' as ((M0 & _) & _). destruct (evens_all _ _ F) as [FE FO].
    eapply near_more; [apply (chain_near _ (95 / 100)); try eassumption; lra | | intros k Hk; apply Hw'; lia].
    apply Rmult_le_compat_r; [exact M0|]. fold (cs_of p s) in *. rewrite (chain_gain_perm _ _ _ (evens_odds_perm (cs_of p s))), chain_gain_app.
    pose proof (chain_gain_ge (95 / 100) _ ltac:(lra) FE). pose proof (chain_gain_ge (95 / 100) _ ltac:(lra) FO). apply Rmult_le_compat; try assumption; (eapply Rle_trans; [apply Rle_0_1 | assumption]). }
  assert (U : forall s x l M w, stage_no s -> steady (95 / 100) w -> (forall i k, 0 <= i <= k -> (w k <= w i)%R) -> near x l M w ->
    near (iir_up2 (A := RA) (cs_of p s) x) (up_waves (cs_of p s) l) (IZR (stage_K 95 s) * M) (fun j => w (j / 2)) /\ steady (95 / 100) (fun j => w (j / 2)) /\
    (forall i k, 0 <= i <= k -> (w (k / 2)%Z <= w (i / 2)%Z)%R)).
  { intros s x' l' M' w' Hs Hw' Mon' H'. destruct (iir_stage_ok 95 s p ltac:(auto) Hs HP) as (F & G1 & G2). split; [|split; [apply steady_half; [lra | exact Hw']|]].
    - apply (up_near _ (95 / 100)); try assumption; [lra | now apply K1].
    - intros i k Hk. apply Mon'. split; [apply Z.div_pos; lia | apply Z.div_le_mono; lia]. }
  assert (D : forall s (x : list RA) l M w w', stage_no s -> Z.even (size x) = true -> (forall i k, 0 <= i <= k -> (w k <= w i)%R) -> (forall k, w (2 * k) = w' k) ->
    steady (95 / 100) w' -> near x l M w -> near (iir_down2 (A := RA) (cs_of p s) x) (map (down_wave (cs_of p s)) l) (IZR (stage_K 95 s) * M) w').
  { intros s x' l' M' w1 w2 Hs Ev Mon' E Hw' H'. destruct (iir_stage_ok 95 s p ltac:(auto) Hs HP) as (F & G1 & G2).
    eapply near_ext; [intros k _; apply E | reflexivity|]. apply (down_near _ (95 / 100)); try assumption; [lra | pose proof (K1 s Hs); lra|].
    intros k Hk. rewrite E. replace (2 * (k + 1)) with (2 * (k + 1)) by reflexivity. rewrite E. now apply Hw'. }
  assert (E2 : forall k, 2 * k / 2 = k) by (intros k; rewrite Z.mul_comm; apply Z.div_mul; lia).
  destruct Hra as [->|[->| ->]]; unfold trips, settle_gain; cbn [Z.eqb Pos.eqb].
  - exact (C 2 x l M w S2 Hw H).
  - destruct (U 2 x l M w S2 Hw Mon H) as (T1 & W1 & M1). pose proof (C 4 _ _ _ _ S4 W1 T1) as T2.
    eapply near_more; [eapply (D 2 _ _ _ _ w S2); [|exact M1| |exact Hw|exact T2] | apply Req_le; unfold stage_K; cbn [Z.eqb Pos.eqb]; ring | intros k Hk; apply Hw; lia].
    + unfold size. rewrite chain_length. fold (size (iir_up2 (A := RA) (cs_of p 2) x)). rewrite iir_up2_size. now rewrite Z.even_mul.
    + intros k. cbn beta. now rewrite E2.
  - destruct (U 2 x l M w S2 Hw Mon H) as (T1 & W1 & M1). destruct (U 4 _ _ _ _ S4 W1 M1 T1) as (T2 & W2 & M2). pose proof (C 8 _ _ _ _ S8 W2 T2) as T3.
    assert (Sz : size (chain (A := RA) (cs_of p 8) (iir_up2 (A := RA) (cs_of p 4) (iir_up2 (A := RA) (cs_of p 2) x))) = 4 * size x).
    { unfold size. rewrite chain_length. fold (size (iir_up2 (A := RA) (cs_of p 4) (iir_up2 (A := RA) (cs_of p 2) x))). rewrite !iir_up2_size. unfold size. lia. }
    assert (T4 := D 4 _ _ _ _ (fun j => w (j / 2)) S4 ltac:(rewrite Sz; now rewrite Z.even_mul) M2 ltac:(intros k; cbn beta; now rewrite E2) W1 T3).
    eapply near_more; [eapply (D 2 _ _ _ _ w S2); [|exact M1| |exact Hw|exact T4] | apply Req_le; unfold stage_K; cbn [Z.eqb Pos.eqb]; ring | intros k Hk; apply Hw; lia].
    + unfold iir_down2, size. rewrite zip_length, !chain_length, evens_length, odds_length.
      set (z := chain (A := RA) (cs_of p 8) _) in *. unfold size in Sz. set (n := length x) in *. replace (length z) with (2 * (2 * n))%nat by lia.
      rewrite Nat.div2_succ_double, Nat.div2_double, Nat.min_id. rewrite Nat2Z.inj_mul, Z.even_mul. reflexivity.
    + intros k. cbn beta. now rewrite E2.
Qed.

(** *** One wave through a round trip *)
Lemma over_shift_eq p ratio w : ratio = 1 \/ ratio = 2 \/ ratio = 4 \/ ratio = 8 ->
  over_shift p ratio w = (if ratio =? 1 then 0 else if ratio =? 2 then lags (cs_of p 2) w
    else if ratio =? 4 then lags (cs_of p 2) w + lags (cs_of p 4) (w / 2)
    else lags (cs_of p 2) w + lags (cs_of p 4) (w / 2) + lags (cs_of p 8) (w / 4))%R.
Proof.
  assert (L : forall s f g, (2 * f = g)%R -> (lags (cs_of p s) g = mean_lag (cs_of p s) f + (mean_lag (cs_of p s) f - f))%R) by (intros s f g <-; now rewrite mean_lag_twice).
  intros [->|[->|[->| ->]]]; unfold over_shift, up_shift, down_shift; cbn [Z.eqb Pos.eqb].
  - lra.
  - rewrite (L 2 (w / 2)%R) by lra. lra.
  - rewrite (L 2 (w / 2)%R w), (L 4 (w / 4)%R (w / 2)%R) by lra. replace (2 * (w / 4))%R with (w / 2)%R by lra. lra.
  - rewrite (L 2 (w / 2)%R w), (L 4 (w / 4)%R (w / 2)%R), (L 8 (w / 8)%R (w / 4)%R) by lra. replace (2 * (w / 8))%R with (w / 4)%R by lra. replace (4 * (w / 8))%R with (w / 2)%R by lra. lra.
Qed.
(** the error of the round trip, in units of the square of the error of the filter *)
Definition iir_over_factor (ratio : Z) : R := (if ratio <=? 2 then 0 else if ratio =? 4 then 2 else 3.23)%R.
Lemma half_diff_even cs k f : Rabs (cos (half_diff cs (f + IZR (2 * k) * PI))) = Rabs (cos (half_diff cs f)).
Proof.
  rewrite half_diff_shift. set (q := (2 * k * _)%Z). replace (half_diff cs f + IZR q * PI + IZR (2 * k) * (PI / 2))%R with (half_diff cs f + IZR (q + k) * PI)%R by (rewrite plus_IZR, mult_IZR; lra).
  replace (cos (half_diff cs f + IZR (q + k) * PI)) with (sin (half_diff cs f + PI / 2 + IZR (q + k) * PI)).
  - rewrite sin_parity. replace (sin (half_diff cs f + PI / 2)) with (cos (half_diff cs f)) by (rewrite cos_sin; f_equal; ring).
    destruct (Z.even (q + k)); [reflexivity | apply Rabs_Ropp].
  - rewrite (cos_sin (half_diff cs f + IZR (q + k) * PI)). f_equal. ring.
Qed.
Lemma sq_abs x : (Rabs x * Rabs x = x * x)%R.
Proof. rewrite <- Rabs_mult. apply Rabs_pos_eq. pose proof (Rle_0_sqr x) as Q. exact Q. Qed.
Lemma sin_sq x : (sin x * sin x = 1 - cos x * cos x)%R.
Proof. pose proof (sin2_cos2 x) as T. unfold Rsqr in T. lra. Qed.
Lemma trips_one p ratio s k : valid FILTER_IIR ratio p -> 4 <= ratio -> in_iband s ->
  (Rabs (waves (trips p ratio [s]) k - wval (over_tone p ratio s) k) <= iir_over_factor ratio * (iir_error p * iir_error p) * Rabs (w_amp s))%R.
Proof.
  intros [Hra HT] R4 Hb. assert (HP : iir_prec p) by (apply HT; lia). clear HT. unfold in_iband in Hb.
  assert (S2 : stage_no 2) by (unfold stage_no; auto). assert (S4 : stage_no 4) by (unfold stage_no; auto).
  destruct (iir_error_eps p HP) as ((E2 & E4 & _) & E0 & E1). destruct s as [a w ph]. cbn [w_freq w_amp] in *.
  destruct (iedge_band (w / 2)) as ((B2 & B4 & B8) & _).
  { unfold Rdiv at 1. rewrite Rabs_mult, (Rabs_pos_eq (/ 2)) by lra. lra. }
  pose proof (half_diff_small 2 p _ S2 HP B2) as D2. pose proof (half_diff_small 4 p _ S4 HP B4) as D4. fold (cs_of p 2) in D2. fold (cs_of p 4) in D4.
  pose proof (iir_eps_range 2 p S2 HP) as N2. pose proof (iir_eps_range 4 p S4 HP) as N4.
  assert (Main : forall g amp f ph rest b, (amp * g * (sin (f * IZR k + ph)) + rest - amp * sin (f * IZR k + ph) = - ((1 - g) * (amp * sin (f * IZR k + ph))) + rest)%R ->
    (0 <= 1 - g)%R -> (Rabs rest <= b)%R -> (Rabs (amp * g * (sin (f * IZR k + ph)) + rest - amp * sin (f * IZR k + ph)) <= (1 - g) * Rabs amp + b)%R).
  { intros g amp f ph' rest b Eq G0 Hr. rewrite Eq. eapply Rle_trans; [apply Rabs_triang|]. rewrite Rabs_Ropp, !Rabs_mult, (Rabs_pos_eq (1 - g)) by exact G0.
    pose proof (sin_abs (f * IZR k + ph')) as Q. set (q := Rabs (sin (f * IZR k + ph'))) in *. pose proof (Rabs_pos amp) as A0. assert (Rabs amp * q <= Rabs amp * 1)%R by (apply Rmult_le_compat_l; assumption).
    assert ((1 - g) * (Rabs amp * q) <= (1 - g) * (Rabs amp * 1))%R by (apply Rmult_le_compat_l; assumption). lra. }
  pose proof (Rabs_pos a) as A0. 
  destruct Hra as [->|[->|[->| ->]]]; try lia; unfold trips, iir_over_factor; cbn [Z.eqb Pos.eqb Z.leb Z.compare Pos.compare Pos.compare_cont].
  - set (d := half_diff (cs_of p 2) (w / 2)) in *.
    set (s1 := down_wave (cs_of p 2) (delayed (lags (cs_of p 4)) (up_main (cs_of p 2) (Wave a w ph)))). set (s2 := down_wave (cs_of p 2) (delayed (lags (cs_of p 4)) (up_image (cs_of p 2) (Wave a w ph)))).
    change (waves _ k) with (wval s1 k + (wval s2 k + 0))%R. rewrite Rplus_0_r.
    assert (A1 : wval s1 k = (a * (cos d * cos d) * sin (w * IZR k + (ph - over_shift p 4 w)))%R).
    { unfold s1, wval, down_wave, delayed, up_main. cbn [w_amp w_freq w_phase]. fold d. rewrite over_shift_eq by auto. cbn [Z.eqb Pos.eqb].
      replace (2 * (w / 2))%R with w by lra. rewrite <- Rmult_assoc. f_equal. f_equal. f_equal.
      pose proof (mean_lag_twice (cs_of p 2) (w / 2)) as ML. replace (2 * (w / 2))%R with w in ML by lra. lra. }
    assert (A2 : (Rabs (wval s2 k) <= Rabs (sin d) * Rabs (sin d) * Rabs a)%R).
    { eapply Rle_trans; [apply wval_abs|]. unfold s2, down_wave, delayed, up_image. cbn [w_amp w_freq w_phase]. fold d. rewrite !Rabs_mult.
      replace (w / 2 + PI)%R with (w / 2 + IZR 1 * PI)%R by (rewrite Rmult_1_l; reflexivity). rewrite half_diff_odd by reflexivity. fold d. apply Req_le. ring. }
    rewrite A1. unfold over_tone, delayed, wval. cbn [w_amp w_freq w_phase]. pose proof (sin_sq d) as SQ. rewrite sq_abs in A2.
    assert (SS : (sin d * sin d <= iir_error p * iir_error p)%R) by (rewrite <- sq_abs; pose proof (Rabs_pos (sin d)); apply Rmult_le_compat; lra).
    eapply Rle_trans; [apply (Main (cos d * cos d)%R a w _ (wval s2 k) (sin d * sin d * Rabs a)%R); [ring | rewrite <- SQ; apply Rle_0_sqr | exact A2]|]. rewrite <- SQ.
    assert (sin d * sin d * Rabs a <= iir_error p * iir_error p * Rabs a)%R by (apply Rmult_le_compat_r; assumption). lra.
  - set (d := half_diff (cs_of p 2) (w / 2)) in *. set (d4 := half_diff (cs_of p 4) (w / 2 / 2)) in *. set (t := half_diff (cs_of p 4) ((w / 2 + PI) / 2)).
    set (back := fun s => down_wave (cs_of p 2) (down_wave (cs_of p 4) (delayed (lags (cs_of p 8)) s))). set (m := up_main (cs_of p 2) (Wave a w ph)). set (i := up_image (cs_of p 2) (Wave a w ph)).
    set (s1 := back (up_main (cs_of p 4) m)). set (s2 := back (up_main (cs_of p 4) i)). set (s3 := back (up_image (cs_of p 4) m)). set (s4 := back (up_image (cs_of p 4) i)).
    change (waves _ k) with (wval s1 k + (wval s2 k + (wval s3 k + (wval s4 k + 0))))%R. rewrite Rplus_0_r.
    assert (A1 : wval s1 k = (a * (cos d * cos d * (cos d4 * cos d4)) * sin (w * IZR k + (ph - over_shift p 8 w)))%R).
    { unfold s1, back, m, wval, down_wave, delayed, up_main. cbn [w_amp w_freq w_phase]. replace (2 * (w / 2 / 2))%R with (w / 2)%R by lra. fold d d4. rewrite over_shift_eq by auto 6. cbn [Z.eqb Pos.eqb].
      replace (2 * (w / 2))%R with w by lra. pose proof (mean_lag_twice (cs_of p 2) (w / 2)) as ML. replace (2 * (w / 2))%R with w in ML by lra.
      pose proof (mean_lag_twice (cs_of p 4) (w / 2 / 2)) as ML4. replace (2 * (w / 2 / 2))%R with (w / 2)%R in ML4 by lra. replace (w / 4)%R with (w / 2 / 2)%R by lra.
      match goal with |- (?u * sin ?x = ?v * sin ?y)%R => replace y with x by lra; replace v with u by ring end. reflexivity. }
    assert (Od : forall cs f, Rabs (cos (half_diff cs (f + PI))) = Rabs (sin (half_diff cs f))).
    { intros cs f. rewrite <- (half_diff_odd cs 1 f) by reflexivity. now rewrite Rmult_1_l. }
    assert (O2 : Rabs (cos (half_diff (cs_of p 2) (w / 2 + PI))) = Rabs (sin d)) by apply Od.
    assert (A3 : (Rabs (wval s3 k) <= cos d * cos d * (sin d4 * sin d4) * Rabs a)%R).
    { eapply Rle_trans; [apply wval_abs|]. unfold s3, back, m, down_wave, delayed, up_main, up_image. cbn [w_amp w_freq w_phase]. fold d d4. rewrite !Rabs_mult, Od. fold d4.
      replace (2 * (w / 2 / 2 + PI))%R with (w / 2 + IZR (2 * 1) * PI)%R by (rewrite mult_IZR; lra). rewrite half_diff_even. fold d. apply Req_le. rewrite <- (sq_abs (cos d)), <- (sq_abs (sin d4)). ring. }
    assert (A2 : (Rabs (wval s2 k) <= sin d * sin d * (cos t * cos t) * Rabs a)%R).
    { eapply Rle_trans; [apply wval_abs|]. unfold s2, back, i, down_wave, delayed, up_main, up_image. cbn [w_amp w_freq w_phase]. fold d t.
      replace (2 * ((w / 2 + PI) / 2))%R with (w / 2 + PI)%R by lra. rewrite !Rabs_mult, O2. apply Req_le. rewrite <- (sq_abs (cos t)), <- (sq_abs (sin d)). ring. }
    assert (A4 : (Rabs (wval s4 k) <= sin d * sin d * (sin t * sin t) * Rabs a)%R).
    { eapply Rle_trans; [apply wval_abs|]. unfold s4, back, i, down_wave, delayed, up_main, up_image. cbn [w_amp w_freq w_phase]. fold d t. rewrite !Rabs_mult, Od. fold t.
      replace (2 * ((w / 2 + PI) / 2 + PI))%R with (w / 2 + IZR (1 + 2) * PI)%R by (rewrite plus_IZR; lra). rewrite half_diff_odd by reflexivity. fold d. apply Req_le. rewrite <- (sq_abs (sin t)), <- (sq_abs (sin d)). ring. }
    rewrite A1. unfold over_tone, delayed, wval at 4. cbn [w_amp w_freq w_phase]. pose proof (sin_sq d) as SQ. pose proof (sin_sq d4) as SQ4. pose proof (sin_sq t) as SQt.
    assert (SS : (sin d * sin d <= iir_error p * iir_error p)%R) by (rewrite <- sq_abs; pose proof (Rabs_pos (sin d)); apply Rmult_le_compat; lra).
    assert (SS4 : (sin d4 * sin d4 <= 0.614 * (iir_error p * iir_error p))%R).
    { rewrite <- sq_abs. pose proof (Rabs_pos (sin d4)). apply Rle_trans with ((0.783 * iir_error p) * (0.783 * iir_error p))%R; [apply Rmult_le_compat; lra|].
      pose proof (Rle_0_sqr (iir_error p)) as Q. unfold Rsqr in Q. lra. }
    pose proof (Rle_0_sqr (cos d)) as C0. pose proof (Rle_0_sqr (sin d)) as S0. pose proof (Rle_0_sqr (sin d4)) as S40. unfold Rsqr in *.
    set (c2 := (cos d * cos d)%R) in *. set (q2 := (sin d * sin d)%R) in *. set (c4 := (cos d4 * cos d4)%R) in *. set (q4 := (sin d4 * sin d4)%R) in *. set (ee := (iir_error p * iir_error p)%R) in *.
    assert (C1 : (c2 <= 1)%R) by lra. assert (P1 : (c2 * q4 <= 1 * q4)%R) by (apply Rmult_le_compat_r; assumption).
    assert (Eg : (1 - c2 * c4 = q2 + c2 * q4)%R) by (replace c4 with (1 - q4)%R by lra; replace q2 with (1 - c2)%R by lra; ring).
    eapply Rle_trans; [apply (Main (c2 * c4)%R a w _ (wval s2 k + (wval s3 k + wval s4 k))%R ((q2 + c2 * q4) * Rabs a)%R); [ring | | ]|].
    + rewrite Eg. pose proof (Rmult_le_pos _ _ C0 S40). lra.
    + eapply Rle_trans; [apply Rabs_triang|]. pose proof (Rabs_triang (wval s3 k) (wval s4 k)) as Tr.
      assert (Q2 : (q2 * (cos t * cos t) * Rabs a + q2 * (sin t * sin t) * Rabs a = q2 * Rabs a)%R) by (rewrite SQt; ring). lra.
    + rewrite Eg. assert (((q2 + c2 * q4) + (q2 + c2 * q4)) * Rabs a <= 3.23 * ee * Rabs a)%R by (apply Rmult_le_compat_r; lra). lra.
Qed.
Lemma trips_sum p ratio l k : valid FILTER_IIR ratio p -> (4 <= ratio -> Forall in_iband l) ->
  (Rabs (waves (trips p ratio l) k - waves (map (over_tone p ratio) l) k) <= iir_over_factor ratio * (iir_error p * iir_error p) * amps l)%R.
Proof.
  intros V Hl. destruct (Z_lt_le_dec ratio 4) as [L|L].
  - assert (T : waves (trips p ratio l) k = waves (map (over_tone p ratio) l) k).
    { destruct V as [[->|[->|[->| ->]]] _]; try lia; unfold trips; cbn [Z.eqb Pos.eqb].
      - f_equal. rewrite <- (map_id l) at 1. apply map_ext. intros [a f ph]. unfold over_tone, delayed. rewrite over_shift_eq by auto. cbn. now rewrite Rminus_0_r.
      - f_equal. apply map_ext. intros [a f ph]. unfold over_tone, delayed. rewrite over_shift_eq by auto. reflexivity. }
    rewrite T, Rminus_eq_0, Rabs_R0. unfold iir_over_factor. destruct (ratio <=? 2) eqn:E; [lra|]. destruct V as [[->|[->|[->| ->]]] _]; lia.
  - apply (additive_close _ _ _ in_iband); [apply additive_trips | | now apply Hl]. intros s Hs. now apply trips_one.
Qed.

(** ** Round trips: down and up again *)
Definition sub_shift (p ratio : Z) (w : R) : R := (down_shift p ratio w + up_shift p ratio (IZR ratio * w))%R.
Definition sub_tone (p ratio : Z) (s : wave) : wave := delayed (sub_shift p ratio) s.
Lemma sub_tone_eq p ratio s : IZR ratio <> 0%R -> up_tone p ratio (down_tone p ratio s) = sub_tone p ratio s.
Proof. intros N. destruct s as [a w ph]. unfold up_tone, down_tone, sub_tone, sub_shift, delayed. cbn [w_amp w_freq w_phase]. f_equal; [field; exact N | ring]. Qed.
Lemma near_list x l l' M w : (forall k, waves l k = waves l' k) -> amps l = amps l' -> near x l M w -> near x l' M w.
Proof. intros E A ((M0 & HA) & H). split; [rewrite <- A; now split|]. intros k Hk. rewrite <- E. now apply H. Qed.
(** frequencies only matter modulo 2 pi *)
Lemma aliased p ratio l : valid FILTER_IIR ratio p -> Forall (istopped ratio) l ->
  exists l', Forall in_iband l' /\ (forall k, waves (map (downs p ratio) l) k = waves l' k) /\ amps l' = amps (map (downs p ratio) l).
Proof.
  intros V. induction 1 as [|s l (q & Hq & Nq) _ (l' & F & W & A)]; [exists []; repeat split; constructor|].
  set (d := downs p ratio s). exists (Wave (w_amp d) (w_freq d - 2 * PI * IZR q) (w_phase d) :: l'). split; [|split].
  - constructor; [|exact F]. unfold in_iband, d. rewrite (down_gain_wave p ratio s (proj1 V)). cbn [w_freq]. exact Hq.
  - intros k. cbn [map waves]. fold d. rewrite W. f_equal. unfold wval. cbn [w_amp w_freq w_phase]. f_equal.
    replace (w_freq d * IZR k + w_phase d)%R with ((w_freq d - 2 * PI * IZR q) * IZR k + w_phase d + IZR (2 * (q * k)) * PI)%R by (rewrite !mult_IZR; ring).
    rewrite sin_parity, Z.even_mul. reflexivity.
  - cbn [map amps w_amp]. now rewrite A.
Qed.
Lemma up_tones_sum p ratio l k : valid FILTER_IIR ratio p -> Forall (ipassed ratio) l ->
  (Rabs (waves (map (up_tone p ratio) (map (downs p ratio) l)) k - waves (map (sub_tone p ratio) l) k) <= iir_down_factor ratio * (iir_error p * iir_error p) * amps l)%R.
Proof.
  intros V. apply (additive_close (fun l => map (up_tone p ratio) (map (downs p ratio) l))).
  { apply (additive_comp (map (downs p ratio)) (map (up_tone p ratio))); apply additive_map. }
  intros s Hs. pose proof (down_pass p ratio (w_freq s) V Hs) as B. cbn [map waves]. assert (Nr : IZR ratio <> 0%R) by (destruct V as [[->|[->|[->| ->]]] _]; lra).
  rewrite Rplus_0_r, (down_gain_wave p ratio s (proj1 V)), <- sub_tone_eq by exact Nr. unfold wval, up_tone, down_tone. cbn [w_amp w_freq w_phase]. set (g := down_gain_of _ _ _) in *.
  set (q := (IZR ratio * w_freq s / IZR ratio * IZR k + _)%R). pose proof (sin_abs q) as Q. pose proof (Rabs_pos (w_amp s)). pose proof (Rabs_pos (sin q)).
  replace (w_amp s * g * sin q - w_amp s * sin q)%R with (- ((1 - g) * (w_amp s * sin q)))%R by ring. rewrite Rabs_Ropp, !Rabs_mult, (Rabs_pos_eq (1 - g)) by lra.
  apply Rmult_le_compat; try lra; [apply Rmult_le_pos; lra|]. rewrite <- (Rmult_1_r (Rabs (w_amp s))) at 2. apply Rmult_le_compat_l; lra.
Qed.
Lemma amps_downs p ratio l : (amps (map (downs p ratio) l) <= amps l)%R.
Proof.
  induction l as [|s l IH]; cbn [map amps]; [lra|]. assert (Rabs (w_amp (downs p ratio s)) <= Rabs (w_amp s))%R; [|lra].
  assert (G : forall cs s, (Rabs (w_amp (down_wave cs s)) <= Rabs (w_amp s))%R).
  { intros cs v. unfold down_wave. cbn [w_amp]. rewrite Rabs_mult. pose proof (cos_abs_1 (half_diff cs (w_freq v))). pose proof (Rabs_pos (w_amp v)).
    rewrite <- (Rmult_1_r (Rabs (w_amp v))) at 2. apply Rmult_le_compat_l; assumption. }
  unfold downs. destruct (ratio =? 1); [lra|]. destruct (ratio =? 2); [apply G|]. destruct (ratio =? 4); repeat (eapply Rle_trans; [apply G|]); lra.
Qed.
