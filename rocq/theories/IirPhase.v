(** * IIR resamplers and sinusoids, in exact arithmetic *)
From Coq Require Import ZArith Reals List Lia Lra Psatz Bool ZifyNat ZifyBool.
From Verif Require Import Arith ArithR Tables ResamplerModel ResamplerProof ResamplerOk Spec SpecOk SpecR Client Feed Twin TablesF IirReal.
From Verif Require DesignerPhase.
Import ListNotations.
Open Scope Z_scope.

(** ** Phase lag of an all-pass section for the frequency f (radians per sample) *)
Definition lag (c f : R) : R := (f - 2 * atan (c * sin f / (1 + c * cos f)))%R.
Fixpoint lags (cs : list R) (f : R) : R := match cs with [] => 0%R | c :: r => (lag c f + lags r f)%R end.

(** e^(-i lag) (1 + c e^(-i f)) = c + e^(-i f) *)
Lemma lag_eq c f : (-1 < c < 1)%R ->
  (cos (lag c f) * (1 + c * cos f) - sin (lag c f) * (c * sin f) = c + cos f /\
   sin (lag c f) * (1 + c * cos f) + cos (lag c f) * (c * sin f) = sin f)%R.
Proof.
  intros Hc. unfold lag. pose proof (DesignerPhase.circle_pos c f Hc) as Hu.
  destruct (DesignerPhase.atan_cos_sin (1 + c * cos f) (c * sin f) Hu) as [E1 E2].
  set (y := (2 * atan _)%R) in *. set (u := (1 + c * cos f)%R) in *. set (v := (c * sin f)%R) in *.
  assert (Hd : (0 < u * u + v * v)%R) by nra.
  assert (A1 : (cos y * u + sin y * v = u)%R) by (rewrite E1, E2; field; lra).
  assert (A2 : (sin y * u - cos y * v = v)%R) by (rewrite E1, E2; field; lra).
  rewrite cos_minus, sin_minus. pose proof (sin2_cos2 f) as T. unfold Rsqr in T. split.
  - transitivity (cos f * (cos y * u + sin y * v) + sin f * (sin y * u - cos y * v))%R; [ring|]. rewrite A1, A2. unfold u, v.
    replace (cos f * (1 + c * cos f) + sin f * (c * sin f))%R with (cos f + c * (sin f * sin f + cos f * cos f))%R by ring. rewrite T. ring.
  - transitivity (sin f * (cos y * u + sin y * v) - cos f * (sin y * u - cos y * v))%R; [ring|]. rewrite A1, A2. unfold u, v. ring.
Qed.

(** ** Sums of sinusoids *)
(** amplitude, frequency, phase *)
Record wave := Wave { w_amp : R; w_freq : R; w_phase : R }.
Definition wval (s : wave) (k : Z) : R := (w_amp s * sin (w_freq s * IZR k + w_phase s))%R.
Fixpoint waves (l : list wave) (k : Z) : R := match l with [] => 0%R | s :: r => (wval s k + waves r k)%R end.
Fixpoint amps (l : list wave) : R := match l with [] => 0%R | s :: r => (Rabs (w_amp s) + amps r)%R end.

Lemma amps_pos l : (0 <= amps l)%R.
Proof. induction l as [|s l IH]; cbn; [lra|]. pose proof (Rabs_pos (w_amp s)). lra. Qed.
Lemma wval_abs s k : (Rabs (wval s k) <= Rabs (w_amp s))%R.
Proof.
  unfold wval. rewrite Rabs_mult. pose proof (SIN_bound (w_freq s * IZR k + w_phase s)) as B.
  assert (Rabs (sin (w_freq s * IZR k + w_phase s)) <= 1)%R by (apply Rabs_le; lra). pose proof (Rabs_pos (w_amp s)). nra.
Qed.
Lemma waves_abs l k : (Rabs (waves l k) <= amps l)%R.
Proof.
  induction l as [|s l IH]; cbn [waves amps]; [rewrite Rabs_R0; lra|].
  eapply Rle_trans; [apply Rabs_triang|]. pose proof (wval_abs s k). lra.
Qed.
Lemma waves_app l1 l2 k : waves (l1 ++ l2) k = (waves l1 k + waves l2 k)%R.
Proof. induction l1 as [|s l IH]; cbn [app waves]; [lra|]. rewrite IH. lra. Qed.

(** x is, up to M w, the sum of the sinusoids l *)
Definition near (x : list RA) (l : list wave) (M : R) (w : Z -> R) : Prop :=
  (0 <= M /\ amps l <= M * w 0%Z)%R /\ forall k, 0 <= k < size x -> (Rabs (smp x k - waves l k) <= M * w k)%R.

Definition delayed (d : R -> R) (s : wave) : wave := Wave (w_amp s) (w_freq s) (w_phase s - d (w_freq s)).
Lemma amps_delayed d l : amps (map (delayed d) l) = amps l.
Proof. induction l as [|s l IH]; cbn; [reflexivity|]. now rewrite IH. Qed.
Lemma delayed_delayed d1 d2 l : map (delayed d2) (map (delayed d1) l) = map (delayed (fun f => d1 f + d2 f)%R) l.
Proof. rewrite map_map. apply map_ext. intros s. unfold delayed. cbn. f_equal. ring. Qed.

(** the steady state of a section *)
Lemma wval_steady c s k : (-1 < c < 1)%R ->
  wval (delayed (lag c) s) (k + 1) = ((wval s (k + 1) - wval (delayed (lag c) s) k) * c + wval s k)%R.
Proof.
  intros Hc. destruct (lag_eq c (w_freq s) Hc) as [E1 E2]. unfold wval, delayed. cbn [w_amp w_freq w_phase].
  rewrite plus_IZR. set (f := w_freq s) in *. set (L := lag c f) in *. set (u := (f * (IZR k + 1) + w_phase s)%R).
  replace (f * (IZR k + 1) + (w_phase s - L))%R with (u - L)%R by (unfold u; ring).
  replace (f * IZR k + (w_phase s - L))%R with (u - L - f)%R by (unfold u; ring).
  replace (f * IZR k + w_phase s)%R with (u - f)%R by (unfold u; ring).
  rewrite (sin_minus (u - L) f), (sin_minus u f), sin_minus, cos_minus.
  set (su := sin u) in *. set (cu := cos u) in *. set (sL := sin L) in *. set (cL := cos L) in *. set (sf := sin f) in *. set (cf := cos f) in *.
  apply Rminus_diag_uniq. transitivity (w_amp s * (su * (cL * (1 + c * cf) - sL * (c * sf) - (c + cf)) - cu * (sL * (1 + c * cf) + cL * (c * sf) - sf)))%R; [ring|].
  rewrite E1, E2. ring.
Qed.
Lemma waves_steady c l k : (-1 < c < 1)%R ->
  waves (map (delayed (lag c)) l) (k + 1) = ((waves l (k + 1) - waves (map (delayed (lag c)) l) k) * c + waves l k)%R.
Proof.
  intros Hc. induction l as [|s l IH]; cbn [map waves]; [ring|]. rewrite IH, (wval_steady c s k Hc). ring.
Qed.

Lemma allpass_from_near c rho : (0 <= c < rho)%R -> (rho <= 1)%R ->
  forall (x : list RA) (s t : Z -> R) M B w (x1 y1 : R), steady rho w -> (0 <= M)%R -> B = ((1 - c * c) / (rho - c) * M)%R ->
  (forall k, t k = ((s k - t (k - 1)%Z) * c + s (k - 1)%Z)%R) ->
  (forall k, 0 <= k < size x -> (Rabs (smp x k - s k) <= M * w k)%R) ->
  (Rabs ((x1 - c * y1) - (s (-1)%Z - c * t (-1)%Z)) <= B * w 0%Z)%R ->
  forall k, 0 <= k < size x -> (Rabs (smp (allpass_from (A := RA) c x1 y1 x) k - t k) <= section_gain rho c * M * w k)%R.
Proof.
  intros Hc Hr x. induction x as [|x0 x IH]; intros s t M B w x1 y1 Hw HM HB Hst Hx Hs k Hk; [unfold size in Hk; cbn in Hk; lia|].
  cbn [allpass_from]. cbn zeta. set (y0 := fadd (a := RA) _ _). raops.
  assert (Ey : @eq R y0 (c * x0 + (x1 - c * y1))%R) by (unfold y0; raops; lra).
  assert (S0 : 0 <= 0 < size (A := RA) (x0 :: x)) by (unfold size; cbn [length]; lia).
  pose proof (Hx 0 S0) as H0. rewrite smp_0 in H0. pose proof (Hst 0) as T0. change (0 - 1) with (-1) in T0.
  destruct (Hw 0 ltac:(lia)) as [W0 W1]. cbn [Z.add] in W1.
  set (e := ((x1 - c * y1) - (s (-1)%Z - c * t (-1)%Z))%R) in *.
  destruct (Z.eq_dec k 0) as [->|].
  - rewrite smp_0, Ey. replace (c * x0 + (x1 - c * y1) - t 0%Z)%R with (c * (x0 - s 0%Z) + e)%R by (rewrite T0; unfold e; ring).
    eapply Rle_trans; [apply Rabs_triang|]. rewrite Rabs_mult, (Rabs_pos_eq c) by lra. unfold section_gain. rewrite HB in Hs.
    assert (c * Rabs (x0 - s 0%Z) <= c * (M * w 0%Z))%R by (apply Rmult_le_compat_l; lra). lra.
  - replace k with ((k - 1) + 1) by lia. rewrite smp_S by lia.
    apply (IH (fun i => s (i + 1)) (fun i => t (i + 1)) M B (fun i => w (i + 1)) x0 y0).
    + intros i Hi. apply Hw. lia.
    + exact HM.
    + exact HB.
    + intros i. cbv beta. replace (i - 1 + 1) with (i + 1 - 1) by lia. apply Hst.
    + intros i Hi. rewrite <- (smp_S x0) by lia. apply Hx. rewrite (size_cons (A := RA)). lia.
    + cbn [Z.add Pos.add Z.pos_sub]. rewrite Ey.
      replace (x0 - c * (c * x0 + (x1 - c * y1)) - (s 0%Z - c * t 0%Z))%R
        with ((1 - c * c) * (x0 - s 0%Z) + - (c * e))%R by (rewrite T0; unfold e; ring).
      eapply Rle_trans; [apply Rabs_triang|]. rewrite Rabs_Ropp, !Rabs_mult, (Rabs_pos_eq c) by lra.
      assert (C2 : (0 <= 1 - c * c)%R) by (assert (c * c <= 1 * 1)%R by (apply Rmult_le_compat; lra); lra).
      rewrite (Rabs_pos_eq (1 - c * c)) by exact C2.
      assert (A1 : ((1 - c * c) * Rabs (x0 - s 0%Z) <= (1 - c * c) * (M * w 0%Z))%R) by (apply Rmult_le_compat_l; lra).
      assert (A2 : (c * Rabs e <= c * (B * w 0%Z))%R) by (apply Rmult_le_compat_l; lra).
      assert (B0 : (0 <= B)%R) by (rewrite HB; apply Rmult_le_pos; [pose proof (section_gain_ge rho c Hc Hr); lra | exact HM]).
      assert (A3 : (B * (rho * w 0%Z) <= B * w 1%Z)%R) by (apply Rmult_le_compat_l; assumption).
      assert (E : ((1 - c * c) * (M * w 0%Z) = (rho - c) * (B * w 0%Z))%R) by (rewrite HB; field; lra).
      replace (0 + 1)%Z with 1 by reflexivity. lra.
    + rewrite (size_cons (A := RA)) in Hk. lia.
Qed.
Lemma allpass_near c rho (x : list RA) l M w : (0 <= c < rho)%R -> (rho <= 1)%R -> steady rho w -> near x l M w ->
  near (allpass (A := RA) c x) (map (delayed (lag c)) l) (section_gain rho c * M) w.
Proof.
  intros Hc Hr Hw ((HM & Ha) & Hx). destruct (section_gain_ge rho c Hc Hr) as [G1 G2].
  destruct (Hw 0 ltac:(lia)) as [W0 _]. assert (MW : (0 <= M * w 0%Z)%R) by (apply Rmult_le_pos; assumption).
  split; [split|].
  - apply Rmult_le_pos; lra.
  - rewrite amps_delayed, Rmult_assoc. assert (1 * (M * w 0%Z) <= section_gain rho c * (M * w 0%Z))%R by (apply Rmult_le_compat_r; assumption). lra.
  - intros k Hk. unfold allpass in *. raops. assert (Sz : size (allpass_from (A := RA) c 0%R 0%R x) = size x) by (unfold size; now rewrite allpass_from_length).
    rewrite Sz in Hk. apply (allpass_from_near c rho Hc Hr x (waves l) (waves (map (delayed (lag c)) l)) M ((1 - c * c) / (rho - c) * M) w 0 0); try assumption; try reflexivity.
    + intros i. replace i with (i - 1 + 1) at 1 2 by lia. apply waves_steady. lra.
    + set (u := waves l (-1)). set (v := waves (map (delayed (lag c)) l) (-1)).
      assert (U : (Rabs u <= amps l)%R) by apply waves_abs. assert (V : (Rabs v <= amps l)%R) by (rewrite <- (amps_delayed (lag c)); apply waves_abs).
      replace (0 - c * 0 - (u - c * v))%R with (- u + c * v)%R by ring.
      eapply Rle_trans; [apply Rabs_triang|]. rewrite Rabs_Ropp, Rabs_mult, (Rabs_pos_eq c) by lra.
      assert (c * Rabs v <= c * amps l)%R by (apply Rmult_le_compat_l; lra).
      pose proof (amps_pos l). apply Rle_trans with ((1 + c) * (M * w 0%Z))%R; [nra|].
      rewrite Rmult_assoc. apply Rmult_le_compat_r; [exact MW|].
      apply Rmult_le_reg_r with (rho - c)%R; [lra|]. unfold Rdiv. rewrite (Rmult_assoc (1 - c * c)), Rinv_l by lra.
      assert ((1 + c) * (rho - c) <= (1 + c) * (1 - c))%R by (apply Rmult_le_compat_l; lra). lra.
Qed.
Lemma near_more x l M M' w : near x l M w -> (M <= M')%R -> (forall k, 0 <= k -> (0 <= w k)%R) -> near x l M' w.
Proof.
  intros ((HM & Ha) & H) L Hw. split; [split; [lra|]|].
  - assert (M * w 0%Z <= M' * w 0%Z)%R by (apply Rmult_le_compat_r; [apply Hw; lia | exact L]). lra.
  - intros k Hk. specialize (H k Hk). assert (M * w k <= M' * w k)%R by (apply Rmult_le_compat_r; [apply Hw; lia | exact L]). lra.
Qed.
Lemma near_ext x l l' M w w' : (forall k, 0 <= k -> w k = w' k) -> l = l' -> near x l M w -> near x l' M w'.
Proof. intros E <- ((HM & Ha) & H). split; [rewrite <- E by lia; now split|]. intros k Hk. rewrite <- E by lia. now apply H. Qed.
Lemma chain_near cs rho : (rho <= 1)%R -> Forall (fun c => 0 <= c < rho)%R cs -> forall (x : list RA) l M w, steady rho w -> near x l M w ->
  near (chain (A := RA) cs x) (map (delayed (lags cs)) l) (chain_gain rho cs * M) w.
Proof.
  intros Hr. induction cs as [|c cs IH]; intros F x l M w Hw H.
  - cbn [chain_gain]. rewrite Rmult_1_l. change (chain (A := RA) [] x) with x. eapply near_ext; [reflexivity| |exact H].
    rewrite <- (map_id l) at 1. apply map_ext. intros [a f p]. unfold delayed. cbn. f_equal. ring.
  - inversion F as [|? ? Hc Hcs]; subst. cbn [chain_gain]. rewrite Rmult_assoc.
    change (chain (A := RA) (c :: cs) x) with (chain (A := RA) cs (allpass (A := RA) c x)).
    eapply near_ext; [reflexivity | | apply IH; [exact Hcs | exact Hw | apply allpass_near; eassumption]].
    rewrite delayed_delayed. reflexivity.
Qed.

(** ** Stages *)
(** For the frequency f at the higher rate: mean of the lags of the two phases, and half their difference. *)
Definition mean_lag (cs : list R) (f : R) : R := ((lags (evens cs) (2 * f) + lags (odds cs) (2 * f) + f) / 2)%R.
Definition half_diff (cs : list R) (f : R) : R := ((lags (odds cs) (2 * f) + f - lags (evens cs) (2 * f)) / 2)%R.

(** upsampling: the sinusoid and its image *)
Definition up_main (cs : list R) (s : wave) : wave :=
  let f := (w_freq s / 2)%R in Wave (w_amp s * cos (half_diff cs f)) f (w_phase s - mean_lag cs f).
Definition up_image (cs : list R) (s : wave) : wave :=
  let f := (w_freq s / 2)%R in Wave (w_amp s * sin (half_diff cs f)) (f + PI) (w_phase s - mean_lag cs f + PI / 2).
Definition up_waves (cs : list R) (l : list wave) : list wave := map (up_main cs) l ++ map (up_image cs) l.

Lemma sin_parity (j : Z) x : sin (x + IZR j * PI) = if Z.even j then sin x else (- sin x)%R.
Proof.
  assert (P : forall n y, sin (y + 2 * IZR n * PI) = sin y).
  { intros n y. destruct (Z_le_gt_dec 0 n) as [Hn|Hn].
    - rewrite <- (Z2Nat.id n) by lia. rewrite <- INR_IZR_INZ. apply sin_period.
    - rewrite <- (sin_period (y + 2 * IZR n * PI) (Z.to_nat (- n))). f_equal. rewrite INR_IZR_INZ, Z2Nat.id by lia. rewrite opp_IZR. ring. }
  destruct (Z.even j) eqn:E.
  - apply Z.even_spec in E. destruct E as [n ->]. rewrite mult_IZR. apply P.
  - assert (O : Z.odd j = true) by (rewrite <- Z.negb_even, E; reflexivity). apply Z.odd_spec in O. destruct O as [n ->].
    rewrite plus_IZR, mult_IZR. replace (x + (2 * IZR n + 1) * PI)%R with ((x + PI) + 2 * IZR n * PI)%R by ring. rewrite P. apply neg_sin.
Qed.

Lemma up_wave cs s j : 
  wval (delayed (lags (if Z.even j then evens cs else odds cs)) s) (j / 2) = (wval (up_main cs s) j + wval (up_image cs s) j)%R.
Proof.
  destruct s as [a f p]. unfold wval, delayed, up_main, up_image. cbn [w_amp w_freq w_phase]. set (g := (f / 2)%R).
  set (L := mean_lag cs g). set (d := half_diff cs g).
  assert (F : (2 * g = f)%R) by (unfold g; lra).
  replace ((g + PI) * IZR j + (p - L + PI / 2))%R with (g * IZR j + (p - L) + PI / 2 + IZR j * PI)%R by ring.
  rewrite sin_parity. set (X := (g * IZR j + (p - L))%R).
  replace (sin (X + PI / 2)) with (cos X) by (rewrite sin_plus, cos_PI2, sin_PI2; ring).
  pose proof (Z.div_mod j 2 ltac:(lia)) as DM. pose proof (Zmod_even j) as ME. 
  assert (J : (f * IZR (j / 2) = g * IZR j - if Z.even j then 0 else g)%R).
  { rewrite <- F. destruct (Z.even j); rewrite ME in DM; rewrite DM at 2; rewrite plus_IZR, mult_IZR; ring. }
  destruct (Z.even j).
  - replace (f * IZR (j / 2) + (p - lags (evens cs) f))%R with (X + d)%R.
    + rewrite sin_plus. ring.
    + unfold X, d, L, mean_lag, half_diff. rewrite F, J. lra.
  - replace (f * IZR (j / 2) + (p - lags (odds cs) f))%R with (X - d)%R.
    + rewrite sin_minus. ring.
    + unfold X, d, L, mean_lag, half_diff. rewrite F, J. lra.
Qed.
Lemma up_waves_ok cs l j :
  waves (map (delayed (lags (if Z.even j then evens cs else odds cs))) l) (j / 2) = waves (up_waves cs l) j.
Proof.
  unfold up_waves. rewrite waves_app. induction l as [|s l IH]; cbn [map waves]; [lra|]. rewrite up_wave, IH. ring.
Qed.
Lemma cos_sin_sum x : (Rabs (cos x) + Rabs (sin x) <= 3 / 2)%R.
Proof.
  pose proof (sin2_cos2 x) as T. unfold Rsqr in T.
  assert (A : (Rabs (cos x) * Rabs (cos x) = cos x * cos x)%R) by (rewrite <- Rabs_mult; apply Rabs_pos_eq; nra).
  assert (B : (Rabs (sin x) * Rabs (sin x) = sin x * sin x)%R) by (rewrite <- Rabs_mult; apply Rabs_pos_eq; nra).
  set (u := Rabs (cos x)) in *. set (v := Rabs (sin x)) in *. assert (U : (u * u + v * v = 1)%R) by lra.
  pose proof (Rabs_pos (cos x)) as U0. pose proof (Rabs_pos (sin x)) as V0. fold u in U0. fold v in V0. clearbody u v.
  pose proof (Rle_0_sqr (u - v)) as Q. unfold Rsqr in Q. apply Rnot_lt_le. intros C. assert (3 / 2 * (3 / 2) < (u + v) * (u + v))%R by (apply Rmult_le_0_lt_compat; lra). lra.
Qed.
Lemma amps_up cs l : (amps (up_waves cs l) <= 3 / 2 * amps l)%R.
Proof.
  unfold up_waves. assert (App : forall a b, amps (a ++ b) = (amps a + amps b)%R) by (intros a b; induction a as [|s a IH]; cbn; [lra | rewrite IH; lra]).
  rewrite App. induction l as [|s l IH]; cbn [map amps]; [lra|]. unfold up_main at 1, up_image at 1. cbn [w_amp].
  rewrite !Rabs_mult. pose proof (cos_sin_sum (half_diff cs (w_freq s / 2))). pose proof (Rabs_pos (w_amp s)). nra.
Qed.
Lemma up_near (cs : list RA) rho K (x : list RA) l M w : (rho <= 1)%R -> (2 <= K)%R -> Forall (fun c => 0 <= c < rho)%R cs ->
  (chain_gain rho (evens cs) <= K)%R -> (chain_gain rho (odds cs) <= K)%R -> steady rho w -> near x l M w ->
  near (iir_up2 (A := RA) cs x) (up_waves cs l) (K * M) (fun j => w (j / 2)).
Proof.
  intros Hr K2 F KE KO Hw H. destruct (evens_all _ _ F) as [FE FO].
  assert (W0 : forall k, 0 <= k -> (0 <= w k)%R) by (intros k Hk; exact (proj1 (Hw k Hk))).
  pose proof H as ((HM & HA) & _).
  pose proof (near_more _ _ _ (K * M) _ (chain_near _ rho Hr FE x l M w Hw H) ltac:(apply Rmult_le_compat_r; assumption) W0) as [_ TE].
  pose proof (near_more _ _ _ (K * M) _ (chain_near _ rho Hr FO x l M w Hw H) ltac:(apply Rmult_le_compat_r; assumption) W0) as [_ TO].
  split; [split|].
  - apply Rmult_le_pos; lra.
  - change (0 / 2) with 0. pose proof (amps_up cs l). pose proof (amps_pos l). assert (2 * (M * w 0%Z) <= K * (M * w 0%Z))%R by (apply Rmult_le_compat_r; lra). lra.
  - unfold iir_up2.
    assert (L : length (chain (A := RA) (evens cs) x) = length (chain (A := RA) (odds cs) x)) by now rewrite !chain_length.
    intros j Hj. unfold size in Hj. rewrite weave_length in Hj by exact L. rewrite chain_length in Hj.
    rewrite weave_smp by (exact L || lia). pose proof (Z.div_mod j 2 ltac:(lia)). pose proof (Z.mod_pos_bound j 2 ltac:(lia)).
    rewrite <- up_waves_ok. destruct (Z.even j); [apply TE | apply TO]; unfold size; rewrite chain_length; lia.
Qed.

(** downsampling *)
Definition down_wave (cs : list R) (s : wave) : wave :=
  let f := w_freq s in Wave (w_amp s * cos (half_diff cs f)) (2 * f) (w_phase s - (mean_lag cs f - f)).
Lemma down_wave_ok cs s k :
  (/ 2 * (wval (delayed (lags (evens cs)) (Wave (w_amp s) (2 * w_freq s) (w_phase s + w_freq s))) k +
          wval (delayed (lags (odds cs)) (Wave (w_amp s) (2 * w_freq s) (w_phase s))) k))%R = wval (down_wave cs s) k.
Proof.
  destruct s as [a f p]. unfold wval, delayed, down_wave. cbn [w_amp w_freq w_phase].
  set (d := half_diff cs f). set (X := (2 * f * IZR k + (p - (mean_lag cs f - f)))%R).
  replace (2 * f * IZR k + (p + f - lags (evens cs) (2 * f)))%R with (X + d)%R by (unfold X, d, mean_lag, half_diff; lra).
  replace (2 * f * IZR k + (p - lags (odds cs) (2 * f)))%R with (X - d)%R by (unfold X, d, mean_lag, half_diff; lra).
  rewrite sin_plus, sin_minus. lra.
Qed.
(** the samples with odd and even indices *)
Definition half_odd (s : wave) : wave := Wave (w_amp s) (2 * w_freq s) (w_phase s + w_freq s).
Definition half_even (s : wave) : wave := Wave (w_amp s) (2 * w_freq s) (w_phase s).
Lemma waves_odd l k : waves (map half_odd l) k = waves l (2 * k + 1).
Proof.
  induction l as [|s l IH]; cbn [map waves]; [reflexivity|]. rewrite IH. f_equal. unfold wval, half_odd. cbn [w_amp w_freq w_phase].
  rewrite plus_IZR, mult_IZR. f_equal. f_equal. ring.
Qed.
Lemma waves_even l k : waves (map half_even l) k = waves l (2 * k).
Proof.
  induction l as [|s l IH]; cbn [map waves]; [reflexivity|]. rewrite IH. f_equal. unfold wval, half_even. cbn [w_amp w_freq w_phase].
  rewrite mult_IZR. f_equal. f_equal. ring.
Qed.
Lemma amps_map F l : (forall s, w_amp (F s) = w_amp s) -> amps (map F l) = amps l.
Proof. intros E. induction l as [|s l IH]; cbn [map amps]; [reflexivity|]. now rewrite IH, E. Qed.
Lemma down_waves_ok cs l k :
  (/ 2 * (waves (map (delayed (lags (evens cs))) (map half_odd l)) k + waves (map (delayed (lags (odds cs))) (map half_even l)) k))%R = waves (map (down_wave cs) l) k.
Proof. induction l as [|s l IH]; cbn [map waves]; [lra|]. rewrite <- IH, <- down_wave_ok. unfold half_odd, half_even. lra. Qed.
Lemma amps_down cs l : (amps (map (down_wave cs) l) <= amps l)%R.
Proof.
  induction l as [|s l IH]; cbn [map amps]; [lra|]. unfold down_wave at 1. cbn [w_amp]. rewrite Rabs_mult. pose proof (COS_bound (half_diff cs (w_freq s))) as B.
  assert (Rabs (cos (half_diff cs (w_freq s))) <= 1)%R by (apply Rabs_le; lra). pose proof (Rabs_pos (w_amp s)). nra.
Qed.
Lemma down_near (cs : list RA) rho K (x : list RA) l M w : (rho <= 1)%R -> (1 <= K)%R -> (forall i k, 0 <= i <= k -> (w k <= w i)%R) -> Forall (fun c => 0 <= c < rho)%R cs ->
  (chain_gain rho (evens cs) <= K)%R -> (chain_gain rho (odds cs) <= K)%R -> Z.even (size x) = true -> steady rho (fun k => w (2 * k)) -> near x l M w ->
  near (iir_down2 (A := RA) cs x) (map (down_wave cs) l) (K * M) (fun k => w (2 * k)).
Proof.
  intros Hr K1 Mon F KE KO Ev Hw2 H. destruct (evens_all _ _ F) as [FE FO].
  assert (W0 : forall k, 0 <= k -> (0 <= w (2 * k)%Z)%R) by (intros k Hk; exact (proj1 (Hw2 k Hk))).
  destruct H as ((HM & Ha) & H). apply Z.even_spec in Ev. destruct Ev as [n En].
  assert (Se : size (evens x) = n) by (unfold size in *; rewrite evens_length; replace (length x) with (2 * Z.to_nat n)%nat by lia; rewrite Nat.div2_succ_double; lia).
  assert (So : size (odds x) = n) by (unfold size in *; rewrite odds_length; replace (length x) with (2 * Z.to_nat n)%nat by lia; rewrite Nat.div2_double; lia).
  assert (T1 : near (odds x) (map half_odd l) M (fun k => w (2 * k))).
  { split; [split; [exact HM | rewrite amps_map by reflexivity; exact Ha]|]. intros k Hk. rewrite So in Hk. rewrite smp_odds. replace (k <? 0) with false by lia.
    rewrite waves_odd. eapply Rle_trans; [apply H; lia|]. apply Rmult_le_compat_l; [exact HM|]. apply Mon. lia. }
  assert (T2 : near (evens x) (map half_even l) M (fun k => w (2 * k))).
  { split; [split; [exact HM | rewrite amps_map by reflexivity; exact Ha]|]. intros k Hk. rewrite Se in Hk. rewrite smp_evens, waves_even. apply H. lia. }
  pose proof (near_more _ _ _ (K * M) _ (chain_near _ rho Hr FE _ _ M _ Hw2 T1) ltac:(apply Rmult_le_compat_r; assumption) W0) as [_ TE].
  pose proof (near_more _ _ _ (K * M) _ (chain_near _ rho Hr FO _ _ M _ Hw2 T2) ltac:(apply Rmult_le_compat_r; assumption) W0) as [_ TO].
  split; [split|].
  - apply Rmult_le_pos; lra.
  - pose proof (amps_down cs l). change (2 * 0) with 0.
    assert (1 * (M * w 0%Z) <= K * (M * w 0%Z))%R by (apply Rmult_le_compat_r; [pose proof (amps_pos l); lra | lra]). lra.
  - unfold iir_down2. intros k Hk.
    assert (L : length (chain (A := RA) (evens cs) (odds x)) = length (chain (A := RA) (odds cs) (evens x))) by (rewrite !chain_length; unfold size in *; lia).
    unfold size in Hk. rewrite zip_length, L, Nat.min_id, chain_length in Hk. fold (size (evens x)) in Hk. rewrite Se in Hk.
    assert (Hk1 : 0 <= k < size (chain (A := RA) (evens cs) (odds x))) by (unfold size; rewrite chain_length; unfold size in So; lia).
    assert (Hk2 : 0 <= k < size (chain (A := RA) (odds cs) (evens x))) by (unfold size; rewrite chain_length; unfold size in Se; lia).
    rewrite zip_smp by assumption. rewrite <- down_waves_ok.
    set (u := smp (chain (A := RA) (evens cs) (odds x)) k) in *. set (v := smp (chain (A := RA) (odds cs) (evens x)) k) in *.
    set (a := waves _ k). set (b := waves _ k).
    assert (TE' : (Rabs (u - a) <= K * M * w (2 * k)%Z)%R) by exact (TE k Hk1).
    assert (TO' : (Rabs (v - b) <= K * M * w (2 * k)%Z)%R) by exact (TO k Hk2). raops.
    replace (/ 2 * (u + v) - / 2 * (a + b))%R with (/ 2 * (u - a) + / 2 * (v - b))%R by lra.
    eapply Rle_trans; [apply Rabs_triang|]. rewrite !Rabs_mult, (Rabs_pos_eq (/ 2)) by lra. lra.
Qed.
