(** * Phase lags of IIR stages: derivative, periodicity, size *)
From Coq Require Import ZArith Reals List Lia Lra Psatz Bool ZifyNat ZifyBool.
From Coquelicot Require Import Coquelicot.
From Verif Require Import Arith ArithR Tables ResamplerModel ResamplerProof ResamplerOk Spec SpecOk SpecR Client Feed Twin TablesF IirReal IirPhase IirCert.
From Verif Require DesignerPhase.
Import ListNotations.
Open Scope Z_scope.

(** ** Group delay *)
Definition grp (c f : R) : R := ((1 - c * c) / (1 + c * c + 2 * c * cos f))%R.
Fixpoint grps (cs : list R) (f : R) : R := match cs with [] => 0%R | c :: r => (grp c f + grps r f)%R end.

Lemma grp_den c f : (-1 < c < 1)%R -> (0 < 1 + c * c + 2 * c * cos f)%R.
Proof. intros Hc. pose proof (DesignerPhase.circle_pos c f Hc). pose proof (COS_bound f). destruct (Rle_or_lt 0 c); nra. Qed.
Lemma lag_derive c f : (-1 < c < 1)%R -> derivable_pt_lim (lag c) f (grp c f).
Proof.
  intros Hc. apply is_derive_Reals. pose proof (DesignerPhase.circle_pos c f Hc) as Hu. pose proof (grp_den c f Hc) as D1.
  unfold lag, grp. auto_derive; [lra|]. pose proof (sin2_cos2 f) as T. unfold Rsqr in T.
  set (x := cos f) in *. set (s := sin f) in *. assert (T' : (s * s = 1 - x * x)%R) by lra.
  set (u := (1 + c * x)%R) in *. set (D := (1 + c * c + 2 * c * x)%R) in *.
  assert (ED : (u * u + c * s * (c * s) = D)%R).
  { replace (c * s * (c * s))%R with (c * c * (s * s))%R by ring. rewrite T'. unfold u, D. ring. }
  transitivity (1 - 2 * ((c * x * u + c * c * (s * s)) / (u * u + c * s * (c * s))))%R.
  - field. split; [rewrite ED|]; lra.
  - rewrite ED, T'. unfold u. apply (Rmult_eq_reg_r D); [|lra]. unfold Rdiv.
    rewrite Rmult_minus_distr_r, !Rmult_assoc, Rinv_l by lra. unfold D. ring.
Qed.
Lemma lags_derive cs f : List.Forall (fun c => -1 < c < 1)%R cs -> derivable_pt_lim (lags cs) f (grps cs f).
Proof.
  induction 1 as [|c cs Hc _ IH]; cbn [lags grps].
  - apply derivable_pt_lim_const.
  - apply (derivable_pt_lim_plus (lag c) (lags cs)); [now apply lag_derive | exact IH].
Qed.
Lemma lags_derive2 cs f : List.Forall (fun c => -1 < c < 1)%R cs -> derivable_pt_lim (fun f => lags cs (2 * f)%R) f (2 * grps cs (2 * f))%R.
Proof.
  intros F. rewrite Rmult_comm. apply (derivable_pt_lim_comp (fun f => 2 * f)%R (lags cs)); [|now apply lags_derive].
  rewrite <- (Rmult_1_r 2) at 1. apply (derivable_pt_lim_scal id 2 f 1). apply derivable_pt_lim_id.
Qed.
(** derivatives of [mean_lag] and [half_diff] *)
Definition mean_grp (cs : list R) (f : R) : R := (grps (evens cs) (2 * f) + grps (odds cs) (2 * f) + 1 / 2)%R.
Lemma mean_lag_derive cs f : List.Forall (fun c => -1 < c < 1)%R cs -> derivable_pt_lim (mean_lag cs) f (mean_grp cs f).
Proof.
  intros F. destruct (evens_all _ _ F) as [FE FO]. unfold mean_grp.
  replace (grps (evens cs) (2 * f) + grps (odds cs) (2 * f) + 1 / 2)%R with (/ 2 * (2 * grps (evens cs) (2 * f) + 2 * grps (odds cs) (2 * f) + 1))%R by lra.
  apply (derivable_pt_lim_ext (fun f => / 2 * (lags (evens cs) (2 * f) + lags (odds cs) (2 * f) + f))%R).
  { intros t. unfold mean_lag. match goal with |- ?x = ?y => change (@eq R x y) end. lra. }
  apply (derivable_pt_lim_scal (fun f => lags (evens cs) (2 * f) + lags (odds cs) (2 * f) + f)%R (/ 2)).
  apply (derivable_pt_lim_plus (fun f => lags (evens cs) (2 * f) + lags (odds cs) (2 * f))%R id); [|apply derivable_pt_lim_id].
  apply (derivable_pt_lim_plus (fun f => lags (evens cs) (2 * f)%R) (fun f => lags (odds cs) (2 * f)%R)); now apply lags_derive2.
Qed.
Lemma half_diff_cont cs : List.Forall (fun c => -1 < c < 1)%R cs -> continuity (half_diff cs).
Proof.
  intros F f. destruct (evens_all _ _ F) as [FE FO]. apply derivable_continuous_pt.
  exists (/ 2 * (2 * grps (odds cs) (2 * f) + 1 - 2 * grps (evens cs) (2 * f)))%R.
  apply (derivable_pt_lim_ext (fun f => / 2 * (lags (odds cs) (2 * f) + f - lags (evens cs) (2 * f)))%R).
  { intros t. unfold half_diff. match goal with |- ?x = ?y => change (@eq R x y) end. lra. }
  apply (derivable_pt_lim_scal (fun f => lags (odds cs) (2 * f) + f - lags (evens cs) (2 * f))%R (/ 2)).
  apply (derivable_pt_lim_minus (fun f => lags (odds cs) (2 * f) + f)%R (fun f => lags (evens cs) (2 * f)%R)); [|now apply lags_derive2].
  apply (derivable_pt_lim_plus (fun f => lags (odds cs) (2 * f)%R) id); [now apply lags_derive2 | apply derivable_pt_lim_id].
Qed.
Lemma lags_0 cs : lags cs 0 = 0%R.
Proof.
  induction cs as [|c cs IH]; cbn [lags]; [reflexivity|]. rewrite IH. unfold lag. rewrite sin_0.
  replace (c * 0 / (1 + c * cos 0))%R with 0%R by (unfold Rdiv; ring). rewrite atan_0. ring.
Qed.
Lemma half_diff_0 cs : half_diff cs 0 = 0%R.
Proof. unfold half_diff. rewrite Rmult_0_r, !lags_0. lra. Qed.
Lemma mean_lag_0 cs : mean_lag cs 0 = 0%R.
Proof. unfold mean_lag. rewrite Rmult_0_r, !lags_0. lra. Qed.

(** ** Periodicity *)
Lemma sin_2kpi (k : Z) x : sin (x + 2 * IZR k * PI) = sin x /\ cos (x + 2 * IZR k * PI) = cos x.
Proof.
  destruct (Z_le_gt_dec 0 k) as [Hn|Hn].
  - rewrite <- (Z2Nat.id k) by lia. rewrite <- INR_IZR_INZ. split; [apply sin_period | apply cos_period].
  - split; [rewrite <- (sin_period (x + 2 * IZR k * PI) (Z.to_nat (- k))) | rewrite <- (cos_period (x + 2 * IZR k * PI) (Z.to_nat (- k)))];
    f_equal; rewrite INR_IZR_INZ, Z2Nat.id by lia; rewrite opp_IZR; ring.
Qed.
Lemma lags_shift cs k f : lags cs (2 * (f + IZR k * PI)) = (lags cs (2 * f) + 2 * PI * IZR (k * Z.of_nat (length cs)))%R.
Proof.
  induction cs as [|c cs IH]; cbn [lags length].
  - rewrite Z.mul_0_r. lra.
  - rewrite IH. unfold lag. replace (2 * (f + IZR k * PI))%R with (2 * f + 2 * IZR k * PI)%R by ring. destruct (sin_2kpi k (2 * f)) as [-> ->].
    rewrite Nat2Z.inj_succ, !mult_IZR, succ_IZR. ring.
Qed.
Lemma half_diff_shift cs k f : half_diff cs (f + IZR k * PI) =
  (half_diff cs f + IZR (k * (Z.of_nat (length (odds cs)) - Z.of_nat (length (evens cs)))) * PI + IZR k * (PI / 2))%R.
Proof. unfold half_diff. rewrite !lags_shift, !mult_IZR, minus_IZR. lra. Qed.

Lemma abs_sin_kpi (k : Z) x : Rabs (sin (x + IZR k * PI)) = Rabs (sin x) /\ Rabs (cos (x + IZR k * PI)) = Rabs (cos x).
Proof.
  split.
  - rewrite sin_parity. destruct (Z.even k); [reflexivity | apply Rabs_Ropp].
  - rewrite <- !sin_shift. replace (PI / 2 - (x + IZR k * PI))%R with (PI / 2 - x + IZR (- k) * PI)%R by (rewrite opp_IZR; ring).
    rewrite sin_parity. destruct (Z.even (- k)); [reflexivity | apply Rabs_Ropp].
Qed.
(** on the other side of the band the two phases cancel as well as they agree here *)
Lemma half_diff_odd cs k f : Z.even k = false ->
  Rabs (cos (half_diff cs (f + IZR k * PI))) = Rabs (sin (half_diff cs f)).
Proof.
  intros Hk. rewrite half_diff_shift. assert (O : Z.odd k = true) by (rewrite <- Z.negb_even, Hk; reflexivity). apply Z.odd_spec in O. destruct O as [n En].
  set (q := (k * _)). replace (half_diff cs f + IZR q * PI + IZR k * (PI / 2))%R with (half_diff cs f + PI / 2 + IZR (q + n) * PI)%R.
  - rewrite (proj2 (abs_sin_kpi (q + n) _)). rewrite cos_plus, cos_PI2, sin_PI2, Rmult_0_r, Rmult_1_r, Rminus_0_l, Rabs_Ropp. reflexivity.
  - rewrite En, !plus_IZR, mult_IZR. lra.
Qed.

(** ** The tables in the pass band *)
Lemma iir_eps_range s p : stage_no s -> iir_prec p -> (0 < iir_eps s p <= 0.003)%R.
Proof.
  intros Hs Hp. unfold iir_eps. unfold stage_no, iir_prec in *.
  destruct Hs as [->|[->| ->]], Hp as [->|[->|[->|[->| ->]]]]; match goal with |- context [iir_eps_n ?a ?b] => let v := eval vm_compute in (iir_eps_n a b) in change (iir_eps_n a b) with v end; lra.
Qed.
Lemma iedge_pos s : stage_no s -> (0 < iedge s)%R.
Proof. unfold stage_no, iedge. intros [->|[->| ->]]; cbn; lra. Qed.

Section PassBand.
Context (s p : Z).
Hypothesis Hs : stage_no s.
Hypothesis Hp : iir_prec p.
Let cs : list R := coeffs (A := RA) FILTER_IIR UP p s.

Lemma cos_between f g : (Rabs g <= Rabs f)%R -> (Rabs f <= PI)%R -> (cos f <= cos g)%R.
Proof.
  intros H1 H2. assert (A : forall x, cos x = cos (Rabs x)) by (intros x; unfold Rabs; destruct (Rcase_abs x); [now rewrite cos_neg | reflexivity]).
  rewrite (A f), (A g). pose proof (Rabs_pos f). pose proof (Rabs_pos g). apply cos_decr_1; lra.
Qed.
(** the difference of the phases does not reach half a period *)
Lemma half_diff_range f : (iedge s <= cos f)%R -> (Rabs f <= PI)%R -> (- (PI / 2) < half_diff cs f < PI / 2)%R.
Proof.
  intros Hf Ff. pose proof (iir_stage_unit UP s p Hs Hp) as U. assert (C : continuity (half_diff cs)) by (apply half_diff_cont; exact U).
  assert (Small : forall g, (Rabs g <= Rabs f)%R -> (Rabs (sin (half_diff cs g)) < 1)%R).
  { intros g Hg. pose proof (half_diff_small s p g Hs Hp) as B. pose proof (cos_between f g Hg Ff). pose proof (iir_eps_range s p Hs Hp).
    specialize (B ltac:(lra)). fold cs in B. lra. }
  assert (Contra : forall v, (Rabs (sin v) = 1)%R -> forall h, continuity h -> h 0%R = 0%R -> (forall t, (0 <= t <= 1)%R -> Rabs (sin (h t)) < 1)%R -> (0 <= v <= h 1)%R -> False).
  { intros v Hv h Ch H0 Hh Hr. destruct (IVT_gen h 0 1 v) as (t & Ht & Et); [intros a; apply Ch | |].
    - rewrite H0, Rmin_left, Rmax_right by lra. exact Hr.
    - rewrite Rmin_left, Rmax_right in Ht by lra. specialize (Hh t Ht). rewrite Et in Hh. lra. }
  assert (Cs : forall sg, continuity (fun t => sg * half_diff cs (t * f))%R).
  { intros sg t. apply (continuity_pt_scal (fun t => half_diff cs (t * f)%R) sg). apply (continuity_pt_comp (fun t => t * f)%R (half_diff cs)); [|apply C].
    apply (continuity_pt_mult id (fct_cte f)); [apply derivable_continuous_pt, derivable_pt_id | apply continuity_const; intros a b; reflexivity]. }
  assert (P2 : (Rabs (sin (PI / 2)) = 1)%R) by (rewrite sin_PI2; apply Rabs_R1).
  assert (Gen : forall sg, (sg = 1 \/ sg = -1)%R -> (sg * half_diff cs f < PI / 2)%R).
  { intros sg Hsg. apply Rnot_le_lt. intros L. apply (Contra (PI / 2)%R P2 (fun t => sg * half_diff cs (t * f))%R (Cs sg)).
    - rewrite Rmult_0_l, half_diff_0. ring.
    - intros t Ht. assert (R1 : (Rabs (t * f) <= Rabs f)%R).
      { rewrite Rabs_mult, (Rabs_pos_eq t) by lra. pose proof (Rabs_pos f). nra. }
      specialize (Small _ R1). destruct Hsg as [->| ->]; [now rewrite Rmult_1_l|].
      replace (-1 * half_diff cs (t * f))%R with (- half_diff cs (t * f))%R by ring. now rewrite sin_neg, Rabs_Ropp.
    - rewrite Rmult_1_l. pose proof PI_RGT_0. lra. }
  pose proof (Gen 1%R ltac:(lra)). pose proof (Gen (-1)%R ltac:(lra)). lra.
Qed.
Lemma half_diff_cos f : (iedge s <= cos f)%R -> (Rabs f <= PI)%R ->
  (0 <= 1 - cos (half_diff cs f) <= iir_eps s p * iir_eps s p)%R.
Proof.
  intros Hf Ff. pose proof (half_diff_range f Hf Ff) as R. pose proof (half_diff_small s p f Hs Hp Hf) as B. fold cs in B.
  set (d := half_diff cs f) in *. pose proof (cos_gt_0 d ltac:(lra) ltac:(lra)) as C. pose proof (COS_bound d).
  pose proof (sin2_cos2 d) as T. unfold Rsqr in T.
  assert (sin d * sin d <= iir_eps s p * iir_eps s p)%R.
  { pose proof (iir_eps_range s p Hs Hp). apply Rabs_le_between in B. nra. }
  split; [lra|]. nra.
Qed.
End PassBand.
