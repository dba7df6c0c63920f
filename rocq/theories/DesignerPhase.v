(** * The phase of the all-pass sections, and the group delay of the designer *)
From Coq Require Import ZArith Reals List Lia Lra Psatz Bool.
From Flocq Require Import Core.
From Coquelicot Require Import Coquelicot.
From Verif Require Import DesignerModel DesignerProof.
Import ListNotations.
Open Scope R_scope.

(** ** the phase of the sections *)
(** e^(-2iw) *)
Definition zm2 (w : R) : C := (cos (2 * w), - sin (2 * w)).
(** the section (a + z^-2) / (1 + a z^-2), or (a - z^-2) / (1 - a z^-2) *)
Definition section (ph_flag : bool) (a w : R) : C :=
  if ph_flag then ((RtoC a - zm2 w) / (RtoC 1 - RtoC a * zm2 w))%C
  else ((RtoC a + zm2 w) / (RtoC 1 + RtoC a * zm2 w))%C.
(** [theta] is minus the phase of a value of modulus 1 *)
Definition phase_of (theta : R) (c : C) : Prop := c = (cos theta, - sin theta).

Definition th (ph_flag : bool) (a w : R) : R :=
  if ph_flag then 2 * w + PI - 2 * atan (- a * sin (2 * w) / (1 - a * cos (2 * w)))
  else 2 * w - 2 * atan (a * sin (2 * w) / (1 + a * cos (2 * w))).

Lemma circle_pos a w : -1 < a < 1 -> 0 < 1 + a * cos w.
Proof. intros H. pose proof (COS_bound w). destruct (Rle_or_lt 0 a); nra. Qed.

Lemma atan_cos_sin u v : 0 < u ->
  cos (2 * atan (v / u)) = (u * u - v * v) / (u * u + v * v) /\ sin (2 * atan (v / u)) = 2 * u * v / (u * u + v * v).
Proof.
  intros Hu. set (x := v / u).
  assert (Hp : 0 < 1 + x * x) by nra.
  assert (Hv : v = x * u) by (unfold x; field; lra).
  rewrite cos_2a, sin_2a, cos_atan, sin_atan.
  assert (Hs : sqrt (1 + x²) * sqrt (1 + x²) = 1 + x * x) by (rewrite sqrt_sqrt; [reflexivity|unfold Rsqr; lra]).
  assert (Hs0 : sqrt (1 + x²) <> 0) by (intros E; rewrite E in Hs; lra).
  set (s := sqrt (1 + x²)) in *. clearbody s.
  split.
  - transitivity ((1 - x * x) / (s * s)); [field; assumption|]. rewrite Hs, Hv. field. split; [nra|lra].
  - transitivity (2 * x / (s * s)); [field; assumption|]. rewrite Hs, Hv. field. split; [nra|lra].
Qed.

Lemma th_phase_false a w : -1 < a < 1 -> phase_of (th false a w) (section false a w).
Proof.
  intros Ha. unfold phase_of, th, section, zm2.
  pose proof (sin2_cos2 (2 * w)) as T. unfold Rsqr in T.
  pose proof (circle_pos a (2 * w) Ha) as Hu.
  set (c := cos (2 * w)) in *. set (s := sin (2 * w)) in *.
  assert (T' : s * s = 1 - c * c) by lra. clear T.
  destruct (atan_cos_sin (1 + a * c) (a * s) Hu) as [E1 E2].
  set (y := 2 * atan _) in *. set (u := 1 + a * c) in *.
  assert (Hd : 0 < u * u + a * s * (a * s)) by nra.
  rewrite cos_minus, sin_minus. fold c s. rewrite E1, E2.
  set (D := u * u + a * s * (a * s)) in *.
  assert (S1 : a * s * (a * s) = a * a * (1 - c * c)) by (rewrite <- T'; ring).
  unfold Cdiv, Cinv, Cmult, Cminus, Cplus, Copp, RtoC. cbn [fst snd].
  assert (ED : (1 + (a * c - 0 * - s)) ^ 2 + (0 + (a * - s + 0 * c)) ^ 2 = D) by (unfold D, u; ring).
  rewrite ED.
  apply injective_projections; cbn [fst snd].
  - transitivity (((a + c) * u + s * s * a) / D); [unfold u; field; lra|].
    transitivity ((c * (u * u - a * s * (a * s)) + 2 * u * a * (s * s)) / D); [|field; lra].
    f_equal. rewrite S1, T'. unfold u. ring.
  - transitivity (- (s * (u - (a + c) * a)) / D); [unfold u; field; lra|].
    transitivity (- (s * ((u * u - a * s * (a * s)) - c * 2 * u * a)) / D); [|field; lra].
    f_equal. rewrite S1. unfold u. ring.
Qed.

Lemma th_phase ph a w : -1 < a < 1 -> phase_of (th ph a w) (section ph a w).
Proof.
  intros Ha. destruct ph; [|now apply th_phase_false].
  pose proof (th_phase_false (- a) w ltac:(lra)) as H.
  replace (section true a w) with (- section false (- a) w)%C.
  2:{ unfold section, Cdiv. rewrite RtoC_opp.
      replace (RtoC 1 + - RtoC a * zm2 w)%C with (RtoC 1 - RtoC a * zm2 w)%C by ring.
      set (i := (/ (RtoC 1 - RtoC a * zm2 w))%C). clearbody i. ring. }
  rewrite H. unfold phase_of, th.
  replace (2 * w + PI - 2 * atan (- a * sin (2 * w) / (1 - a * cos (2 * w)))) with
    ((2 * w - 2 * atan (- a * sin (2 * w) / (1 + - a * cos (2 * w)))) + PI)
    by (replace (1 + - a * cos (2 * w)) with (1 - a * cos (2 * w)) by ring; ring).
  rewrite neg_cos, neg_sin. reflexivity.
Qed.

Lemma th_derive ph a w : -1 < a < 1 -> is_derive (th ph a) w (gd1 a w ph).
Proof.
  assert (F : forall a, -1 < a < 1 -> is_derive (th false a) w (gd1 a w false)).
  { clear a. intros a Ha. pose proof (circle_pos a (2 * w) Ha) as Hu.
    unfold th, gd1. auto_derive; [lra|].
    pose proof (sin2_cos2 (2 * w)) as T. unfold Rsqr in T.
    set (c := cos (2 * w)) in *. set (s := sin (2 * w)) in *.
    assert (T' : s * s = 1 - c * c) by lra.
    assert (D1 : 0 < a * a + 2 * a * c + 1) by nra.
    set (u := 1 + a * c) in *. set (D := a * a + 2 * a * c + 1) in *.
    assert (ED : u * u + a * s * (a * s) = D).
    { replace (a * s * (a * s)) with (a * a * (s * s)) by ring. rewrite T'. unfold u, D. ring. }
    transitivity (2 - 2 * ((2 * a * c * u + 2 * a * a * (s * s)) / (u * u + a * s * (a * s)))).
    - field. split; [rewrite ED|]; lra.
    - rewrite ED, T'. unfold u. apply (Rmult_eq_reg_r D); [|lra]. unfold Rdiv.
      rewrite Rmult_minus_distr_r, !Rmult_assoc, Rinv_l by lra. unfold D. ring. }
  intros Ha. destruct ph; [|now apply F].
  specialize (F (- a) ltac:(lra)).
  replace (gd1 a w true) with (gd1 (- a) w false).
  2:{ unfold gd1. f_equal; [ring|]. f_equal. ring. }
  apply is_derive_ext with (fun w => th false (- a) w + PI).
  { intros v. unfold th. replace (1 - a * cos (2 * v)) with (1 + - a * cos (2 * v)) by ring.
    match goal with |- ?x = ?y => change (@eq R x y) end. ring. }
  replace (gd1 (- a) w false) with (plus (gd1 (- a) w false) zero) by (cbn; apply Rplus_0_r).
  apply (is_derive_plus (K := R_AbsRing) (V := R_NormedModule)); [exact F|].
  apply (is_derive_const (K := R_AbsRing) (V := R_NormedModule)).
Qed.

(** the product of the sections of a half, and the sum of the phases *)
Fixpoint half (ph_flag : bool) (l : list R) (w : R) : C :=
  match l with a :: r => (section ph_flag a w * half ph_flag r w)%C | [] => RtoC 1 end.
Fixpoint th_sum (ph_flag : bool) (l : list R) (w : R) : R :=
  match l with a :: r => th ph_flag a w + th_sum ph_flag r w | [] => 0 end.

Lemma th_sum_phase ph l w : List.Forall (fun a => -1 < a < 1) l -> phase_of (th_sum ph l w) (half ph l w).
Proof.
  induction 1 as [|a l Ha _ IH]; unfold phase_of in *; cbn [th_sum half].
  - rewrite cos_0, sin_0, Ropp_0. reflexivity.
  - rewrite IH, (th_phase ph a w Ha), cos_plus, sin_plus. unfold Cmult. cbn [fst snd]. f_equal; ring.
Qed.

Lemma th_sum_derive ph l w : List.Forall (fun a => -1 < a < 1) l ->
  is_derive (th_sum ph l) w (sum_list (map (fun a => gd1 a w ph) l)).
Proof.
  induction 1 as [|a l Ha _ IH]; cbn [th_sum sum_list map].
  - apply (is_derive_const (K := R_AbsRing) (V := R_NormedModule)).
  - apply (is_derive_plus (K := R_AbsRing) (V := R_NormedModule)); [|exact IH]. apply (th_derive ph a w Ha).
Qed.

(** any differentiable phase of the half has the sum of the formula as derivative *)
Lemma phase_derive ph l theta w g : List.Forall (fun a => -1 < a < 1) l ->
  locally w (fun v => phase_of (theta v) (half ph l v)) -> is_derive theta w g ->
  g = sum_list (map (fun a => gd1 a w ph) l).
Proof.
  intros Hl Hp Hd. set (h := sum_list _).
  assert (D : is_derive (fun v => sin (theta v - th_sum ph l v)) w (cos (theta w - th_sum ph l w) * (g - h))).
  { evar_last. { apply (is_derive_comp sin (fun v => theta v - th_sum ph l v)).
    - apply is_derive_sin.
    - apply (is_derive_minus (K := R_AbsRing) (V := R_NormedModule)); [exact Hd|apply th_sum_derive, Hl]. }
    unfold scal; cbn; unfold mult; cbn. fold h. unfold minus, plus, opp. cbn. ring. }
  assert (E : forall v, phase_of (theta v) (half ph l v) ->
    cos (theta v - th_sum ph l v) = 1 /\ sin (theta v - th_sum ph l v) = 0).
  { intros v Hv. pose proof (th_sum_phase ph l v Hl) as Hs. unfold phase_of in *. rewrite Hv in Hs. injection Hs as E1 E2.
    rewrite cos_minus, sin_minus. rewrite <- E1. replace (sin (th_sum ph l v)) with (sin (theta v)) by lra.
    pose proof (sin2_cos2 (theta v)) as T. unfold Rsqr in T. split; lra. }
  assert (Z : is_derive (fun v => sin (theta v - th_sum ph l v)) w 0).
  { apply is_derive_ext_loc with (fun _ => 0).
    - revert Hp. apply filter_imp. intros v Hv. symmetry. now apply E.
    - apply (is_derive_const (K := R_AbsRing) (V := R_NormedModule)). }
  pose proof (is_derive_unique _ _ _ D) as U1. pose proof (is_derive_unique _ _ _ Z) as U2.
  rewrite U1 in U2. destruct (E w (locally_singleton _ _ Hp)) as [E1 _]. rewrite E1 in U2. lra.
Qed.

(** ** compute_phase_delay *)
(** the section (a + z^-1) / (1 + a z^-1) of compute_phase_delay *)
Definition section1 (a w : R) : C := section false a (w / 2).

Lemma atan2_neg r phi : 0 < r -> 0 < phi < PI -> atan2 (- (r * sin phi)) (r * cos phi) = - phi.
Proof.
  intros Hr Hp. pose proof PI_RGT_0. assert (Hs : 0 < sin phi) by (apply sin_gt_0; lra).
  unfold atan2. destruct (Rtotal_order phi (PI / 2)) as [L|[E|G]].
  - assert (Hc : 0 < cos phi) by (apply cos_gt_0; lra).
    destruct gt_dec; [|nra].
    replace (- (r * sin phi) / (r * cos phi)) with (tan (- phi)) by (rewrite tan_neg; unfold tan; field; lra).
    apply atan_tan. lra.
  - subst phi. rewrite cos_PI2, sin_PI2, Rmult_0_r, Rmult_1_r.
    destruct gt_dec; [lra|]. destruct lt_dec; [lra|]. destruct gt_dec; [lra|]. destruct lt_dec; [reflexivity|lra].
  - assert (Hc : cos phi < 0) by (apply cos_lt_0; lra).
    destruct gt_dec; [nra|]. destruct lt_dec; [|nra]. destruct ge_dec; [nra|].
    replace (- (r * sin phi) / (r * cos phi)) with (tan (- phi + PI)).
    2:{ unfold tan. rewrite neg_sin, neg_cos, sin_neg, cos_neg. field. lra. }
    rewrite atan_tan by lra. ring.
Qed.

Lemma th1_range a w : 0 <= a < 1 -> 0 < w < PI -> 0 < th false a (w / 2) <= w.
Proof.
  intros Ha Hw. unfold th. replace (2 * (w / 2)) with w by field.
  assert (Hs : 0 < sin w) by (apply sin_gt_0; lra).
  pose proof (circle_pos a w ltac:(lra)) as Hu. 
  assert (Hc : 0 < 1 + cos w).
  { pose proof (cos_increasing_1 0 0). assert (cos PI < cos w) by (apply cos_decreasing_1; lra). rewrite cos_PI in *. lra. }
  assert (Hv : 0 <= a * sin w / (1 + a * cos w)).
  { apply Rmult_le_pos; [nra|]. left. now apply Rinv_0_lt_compat. }
  assert (Ht : tan (w / 2) = sin w / (1 + cos w)).
  { assert (0 < cos (w / 2)) by (apply cos_gt_0; lra).
    replace w with (2 * (w / 2)) at 2 3 by field. rewrite sin_2a, cos_2a_cos. unfold tan. field. split; nra. }
  split.
  - assert (atan (a * sin w / (1 + a * cos w)) < w / 2); [|lra].
    rewrite <- (atan_tan (w / 2)) by lra. apply atan_increasing. rewrite Ht.
    apply (Rmult_lt_reg_r ((1 + a * cos w) * (1 + cos w))); [nra|].
    replace (a * sin w / (1 + a * cos w) * ((1 + a * cos w) * (1 + cos w))) with (sin w * (a * (1 + cos w))) by (field; lra).
    replace (sin w / (1 + cos w) * ((1 + a * cos w) * (1 + cos w))) with (sin w * (1 + a * cos w)) by (field; lra).
    nra.
  - assert (0 <= atan (a * sin w / (1 + a * cos w))); [|lra].
    rewrite <- atan_0. destruct Hv as [Hv|Hv]; [left; now apply atan_increasing|rewrite <- Hv; apply Rle_refl].
Qed.

Lemma phase_delay_ok a f : 0 <= a < 1 -> 0 < f < 0.5 ->
  let w := 2 * hiir_PI * f in
  compute_phase_delay a f = DOk ((2 * hiir_PI - th false a (w / 2)) / w).
Proof.
  intros Ha Hf w. pose proof hiir_PI_bounds as Hpi.
  assert (Hw : 0 < w < PI) by (unfold w; nra).
  pose proof (th1_range a w Ha Hw) as Ht.
  unfold compute_phase_delay. yes; [|lra]. yes; [|lra]. yes; [|lra]. yes; [|lra]. cbv zeta. fold w.
  assert (Hu := circle_pos a w ltac:(lra)).
  pose proof (sin2_cos2 w) as T. unfold Rsqr in T.
  assert (Hsw : 0 < sin w) by (apply sin_gt_0; lra).
  set (phi := th false a (w / 2)) in *.
  destruct (atan_cos_sin (1 + a * cos w) (a * sin w) Hu) as [E1 E2].
  set (rr := 1 + 2 * a * cos w + a * a).
  assert (ED : (1 + a * cos w) * (1 + a * cos w) + a * sin w * (a * sin w) = rr).
  { replace (a * sin w * (a * sin w)) with (a * a * (sin w * sin w)) by ring.
    replace (sin w * sin w) with (1 - cos w * cos w) by lra. unfold rr. ring. }
  assert (Hr : 0 < rr) by (rewrite <- ED; nra).
  rewrite ED in E1, E2.
  assert (Cphi : rr * cos phi = a + cos w + a * (cos w * (a + cos w) + sin w * sin w)).
  { unfold phi, th. replace (2 * (w / 2)) with w by field. rewrite cos_minus, E1, E2.
    transitivity (cos w * ((1 + a * cos w) * (1 + a * cos w) - a * a * (sin w * sin w)) + 2 * (1 + a * cos w) * a * (sin w * sin w)).
    { field. lra. }
    replace (sin w * sin w) with (1 - cos w * cos w) by lra. ring. }
  assert (Sphi : - (rr * sin phi) = a * a * sin w - sin w).
  { unfold phi, th. replace (2 * (w / 2)) with w by field. rewrite sin_minus, E1, E2.
    transitivity (- (sin w * ((1 + a * cos w) * (1 + a * cos w) - a * a * (sin w * sin w)) - cos w * (2 * (1 + a * cos w) * a * sin w))).
    { field. lra. }
    replace (sin w * sin w) with (1 - cos w * cos w) by lra. ring. }
  rewrite <- Cphi, <- Sphi, atan2_neg by lra.
  destruct lt_dec; [|lra]. unfold need. destruct Rneq_dec; [|exfalso; lra].
  f_equal. f_equal. ring.
Qed.
