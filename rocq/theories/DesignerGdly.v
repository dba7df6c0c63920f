(** * The search for a group delay in the filter design code *)
From Coq Require Import ZArith Reals List Lia Lra Psatz Bool.
From Flocq Require Import Core.
From Interval Require Import Tactic.
From Verif Require Import DesignerModel DesignerProof.
Import ListNotations.
Open Scope R_scope.

(** ** What the loop returns *)
Lemma bisect_inv fuel n gd f prec it : forall ub lb lbg ni tbw at_ l g ni' cf,
  bisect fuel n gd f prec it ub lb lbg ni = DOk (tbw, at_, l, g, ni', cf) ->
  compute_group_delay l n f false = DOk g /\ (cf = true <-> Rabs (g - gd) > prec) /\
  (ni < ni')%Z /\ ((ni' < 1000)%Z -> cf = false).
Proof.
  induction it as [|it IH]; intros ub lb lbg ni tbw at_ l g ni' cf H; [discriminate|].
  cbn [bisect] in H. cbv zeta in H.
  destruct compute_atten_from_order_tbw as [at0| | |]; try discriminate. cbn [dbind] in H.
  destruct compute_coefs_spec_order_tbw as [l0| | |]; try discriminate. cbn [dbind] in H.
  destruct (compute_group_delay l0 n f false) as [g0| | |] eqn:Eg; try discriminate. cbn [dbind] in H.
  destruct (gt_dec (Rabs (g0 - gd)) prec) as [G|G]; cbn [andb] in H.
  - destruct (Z.ltb_spec (ni + 1) 1000) as [L|L]; cbn [andb] in H.
    + apply IH in H. destruct H as (H1 & H2 & H3 & H4). repeat split; try tauto; lia.
    + injection H as <- <- <- <- <- <-. repeat split; auto; lia.
  - injection H as <- <- <- <- <- <-. repeat split; auto; try lia; try discriminate; try tauto.
Qed.

(** ** An open interval is not covered by finitely many points *)
Lemma avoid_list (l : list R) : forall a b, a < b -> exists x, a < x < b /\ exists d, 0 < d /\ Forall (fun s => d < Rabs (s - x)) l.
Proof.
  induction l as [|s l IH]; intros a b Hab.
  - exists ((a + b) / 2). split; [lra|]. exists 1. split; [lra|constructor].
  - assert (exists a' b', a < a' /\ b' < b /\ a' < b' /\ (s < a' \/ b' < s)) as (a' & b' & H1 & H2 & H3 & H4).
    { destruct (Rlt_or_le s ((a + b) / 2)) as [L|L].
      - exists ((a + b) / 2 + (b - a) / 8), ((a + b) / 2 + (b - a) / 4). repeat split; try lra.
      - exists ((a + b) / 2 - (b - a) / 4), ((a + b) / 2 - (b - a) / 8). repeat split; try lra. }
    destruct (IH a' b' H3) as (x & Hx & d & Hd & F). exists x. split; [lra|].
    assert (0 < Rabs (s - x)) by (apply Rabs_pos_lt; lra).
    exists (Rmin d (Rabs (s - x) / 2)). split; [apply Rmin_glb_lt; lra|]. constructor.
    + eapply Rle_lt_trans; [apply Rmin_r|]. lra.
    + revert F. apply Forall_impl. intros y Hy. eapply Rle_lt_trans; [apply Rmin_l|exact Hy].
Qed.

(** points reached by k halvings between lb and ub *)
Fixpoint mids (k : nat) (lb ub : R) : list R :=
  match k with
  | O => []
  | S k => let m := (ub + lb) * 0.5 in m :: mids k lb m ++ mids k m ub
  end.

Section Search.
Context (fuel : nat) (n : Z) (f : R) (G At : R -> R) (lo hi : R).
Hypothesis Hlo : 0 < lo.
Hypothesis Hhi : hi < 0.5.
Hypothesis Hat : forall t, lo <= t <= hi -> compute_atten_from_order_tbw n t = DOk (At t).
Hypothesis Hgd : forall t, lo <= t <= hi -> exists l, compute_coefs_spec_order_tbw fuel n t = DOk l /\ compute_group_delay l n f false = DOk (G t).

(** if no midpoint is close enough, the loop runs to its end, and says that it has not converged *)
Lemma bisect_runs gd prec it : forall ub lb lbg ni, lo <= lb -> lb < ub -> ub <= hi ->
  Forall (fun t => prec < Rabs (G t - gd)) (mids it lb ub) -> (ni + Z.of_nat it = 1000)%Z -> (0 < it)%nat ->
  exists t l, lo <= t <= hi /\ In t (mids it lb ub) /\ compute_coefs_spec_order_tbw fuel n t = DOk l /\
    bisect fuel n gd f prec it ub lb lbg ni = DOk (t, At t, l, G t, 1000%Z, true).
Proof.
  induction it as [|it IH]; intros ub lb lbg ni H1 H2 H3 F Hni Hit; [lia|].
  cbn [bisect mids] in *. cbv zeta in *. set (m := (ub + lb) * 0.5) in *.
  assert (Hm : lb < m < ub) by (unfold m; lra).
  rewrite Hat by lra. cbn [dbind]. destruct (Hgd m ltac:(lra)) as (l & El & Eg). rewrite El. cbn [dbind]. rewrite Eg. cbn [dbind].
  inversion F as [|? ? Fm Fr]; subst. apply Forall_app in Fr. destruct Fr as [Fl Fu].
  destruct (gt_dec (Rabs (G m - gd)) prec) as [_|N]; [|lra]. cbn [andb].
  destruct (Z.ltb_spec (ni + 1) 1000) as [L|L].
  - destruct lt_dec.
    + destruct (IH m lb lbg (ni + 1)%Z) as (t & l' & T1 & T2 & T3 & T4); try lra; try assumption; try lia.
      exists t, l'. split; [exact T1|]. split; [right; apply in_or_app; now left|]. split; [exact T3|exact T4].
    + destruct (IH ub m (G m) (ni + 1)%Z) as (t & l' & T1 & T2 & T3 & T4); try lra; try assumption; try lia.
      exists t, l'. split; [exact T1|]. split; [right; apply in_or_app; now right|]. split; [exact T3|exact T4].
  - replace (ni + 1)%Z with 1000%Z by lia. exists m, l. split; [lra|]. split; [now left|]. split; [exact El|reflexivity].
Qed.

Lemma list_bounds (l : list R) : Forall (fun x => 0 < x) l -> exists a b, 0 < a /\ a < b /\ Forall (fun x => a <= x <= b) l.
Proof.
  induction 1 as [|x l Hx _ (a & b & Ha & Hab & IH)]; [exists 1, 2; repeat split; try lra; constructor|].
  exists (Rmin a x), (Rmax b x). pose proof (Rmin_l a x). pose proof (Rmin_r a x). pose proof (Rmax_l b x). pose proof (Rmax_r b x).
  split; [now apply Rmin_glb_lt|]. split; [lra|]. constructor; [lra|].
  revert IH. apply Forall_impl. intros y Hy. lra.
Qed.

Lemma not_converged : (0 < n <= 256)%Z -> 0 <= f < 0.5 -> lo < hi ->
  (forall t, lo <= t <= hi -> 0 < At t) -> 0 < G lo -> 0 < G hi -> G lo <> G hi ->
  exists gd prec alb aub l a t g,
    compute_coefs_spec_order_gdly fuel n gd f prec alb aub lo hi = DOk (ResCode_OK, Some (l, a, t)) /\
    compute_group_delay l n f false = DOk g /\ Rabs (g - gd) > prec.
Proof.
  intros Hn Hf Hlh HAt HGl HGh HG.
  destruct (avoid_list (map G (mids 1000 lo hi)) (Rmin (G lo) (G hi)) (Rmax (G lo) (G hi))) as (gd & Hg & prec & Hp & F).
  { unfold Rmin, Rmax. destruct Rle_dec; lra. }
  rewrite Forall_map in F.
  assert (M : forall k lb ub, lo <= lb -> lb < ub -> ub <= hi -> Forall (fun t => lo <= t <= hi) (mids k lb ub)).
  { induction k as [|k IH]; intros lb ub A B C; cbn [mids]; [constructor|]. cbv zeta.
    constructor; [lra|]. apply Forall_app. split; apply IH; lra. }
  destruct (list_bounds (map At (mids 1000 lo hi))) as (alb & aub & B1 & B2 & B3).
  { rewrite Forall_map. generalize (M 1000%nat lo hi ltac:(lra) Hlh ltac:(lra)). apply Forall_impl. intros t Ht. now apply HAt. }
  rewrite Forall_map in B3.
  exists gd, prec, alb, aub.
  destruct (bisect_runs gd prec 1000 hi lo (G lo) 0) as (t & l & T1 & T2 & T3 & T4); try lra; try assumption; try lia.
  exists l, (At t), t, (G t).
  assert (Gt : compute_group_delay l n f false = DOk (G t)).
  { destruct (Hgd t T1) as (l' & El & Eg). rewrite T3 in El. injection El as <-. exact Eg. }
  split; [|split; [exact Gt|]].
  - unfold compute_coefs_spec_order_gdly.
    assert (Hgd0 : 0 < gd) by (destruct Hg as [Hg _]; revert Hg; unfold Rmin; destruct Rle_dec; intros; lra).
    yes; [|lia]. yes; [|lia]. yes; [|lra]. yes; [|lra]. yes; [|lra]. yes; [|lra]. yes; [|lra]. yes; [|lra]. yes; [|lra]. yes; [|lra]. yes; [|lra].
    destruct (Hgd hi ltac:(lra)) as (lh & Eh & Egh). destruct (Hgd lo ltac:(lra)) as (ll & Ell & Egl).
    rewrite Eh. cbn [dbind]. rewrite Ell. cbn [dbind]. rewrite Egh. cbn [dbind]. rewrite Egl. cbn [dbind].
    destruct le_dec as [C|_].
    { exfalso. revert Hg. unfold Rmin, Rmax. destruct Rle_dec; intros; nra. }
    rewrite T4. cbn [dbind]. cbv zeta. cbn [negb andb Z.leb Z.compare Pos.compare Pos.compare_cont].
    rewrite Forall_forall in B3. specialize (B3 t T2).
    destruct lt_dec; [lra|]. destruct gt_dec; [lra|]. reflexivity.
  - rewrite Forall_forall in F. specialize (F t T2). lra.
Qed.
End Search.

(** ** A single coefficient: the loop sums stay near their first term *)
Lemma coef_range_strict k w : 0 < k < 1 -> 0 < w < k ->
  let x := sqrt ((1 - w * k) * (1 - w / k)) / (1 + w) in 0 < x < 1.
Proof.
  intros Hk Hw x.
  assert (Hi : k * / k = 1) by (apply Rinv_r; lra).
  assert (0 < / k) by (apply Rinv_0_lt_compat; lra).
  assert (Hwk : w / k < 1) by (unfold Rdiv; nra).
  assert (Hp : 0 < (1 - w * k) * (1 - w / k)) by (apply Rmult_lt_0_compat; nra).
  assert (Hs := sqrt_lt_R0 _ Hp).
  assert (Hs1 : sqrt ((1 - w * k) * (1 - w / k)) < sqrt 1).
  { apply sqrt_lt_1_alt. split; [lra|].
    assert (0 < w / k) by (unfold Rdiv; nra). assert (0 < w * k) by nra. nra. }
  rewrite sqrt_1 in Hs1.
  unfold x. set (s := sqrt _) in *. split.
  - apply Rdiv_lt_0_compat; lra.
  - apply (Rmult_lt_reg_r (1 + w)); [lra|]. unfold Rdiv. rewrite Rmult_assoc, Rinv_l by lra. lra.
Qed.

(** the group delay at 0 of one section (1 - x) / (1 + x) is 2 x *)
Lemma gd1_zero x : 0 < x < 1 -> gd1 ((1 - x) / (1 + x)) (2 * hiir_PI * 0) false = 2 * x.
Proof.
  intros Hx. unfold gd1. rewrite Rmult_0_r, Rmult_0_r, cos_0. field. split; [lra|].
  intros E. assert (((1 - x) * (1 - x) + 2 * (1 - x) * (1 + x) * 1 + (1 + x) * (1 + x)) = 4) by ring. lra.
Qed.

(** one coefficient, transition bandwidth between 0.1 and 0.2 *)
Lemma q_range t : 0.1 <= t <= 0.2 -> 0.001 <= tq t <= 0.025 /\ 0.2499 <= sqrt (tq t) / tk t <= 0.275 /\ 0.2 <= tk t <= 0.6.
Proof.
  intros H. unfold tq, te, tk, hiir_PI, Rpower. cbv zeta.
  repeat split; interval with (i_bisect t, i_prec 60, i_depth 12).
Qed.

Lemma one_coef fuel t : (23 <= fuel)%nat -> 0.1 <= t <= 0.2 ->
  exists n d, Rabs (n - sin (hiir_PI / 3)) <= 0.0007 /\ Rabs (d + tq t * cos (2 * hiir_PI / 3)) <= 0.000001 /\
  compute_acc_num fuel (tq t) 3 1 = DOk n /\ compute_acc_den fuel (tq t) 3 1 = DOk d.
Proof.
  intros Hf Ht. destruct (q_range t Ht) as (Hq & _ & _). set (q := tq t) in *.
  destruct fuel as [|fuel]; [lia|].
  assert (T : tiny < 0.00001) by (unfold tiny; interval with (i_prec 60)).
  assert (E0 : num_term q 3 1 0 1 = sin (hiir_PI / 3)).
  { unfold num_term. change (Z.to_nat (0 * (0 + 1))) with 0%nat. cbn [pow]. replace (IZR ((0 * 2 + 1) * 1) * hiir_PI / 3) with (hiir_PI / 3) by (cbn; field). ring. }
  assert (E1 : den_term q 3 1 1 (-1) = - (q * cos (2 * hiir_PI / 3))).
  { unfold den_term. change (Z.to_nat (1 * 1)) with 1%nat. cbn [pow]. replace (IZR (1 * 2 * 1) * hiir_PI / 3) with (2 * hiir_PI / 3) by (cbn; field). ring. }
  destruct (num_rest fuel q 3 1 1 (-1) (0 + num_term q 3 1 0 1)) as (n & En & Bn); [lra|lia|lia|lia|].
  destruct (den_rest fuel q 3 1 2 1 (0 + den_term q 3 1 1 (-1))) as (d & Ed & Bd); [lra|lia|lia|lia|].
  exists n, d. rewrite E0 in Bn. rewrite E1 in Bd.
  change (Z.to_nat (1 * (1 + 1))) with 2%nat in Bn. change (Z.to_nat (2 * 2)) with 4%nat in Bd.
  assert (P2 : q ^ 2 <= 0.000626) by (assert (q ^ 2 <= 0.025 ^ 2) by (apply pow_incr; lra); lra).
  assert (P4 : q ^ 4 <= 0.0000004) by (assert (q ^ 4 <= 0.025 ^ 4) by (apply pow_incr; lra); lra).
  replace (n - (0 + sin (hiir_PI / 3))) with (n - sin (hiir_PI / 3)) in Bn by ring.
  replace (d - (0 + - (q * cos (2 * hiir_PI / 3)))) with (d + q * cos (2 * hiir_PI / 3)) in Bd by ring.
  pose proof (Rabs_pos (n - sin (hiir_PI / 3))). pose proof (Rabs_pos (d + q * cos (2 * hiir_PI / 3))).
  split; [nra|]. split; [nra|]. unfold compute_acc_num, compute_acc_den.
  split.
  - yes; [|lia]. yes; [|lia]. rewrite num_step by lia. destruct gt_dec as [_|N]; [exact En|].
    exfalso. apply N. rewrite E0. assert (0.5 < sin (hiir_PI / 3)) by (unfold hiir_PI; interval with (i_prec 60)). rewrite Rabs_pos_eq; lra.
  - yes; [|lia]. yes; [|lia]. rewrite den_step by lia. destruct gt_dec as [_|N]; [exact Ed|].
    exfalso. apply N. rewrite E1. assert (cos (2 * hiir_PI / 3) < -0.4) by (unfold hiir_PI; interval with (i_prec 60)). rewrite Rabs_pos_eq; nra.
Qed.

Definition xw (k w : R) : R := sqrt ((1 - w * k) * (1 - w / k)) / (1 + w).

Lemma one_coef_ok fuel t : (23 <= fuel)%nat -> 0.1 <= t <= 0.2 -> exists n d,
  Rabs (n - sin (hiir_PI / 3)) <= 0.0007 /\ Rabs (d + tq t * cos (2 * hiir_PI / 3)) <= 0.000001 /\
  let v := (n * n) * (sqrt (tq t) / tk t) / ((d + 0.5) * (d + 0.5)) in
  0.7 < v < 0.85 /\ let x := xw (tk t) (v * tk t) in 0 < x < 1 /\
  compute_coefs_spec_order_tbw fuel 1 t = DOk [(1 - x) / (1 + x)].
Proof.
  intros Hf Ht. destruct (one_coef fuel t Hf Ht) as (n & d & Bn & Bd & En & Ed).
  exists n, d. split; [exact Bn|]. split; [exact Bd|].
  destruct (q_range t Ht) as (Hq & Hr & Hk).
  assert (Nn : 0.8653 <= n <= 0.8668).
  { assert (0.86602 < sin (hiir_PI / 3) < 0.86603) by (split; unfold hiir_PI; interval with (i_prec 60)). apply Rabs_le_inv in Bn. lra. }
  assert (Nd : 0.0004 <= d <= 0.0126).
  { assert (-0.50001 < cos (2 * hiir_PI / 3) < -0.49999) by (split; unfold hiir_PI; interval with (i_prec 60)). apply Rabs_le_inv in Bd. nra. }
  set (s := sqrt (tq t) / tk t) in *. cbv zeta.
  set (v := n * n * s / ((d + 0.5) * (d + 0.5))).
  assert (Hv : 0.7 < v < 0.85).
  { unfold v. clearbody s. split; interval with (i_prec 60). }
  split; [exact Hv|].
  assert (Hx : 0 < xw (tk t) (v * tk t) < 1).
  { apply coef_range_strict; [lra|]. split; nra. }
  split; [exact Hx|].
  unfold compute_coefs_spec_order_tbw. yes; [|lia]. yes; [|lra]. yes; [|lra].
  rewrite transition_ok by lra. cbn [dbind]. change (Z.to_nat 1) with 1%nat. cbn [coef_loop]. change (1 * 2 + 1)%Z with 3%Z.
  unfold compute_coef. yes; [|lia]. yes; [|lia]. cbv zeta. change (0 + 1)%Z with 1%Z.
  rewrite En. cbn [dbind]. rewrite Ed. cbn [dbind].
  unfold need at 1. destruct Rneq_dec as [_|N]; [|exfalso; apply N; lra].
  assert (Ew : n * Rpower (tq t) 0.25 / (d + 0.5) * (n * Rpower (tq t) 0.25 / (d + 0.5)) = v * tk t).
  { assert (S : Rpower (tq t) 0.25 * Rpower (tq t) 0.25 = sqrt (tq t)).
    { rewrite <- Rpower_plus. replace (0.25 + 0.25) with (/ 2) by lra. apply Rpower_sqrt. lra. }
    unfold v, s. rewrite <- S. field. lra. }
  rewrite Ew. fold (xw (tk t) (v * tk t)).
  unfold need. destruct ge_dec as [_|N].
  - reflexivity.
  - exfalso. apply N. left.
    assert (v * tk t / tk t = v) by (field; lra). rewrite H. nra.
Qed.

Lemma at_01 : 0.527 < tk 0.1 < 0.529 /\ 0.0202 < tq 0.1 < 0.0208 /\ 0.2695 < sqrt (tq 0.1) / tk 0.1.
Proof. unfold tq, te, tk, hiir_PI, Rpower. cbv zeta. repeat split; interval with (i_prec 60). Qed.
Lemma at_02 : 0.259 < tk 0.2 < 0.26 /\ 0.004 < tq 0.2 < 0.0045 /\ 0.25 < sqrt (tq 0.2) / tk 0.2 < 0.256.
Proof. unfold tq, te, tk, hiir_PI, Rpower. cbv zeta. repeat split; interval with (i_prec 60). Qed.

Lemma one_coef_gd fuel t : (23 <= fuel)%nat -> 0.1 <= t <= 0.2 -> exists x, 0 < x < 1 /\
  compute_coefs_spec_order_tbw fuel 1 t = DOk [(1 - x) / (1 + x)] /\
  compute_group_delay [(1 - x) / (1 + x)] 1 0 false = DOk (2 * x) /\
  (t = 0.1 -> x < 0.35) /\ (t = 0.2 -> 0.36 < x).
Proof.
  intros Hf Ht. destruct (one_coef_ok fuel t Hf Ht) as (n & d & Bn & Bd & Hv & Hx & E). cbv zeta in *.
  destruct (q_range t Ht) as (Hq & Hr & Hk).
  set (v := n * n * (sqrt (tq t) / tk t) / ((d + 0.5) * (d + 0.5))) in *.
  exists (xw (tk t) (v * tk t)). split; [exact Hx|]. split; [exact E|].
  assert (Ha : 0 <= (1 - xw (tk t) (v * tk t)) / (1 + xw (tk t) (v * tk t)) <= 1).
  { set (x := xw _ _) in *. split; [apply Rmult_le_pos; [lra|left; apply Rinv_0_lt_compat; lra]|].
    apply (Rmult_le_reg_r (1 + x)); [lra|]. unfold Rdiv. rewrite Rmult_assoc, Rinv_l by lra. lra. }
  split.
  { change 1%Z with (Z.of_nat (length [(1 - xw (tk t) (v * tk t)) / (1 + xw (tk t) (v * tk t))])).
    rewrite group_delay_ok; [|cbn; lia|lra|constructor; [exact Ha|constructor]].
    cbn [evens map sum_list]. rewrite gd1_zero by assumption. f_equal. ring. }
  assert (Nn : 0.8653 <= n <= 0.8668).
  { assert (0.86602 < sin (hiir_PI / 3) < 0.86603) by (split; unfold hiir_PI; interval with (i_prec 60)). apply Rabs_le_inv in Bn. lra. }
  assert (Nd : Rabs (d - tq t * 0.5) <= 0.00001).
  { assert (-0.50001 < cos (2 * hiir_PI / 3) < -0.49999) by (split; unfold hiir_PI; interval with (i_prec 60)).
    apply Rabs_le. apply Rabs_le_inv in Bd. nra. }
  assert (Ev : v * tk t / tk t = v) by (field; lra).
  unfold xw. rewrite Ev. split; intros ->.
  - destruct at_01 as (K & Q & S1).
    apply Rabs_le_inv in Nd.
    assert (Vd : 0.72 < v).
    { unfold v. clear Ht Hv Hx Hk Hr Hq Ev E.
      set (s := sqrt (tq 0.1) / tk 0.1) in *. assert (0.51 < d + 0.5 < 0.5105) by lra. set (e := d + 0.5) in *. clearbody e s. clear - Nn S1 H. interval with (i_prec 60). }
    clearbody v. clear - Hv Vd K. set (k := tk 0.1) in *. clearbody k. interval with (i_prec 60).
  - destruct at_02 as (K & Q & S1).
    apply Rabs_le_inv in Nd.
    assert (Vd : v < 0.77).
    { unfold v. clear Ht Hv Hx Hk Hr Hq Ev E.
      set (s := sqrt (tq 0.2) / tk 0.2) in *. assert (0.5019 < d + 0.5 < 0.503) by lra. set (e := d + 0.5) in *.
      assert (0.2 < s) by lra. clearbody e s. clear - Nn S1 H H0. interval with (i_prec 60). }
    clearbody v. clear - Hv Vd K. set (k := tk 0.2) in *. clearbody k. interval with (i_prec 60).
Qed.

Lemma gdly_not_converged fuel : (23 <= fuel)%nat -> exists gd prec alb aub l a t g,
    compute_coefs_spec_order_gdly fuel 1 gd 0 prec alb aub 0.1 0.2 = DOk (ResCode_OK, Some (l, a, t)) /\
    compute_group_delay l 1 0 false = DOk g /\ Rabs (g - gd) > prec.
Proof.
  intros Hf.
  set (G := fun t => match compute_coefs_spec_order_tbw fuel 1 t with
                     | DOk l => match compute_group_delay l 1 0 false with DOk g => g | _ => 0 end | _ => 0 end).
  assert (HG : forall t, 0.1 <= t <= 0.2 -> exists l, compute_coefs_spec_order_tbw fuel 1 t = DOk l /\ compute_group_delay l 1 0 false = DOk (G t)).
  { intros t Ht. destruct (one_coef_gd fuel t Hf Ht) as (x & _ & E1 & E2 & _). eexists. split; [exact E1|].
    unfold G. rewrite E1, E2. reflexivity. }
  assert (G1 : 0 < G 0.1 < 0.7).
  { destruct (one_coef_gd fuel 0.1 Hf ltac:(lra)) as (x & Hx & E1 & E2 & B & _). unfold G. rewrite E1, E2. specialize (B eq_refl). lra. }
  assert (G2 : 0.72 < G 0.2).
  { destruct (one_coef_gd fuel 0.2 Hf ltac:(lra)) as (x & Hx & E1 & E2 & _ & B). unfold G. rewrite E1, E2. specialize (B eq_refl). lra. }
  apply (not_converged fuel 1 0 G (fun t => atten_of (tq t) 3) 0.1 0.2); try lra; try lia.
  - intros t Ht. apply (atten_from_order_ok 1 t); [lia|lra].
  - exact HG.
  - intros t Ht. apply atten_pos.
Qed.

(** FAIL_CONV is only ever returned after convergence *)
Lemma fail_conv_converged fuel n gd f prec alb aub tlb tub l a t :
  compute_coefs_spec_order_gdly fuel n gd f prec alb aub tlb tub = DOk (ResCode_FAIL_CONV, Some (l, a, t)) ->
  exists g, compute_group_delay l n f false = DOk g /\ Rabs (g - gd) <= prec.
Proof.
  unfold compute_coefs_spec_order_gdly, dassert. intros H.
  repeat match type of H with (if ?d then _ else _) = _ => destruct d; [|discriminate] end.
  destruct compute_coefs_spec_order_tbw as [l1| | |]; try discriminate. cbn [dbind] in H.
  destruct compute_coefs_spec_order_tbw as [l2| | |]; try discriminate. cbn [dbind] in H.
  destruct compute_group_delay as [g1| | |]; try discriminate. cbn [dbind] in H.
  destruct compute_group_delay as [g2| | |]; try discriminate. cbn [dbind] in H.
  destruct le_dec; [discriminate|].
  destruct bisect as [p| | |] eqn:E; try discriminate. destruct p as [[[[[tbw at_] lr] gr] ni] cf].
  cbn [dbind] in H. cbv zeta in H. apply bisect_inv in E. destruct E as (E1 & E2 & _).
  destruct (Z.leb 1000 ni && negb cf) eqn:Ec.
  - injection H as <- _ _. exists gr. split; [exact E1|]. apply andb_prop in Ec. destruct Ec as [_ Ec].
    destruct cf; [discriminate|]. destruct (Rle_or_lt (Rabs (gr - gd)) prec) as [L|L]; [exact L|].
    exfalso. assert (false = true) by (apply E2; lra). discriminate.
  - destruct lt_dec; [discriminate|]. destruct gt_dec; discriminate.
Qed.

(** a documented frequency that is not accepted *)
Lemma gdly_f_rel fuel n gd f prec alb aub tlb tub r : 0.5 <= f ->
  compute_coefs_spec_order_gdly fuel n gd f prec alb aub tlb tub <> DOk r.
Proof.
  intros Hf H. unfold compute_coefs_spec_order_gdly, dassert in H.
  repeat match type of H with (if ?d then _ else _) = _ => destruct d; [|discriminate] end.
  destruct compute_coefs_spec_order_tbw as [l1| | |]; try discriminate. cbn [dbind] in H.
  destruct compute_coefs_spec_order_tbw as [l2| | |]; try discriminate. cbn [dbind] in H.
  unfold compute_group_delay at 1 in H. unfold dassert in H.
  repeat match type of H with dbind (if ?d then _ else _) _ = _ => destruct d; [|discriminate] end. lra.
Qed.

(** for smaller frequencies no assert fails *)
Lemma gdly_no_abort fuel n gd f prec alb aub tlb tub : (23 <= fuel)%nat -> (0 < n <= 256)%Z -> 0 < gd -> 0 <= f < 0.5 -> 0 < prec ->
  0 < alb < aub -> 0 < tlb < tub -> tub < 0.5 ->
  nan_or (fun _ => True) (compute_coefs_spec_order_gdly fuel n gd f prec alb aub tlb tub).
Proof.
  intros Hf Hn Hg Hfr Hp Ha Ht Hu. unfold compute_coefs_spec_order_gdly.
  yes; [|lia]. yes; [|lia]. yes; [|lra]. yes; [|lra]. yes; [|lra]. yes; [|lra]. yes; [|lra]. yes; [|lra]. yes; [|lra]. yes; [|lra]. yes; [|lra].
  assert (GD : forall t (k : list R -> dres (rescode * option (list R * R * R))), 0 < t < 0.5 ->
    (forall l, length l = Z.to_nat n -> Forall (fun a => 0 <= a <= 1) l -> nan_or (fun _ => True) (k l)) ->
    nan_or (fun _ => True) (dbind (compute_coefs_spec_order_tbw fuel n t) k)).
  { intros t k Ht' Hk. pose proof (coefs_spec_order_ok fuel n t Hf ltac:(lia) Ht') as C.
    destruct compute_coefs_spec_order_tbw; cbn [dbind nan_or] in *; try easy. now apply Hk. }
  apply GD; [lra|]. intros l1 L1 F1. apply GD; [lra|]. intros l2 L2 F2.
  assert (Gd : forall l, length l = Z.to_nat n -> Forall (fun a => 0 <= a <= 1) l -> exists g, compute_group_delay l n f false = DOk g).
  { intros lx L F. replace n with (Z.of_nat (length lx)) by lia. rewrite group_delay_ok; [eauto|lia|assumption|assumption]. }
  destruct (Gd l1 L1 F1) as [g1 ->]. cbn [dbind]. destruct (Gd l2 L2 F2) as [g2 ->]. cbn [dbind].
  destruct le_dec; [exact I|].
  assert (B : forall it ub lb lbg ni, 0 < lb -> lb < ub -> ub < 0.5 -> (ni + Z.of_nat it = 1000)%Z -> (0 < it)%nat ->
    nan_or (fun _ => True) (bisect fuel n gd f prec it ub lb lbg ni)).
  { induction it as [|it IH]; intros ub lb lbg ni B1 B2 B3 B4 B5; [lia|].
    cbn [bisect]. cbv zeta. set (m := (ub + lb) * 0.5). assert (Hm : lb < m < ub) by (unfold m; lra).
    rewrite atten_from_order_ok by (try lia; lra). cbn [dbind].
    pose proof (coefs_spec_order_ok fuel n m Hf ltac:(lia) ltac:(lra)) as C.
    destruct compute_coefs_spec_order_tbw as [lm| | |]; cbn [dbind nan_or] in *; try easy.
    destruct C as [L F]. destruct (Gd lm L F) as [gm ->]. cbn [dbind].
    destruct gt_dec; cbn [andb]; [|exact I].
    destruct (Z.ltb_spec (ni + 1) 1000); [|exact I].
    destruct lt_dec; apply IH; try lra; try lia. }
  specialize (B 1000%nat tub tlb g2 0%Z ltac:(lra) ltac:(lra) ltac:(lra) ltac:(lia) ltac:(lia)).
  destruct bisect as [p| | |]; cbn [dbind nan_or] in *; try easy.
  destruct p as [[[[[tbw at_] lr] gr] ni] cf]. exact I.
Qed.
