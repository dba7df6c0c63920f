(** * Facts about the model of the filter design code *)
From Coq Require Import ZArith Reals List Lia Lra Psatz Bool.
From Flocq Require Import Core.
From Interval Require Import Tactic.
From Verif Require Import DesignerModel.
Import ListNotations.
Open Scope R_scope.

(** ** ipowp *)
Lemma land1 n : Z.land n 1 = (n mod 2)%Z.
Proof. change 1%Z with (Z.ones 1). rewrite Z.land_ones by lia. reflexivity. Qed.

Lemma ipowp_loop_ok fuel : forall x z n, (0 <= n < 2 ^ Z.of_nat fuel)%Z ->
  ipowp_loop Rmult fuel x z n = DOk (z * x ^ Z.to_nat n).
Proof.
  induction fuel as [|f IH]; intros x z n H.
  - replace n with 0%Z by (cbn in H; lia). cbn. f_equal. ring.
  - cbn [ipowp_loop]. destruct (Z.eqb_spec n 0) as [->|Hn]; [cbn; f_equal; ring|].
    rewrite Nat2Z.inj_succ, Z.pow_succ_r in H by lia.
    rewrite land1, Z.shiftr_div_pow2, Z.pow_1_r by lia.
    assert (Hd := Z_div_mod_eq_full n 2). assert (Hm := Z.mod_pos_bound n 2 eq_refl).
    rewrite IH by (split; [apply Z.div_pos; lia | apply Z.div_lt_upper_bound; lia]).
    f_equal.
    assert (Hp : x ^ Z.to_nat n = (if Z.eqb (n mod 2) 0 then 1 else x) * (x * x) ^ Z.to_nat (n / 2)).
    { rewrite Hd at 1. assert (0 <= n / 2)%Z by (apply Z.div_pos; lia).
      rewrite Z2Nat.inj_add, Z2Nat.inj_mul by lia. change (Z.to_nat 2) with 2%nat.
      rewrite pow_add, pow_mult. replace (x ^ 2) with (x * x) by ring.
      destruct (Z.eqb_spec (n mod 2) 0) as [E|E]; [rewrite E; change (Z.to_nat 0) with 0%nat; cbn [pow]; ring|].
      replace (n mod 2)%Z with 1%Z by lia. change (Z.to_nat 1) with 1%nat. cbn [pow]. ring. }
    rewrite Hp. destruct (Z.eqb (n mod 2) 0); ring.
Qed.

Lemma ipow_ok x n : (0 <= n < 2 ^ 63)%Z -> ipow x n = DOk (x ^ Z.to_nat n).
Proof.
  intros H. unfold ipow, ipowp, dassert. destruct Z_ge_dec; [|lia].
  rewrite ipowp_loop_ok; [f_equal; ring|]. change (Z.of_nat 64) with 64%Z. lia.
Qed.

Lemma ipow_neg x n : (n < 0)%Z -> ipow x n = DBad.
Proof. intros H. unfold ipow, ipowp, dassert. destruct Z_ge_dec; [lia|reflexivity]. Qed.

(** ** decisions *)
Ltac yes := match goal with |- context[dassert ?d _] => unfold dassert at 1; destruct d; [|exfalso] end.

Lemma hiir_PI_bounds : 3.14159265358979 < hiir_PI < PI.
Proof. unfold hiir_PI. split; interval with (i_prec 80). Qed.

Lemma ln_mono x y : 0 < x -> x <= y -> ln x <= ln y.
Proof. intros Hx [H|H]; [left; now apply ln_increasing|rewrite H; apply Rle_refl]. Qed.

(** ** compute_transition_param *)
Definition tk (t : R) : R := let k := tan ((1 - t * 2) * hiir_PI / 4) in k * k.
Definition te (t : R) : R :=
  let s := Rpower (1 - tk t * tk t) 0.25 in 0.5 * (1 - s) / (1 + s).
Definition tq (t : R) : R :=
  let e := te t in let e4 := (e * e) * (e * e) in e * (1 + e4 * (2 + e4 * (15 + 150 * e4))).

Lemma tk_bounds t : 0 < t < 0.5 -> 0 < tk t < 1.
Proof.
  intros H. unfold tk. pose proof hiir_PI_bounds as P.
  set (y := (1 - t * 2) * hiir_PI / 4).
  assert (Hy : 0 < y < PI / 4) by (unfold y; split; nra).
  assert (0 < tan y) by (apply tan_gt_0; lra).
  assert (tan y < 1) by (rewrite <- tan_PI4; apply tan_increasing; lra).
  split; nra.
Qed.

Lemma te_bounds t : 0 < t < 0.5 -> 0 < te t < 0.5.
Proof.
  intros H. pose proof (tk_bounds t H) as K. unfold te.
  set (s := Rpower _ _).
  assert (0 < s) by apply exp_pos.
  assert (s < exp 0).
  { unfold s, Rpower. apply exp_increasing.
    assert (ln (1 - tk t * tk t) < 0) by (rewrite <- ln_1; apply ln_increasing; nra). nra. }
  rewrite exp_0 in *. cbv zeta. split; [apply Rdiv_lt_0_compat; nra|].
  apply (Rmult_lt_reg_r (1 + s)); [lra|]. field_simplify; [|lra]. nra.
Qed.

Lemma tq_bounds t : 0 < t < 0.5 -> 0 < tq t < 0.612.
Proof.
  intros H. pose proof (te_bounds t H) as E. unfold tq. cbv zeta.
  set (e := te t) in *.
  assert (E2 : 0 < e * e < 0.25) by nra.
  assert (E4 : 0 < e * e * (e * e) < 0.0625) by nra.
  set (f := e * e * (e * e)) in *. split.
  - apply Rmult_lt_0_compat; nra.
  - assert (1 + f * (2 + f * (15 + 150 * f)) < 1.2203); [interval with (i_prec 60)|]. 
    assert (0 < 1 + f * (2 + f * (15 + 150 * f))) by nra. nra.
Qed.

Lemma transition_ok t : 0 < t < 0.5 -> compute_transition_param t = DOk (tk t, tq t).
Proof.
  intros H. pose proof (tk_bounds t H) as K. pose proof (tq_bounds t H) as Q.
  unfold compute_transition_param.
  yes; [|lra]. yes; [|lra]. cbv zeta. fold (tk t).
  change (tan ((1 - t * 2) * hiir_PI / 4) * tan ((1 - t * 2) * hiir_PI / 4)) with (tk t).
  yes; [|lra]. yes; [|lra]. 
  change (dassert (gt_dec (tq t) 0) (DOk (tk t, tq t)) = DOk (tk t, tq t)). yes; [|lra]. reflexivity.
Qed.

(** ** the attenuation reached by an order, and the order needed *)
(** in dB: -10 log10 (a / (1 + a)) with a = 4 q^(N/2) *)
Definition atten_of (q : R) (order : Z) : R :=
  let a := 4 * exp (IZR order * 0.5 * ln q) in -10 * log10 (a / (1 + a)).

Lemma ln10 : 2.3 < ln 10.
Proof. interval with (i_prec 60). Qed.

Lemma atten_pos q order : 0 < atten_of q order.
Proof.
  unfold atten_of, log10. cbv zeta. set (a := 4 * exp _).
  assert (0 < a) by (apply Rmult_lt_0_compat; [lra|apply exp_pos]).
  assert (a / (1 + a) < 1) by (apply (Rmult_lt_reg_r (1 + a)); [lra|]; field_simplify; lra).
  assert (0 < a / (1 + a)) by (apply Rdiv_lt_0_compat; lra).
  assert (ln (a / (1 + a)) < 0) by (rewrite <- ln_1; apply ln_increasing; lra).
  pose proof ln10. assert (0 < / ln 10) by (apply Rinv_0_lt_compat; lra).
  unfold Rdiv at 1. nra.
Qed.

Lemma compute_atten_ok q order : 0 < q -> (0 < order)%Z -> Z.odd order = true ->
  compute_atten q order = DOk (atten_of q order).
Proof.
  intros Hq Ho Hodd. unfold compute_atten.
  yes; [|lra]. yes; [|lia]. yes; [|]. 2:{ rewrite land1, Zmod_odd, Hodd in n. now apply n. }
  cbv zeta. yes. 2:{ apply n. pose proof (exp_pos (IZR order * 0.5 * ln q)). lra. }
  fold (atten_of q order). change (-10 * log10 _) with (atten_of q order).
  pose proof (atten_pos q order). yes; [|lra]. reflexivity.
Qed.

(** attenuation [att] is reached by order N iff N >= ln (a^2/16) / ln q *)
Definition order_bound (att q : R) : R :=
  let p := Rpower 10 (- att / 10) in let a := p / (1 - p) in ln (a * a / 16) / ln q.

Lemma atten_iff att q order : 0 < att -> 0 < q < 1 ->
  (att <= atten_of q order <-> order_bound att q <= IZR order).
Proof.
  intros Ha Hq. pose proof ln10 as L10.
  set (p := Rpower 10 (- att / 10)).
  assert (Hp0 : 0 < p) by apply exp_pos.
  assert (Hp1 : p < exp 0).
  { unfold p, Rpower. apply exp_increasing. nra. }
  rewrite exp_0 in Hp1.
  unfold order_bound. fold p. cbv zeta. set (a := p / (1 - p)).
  assert (Ha0 : 0 < a) by (apply Rdiv_lt_0_compat; lra).
  assert (Lq : ln q < 0) by (rewrite <- ln_1; apply ln_increasing; lra).
  set (b := 4 * exp (IZR order * 0.5 * ln q)).
  assert (Hb : 0 < b) by (apply Rmult_lt_0_compat; [lra|apply exp_pos]).
  assert (Hab : b <= a <-> order_bound att q <= IZR order).
  { unfold order_bound. fold p. cbv zeta. fold a.
    assert (La : ln (a * a / 16) = 2 * ln (a / 4)).
    { replace (a * a / 16) with ((a / 4) * (a / 4)) by field. rewrite ln_mult by lra. ring. }
    rewrite La.
    assert (Lb : b <= a <-> IZR order * 0.5 * ln q <= ln (a / 4)).
    { unfold b. split; intros H.
      - rewrite <- (ln_exp (IZR order * 0.5 * ln q)). apply ln_mono; [apply exp_pos|lra].
      - assert (exp (IZR order * 0.5 * ln q) <= exp (ln (a / 4))) by
          (destruct H as [H|H]; [left; now apply exp_increasing|rewrite H; lra]).
        rewrite exp_ln in H0 by lra. lra. }
    rewrite Lb. split; intros H.
    - apply (Rmult_le_reg_r (- ln q)); [lra|]. unfold Rdiv at 1.
      replace (2 * ln (a / 4) * / ln q * - ln q) with (- (2 * ln (a / 4))) by (field; lra).
      replace (IZR order * - ln q) with (- 2 * (IZR order * 0.5 * ln q)) by lra. lra.
    - apply (Rmult_le_compat_r (- ln q)) in H; [|lra]. unfold Rdiv in H at 1.
      replace (2 * ln (a / 4) * / ln q * - ln q) with (- (2 * ln (a / 4))) in H by (field; lra).
      replace (IZR order * - ln q) with (- 2 * (IZR order * 0.5 * ln q)) in H by lra. lra. }
  unfold order_bound in Hab. fold p in Hab. cbv zeta in Hab. fold a in Hab. rewrite <- Hab. clear Hab.
  unfold atten_of. cbv zeta. fold b. unfold log10.
  assert (Hr : 0 < b / (1 + b)) by (apply Rdiv_lt_0_compat; lra).
  assert (Hr2 : b / (1 + b) <= p <-> b <= a).
  { unfold a. split; intros H.
    - apply (Rmult_le_compat_r (1 + b)) in H; [|lra].
      unfold Rdiv in H. rewrite Rmult_assoc, Rinv_l, Rmult_1_r in H by lra.
      apply (Rmult_le_reg_r (1 - p)); [lra|].
      unfold Rdiv. rewrite Rmult_assoc, Rinv_l, Rmult_1_r by lra. nra.
    - apply (Rmult_le_compat_r (1 - p)) in H; [|lra].
      unfold Rdiv in H. rewrite Rmult_assoc, Rinv_l, Rmult_1_r in H by lra.
      apply (Rmult_le_reg_r (1 + b)); [lra|].
      unfold Rdiv. rewrite Rmult_assoc, Rinv_l, Rmult_1_r by lra. nra. }
  rewrite <- Hr2.
  assert (Lp : ln p = - att / 10 * ln 10) by (unfold p, Rpower; now rewrite ln_exp).
  split; intros H.
  - destruct (Rle_or_lt (b / (1 + b)) p) as [H'|H']; [exact H'|exfalso].
    apply ln_increasing in H'; [|lra]. rewrite Lp in H'.
    apply (Rmult_le_compat_r (ln 10)) in H; [|lra].
    unfold Rdiv in H at 1. replace (-10 * (ln (b / (1 + b)) * / ln 10) * ln 10) with (-10 * ln (b / (1 + b))) in H by (field; lra). lra.
  - assert (H' : ln (b / (1 + b)) <= ln p) by now apply ln_mono. rewrite Lp in H'.
    apply (Rmult_le_reg_r (ln 10)); [lra|].
    unfold Rdiv at 1. replace (-10 * (ln (b / (1 + b)) * / ln 10) * ln 10) with (-10 * ln (b / (1 + b))) by (field; lra). lra.
Qed.

(** the order: the least odd number not below the bound, 3 if that is 1 *)
Definition least_odd (v : R) (o : Z) : Prop :=
  Z.odd o = true /\ v <= IZR o /\ forall o', Z.odd o' = true -> v <= IZR o' -> (o <= o')%Z.

Lemma compute_order_ok att q : 0 < att -> 0 < q ->
  exists o, least_odd (order_bound att q) o /\
    compute_order att q = DOk (if Z.eqb o 1 then 3%Z else o).
Proof.
  intros Ha Hq. unfold compute_order.
  yes; [|lra]. yes; [|lra]. cbv zeta.
  change (ln (Rpower 10 (- att / 10) / (1 - Rpower 10 (- att / 10)) *
              (Rpower 10 (- att / 10) / (1 - Rpower 10 (- att / 10))) / 16) / ln q) with (order_bound att q).
  unfold ceil_int. set (v := order_bound att q). clearbody v.
  assert (Hc : v <= IZR (Zceil v)) by apply Zceil_ub.
  assert (Hl : forall o', v <= IZR o' -> (Zceil v <= o')%Z) by (intros o' H; now apply Zceil_glb).
  set (c := Zceil v) in *. clearbody c.
  rewrite land1. rewrite Zmod_odd. destruct (Z.odd c) eqn:E; cbn [Z.eqb].
  - exists c. repeat split; auto.
  - exists (c + 1)%Z. repeat split; auto.
    + rewrite Z.odd_add, E. reflexivity.
    + rewrite plus_IZR. lra.
    + intros o' Ho' H. specialize (Hl o' H). assert (c <> o') by congruence. lia.
Qed.

(** compute_nbr_coefs_from_proto: the least sufficient number of coefficients *)
Lemma nbr_coefs_ok att t : 0 < att -> 0 < t < 0.5 ->
  exists o, least_odd (order_bound att (tq t)) o /\
    compute_nbr_coefs_from_proto att t = DOk (Z.quot ((if Z.eqb o 1 then 3 else o) - 1) 2)%Z.
Proof.
  intros Ha Ht. pose proof (tq_bounds t Ht) as Q. unfold compute_nbr_coefs_from_proto.
  yes; [|lra]. yes; [|lra]. yes; [|lra]. rewrite transition_ok by assumption. cbn [dbind].
  destruct (compute_order_ok att (tq t)) as (o & Ho & E); [lra|lra|].
  exists o. split; [assumption|]. rewrite E. reflexivity.
Qed.

Lemma atten_from_order_ok n t : (0 < n)%Z -> 0 < t < 0.5 ->
  compute_atten_from_order_tbw n t = DOk (atten_of (tq t) (n * 2 + 1)).
Proof.
  intros Hn Ht. pose proof (tq_bounds t Ht) as Q. unfold compute_atten_from_order_tbw.
  yes; [|lia]. yes; [|lra]. yes; [|lra]. rewrite transition_ok by assumption. cbn [dbind].
  apply compute_atten_ok; [lra|lia|]. rewrite Z.odd_add, Z.odd_mul, Bool.andb_false_r. reflexivity.
Qed.

Lemma nbr_coefs_minimal att t n : 0 < att -> 0 < t < 0.5 ->
  compute_nbr_coefs_from_proto att t = DOk n -> (0 < n)%Z ->
  att <= atten_of (tq t) (n * 2 + 1) /\
  forall m, (0 < m < n)%Z -> atten_of (tq t) (m * 2 + 1) < att.
Proof.
  intros Ha Ht E Hn. pose proof (tq_bounds t Ht) as Q.
  destruct (nbr_coefs_ok att t Ha Ht) as (o & (Ho1 & Ho2 & Ho3) & E'). rewrite E in E'. injection E' as E'.
  assert (Hm : forall m, (m * 2 + 1 < o)%Z -> atten_of (tq t) (m * 2 + 1) < att).
  { intros m H. apply Rnot_le_lt. rewrite atten_iff by lra. intros C.
    apply Ho3 in C; [lia|]. rewrite Z.odd_add, Z.odd_mul, Bool.andb_false_r. reflexivity. }
  rewrite atten_iff by lra.
  destruct (Z.eqb_spec o 1) as [->|No].
  - change (Z.quot (3 - 1) 2) with 1%Z in E'. subst n. split; [|intros; lia].
    eapply Rle_trans; [exact Ho2|]. apply IZR_le. lia.
  - assert (Hq : (o = n * 2 + 1)%Z).
    { apply Z.odd_spec in Ho1. destruct Ho1 as [h ->]. replace (2 * h + 1 - 1)%Z with (h * 2)%Z in E' by lia.
      rewrite Z.quot_mul in E' by lia. lia. }
    rewrite <- Hq. split; [assumption|]. intros m H. apply Hm. lia.
Qed.

(** ** the sums of compute_acc_num and compute_acc_den *)
Definition tiny : R := / 10 ^ 100.
Definition num_term (q : R) (order c i j : Z) : R :=
  q ^ Z.to_nat (i * (i + 1)) * (sin (IZR ((i * 2 + 1) * c) * hiir_PI / IZR order) * IZR j).
Definition den_term (q : R) (order c i j : Z) : R :=
  q ^ Z.to_nat (i * i) * (cos (IZR (i * 2 * c) * hiir_PI / IZR order) * IZR j).

Lemma num_step f q order c i j acc : (0 <= i < 2 ^ 20)%Z ->
  acc_num_loop (S f) q order c i j acc =
  if gt_dec (Rabs (num_term q order c i j)) tiny
  then acc_num_loop f q order c (i + 1) (- j) (acc + num_term q order c i j)
  else DOk (acc + num_term q order c i j).
Proof. intros H. cbn [acc_num_loop]. rewrite ipow_ok by nia. reflexivity. Qed.

Lemma den_step f q order c i j acc : (0 <= i < 2 ^ 20)%Z ->
  acc_den_loop (S f) q order c i j acc =
  if gt_dec (Rabs (den_term q order c i j)) tiny
  then acc_den_loop f q order c (i + 1) (- j) (acc + den_term q order c i j)
  else DOk (acc + den_term q order c i j).
Proof. intros H. cbn [acc_den_loop]. rewrite ipow_ok by nia. reflexivity. Qed.

Lemma term_bound q n s (j : Z) : 0 <= q -> (Z.abs j = 1)%Z -> -1 <= s <= 1 -> Rabs (q ^ n * (s * IZR j)) <= q ^ n.
Proof.
  intros Hq Hj Hs. assert (0 <= q ^ n) by now apply pow_le.
  rewrite Rabs_mult, (Rabs_pos_eq (q ^ n)) by assumption.
  assert (Rabs (s * IZR j) <= 1).
  { assert (j = 1 \/ j = -1)%Z as [->| ->] by lia; apply Rabs_le; lra. }
  nra.
Qed.

Lemma num_term_bound q order c i j : 0 <= q -> (Z.abs j = 1)%Z ->
  Rabs (num_term q order c i j) <= q ^ Z.to_nat (i * (i + 1)).
Proof. intros Hq Hj. apply term_bound; auto. apply SIN_bound. Qed.
Lemma den_term_bound q order c i j : 0 <= q -> (Z.abs j = 1)%Z ->
  Rabs (den_term q order c i j) <= q ^ Z.to_nat (i * i).
Proof. intros Hq Hj. apply term_bound; auto. apply COS_bound. Qed.

Lemma pow_mono q a b : 0 <= q <= 1 -> (a <= b)%nat -> q ^ b <= q ^ a.
Proof.
  intros Hq H. replace b with (a + (b - a))%nat by lia. rewrite pow_add.
  assert (0 <= q ^ a) by (apply pow_le; lra).
  assert (q ^ (b - a) <= 1) by (rewrite <- (pow1 (b - a)); apply pow_incr; lra).
  nra.
Qed.

Lemma small_pow q n : 0 <= q < 0.612 -> (484 <= n)%nat -> q ^ n <= tiny.
Proof.
  intros Hq H. apply Rle_trans with (q ^ 484); [apply pow_mono; [lra|lia]|].
  apply Rle_trans with (0.612 ^ 484); [apply pow_incr; lra|]. unfold tiny. interval with (i_prec 60).
Qed.

(** the rest of a sum from index [i] on: it ends and stays small *)
Lemma num_rest f : forall q order c i j acc, 0 <= q < 0.612 -> (Z.abs j = 1)%Z ->
  (0 <= i <= 22)%Z -> (22 < i + Z.of_nat f)%Z ->
  exists r, acc_num_loop f q order c i j acc = DOk r /\ Rabs (r - acc) * (1 - q) <= q ^ Z.to_nat (i * (i + 1)).
Proof.
  induction f as [|f IH]; intros q order c i j acc Hq Hj Hi Hf; [lia|].
  rewrite num_step by lia.
  pose proof (num_term_bound q order c i j (proj1 Hq) Hj) as B.
  set (x := num_term q order c i j) in *.
  assert (Hp : 0 <= q ^ Z.to_nat (i * (i + 1))) by (apply pow_le; lra).
  pose proof (Rabs_pos x) as Hx.
  destruct (gt_dec (Rabs x) tiny) as [Hgt|Hle].
  - assert (Hi' : (i < 22)%Z).
    { assert (i <> 22)%Z; [|lia]. intros ->.
      assert (q ^ Z.to_nat (22 * (22 + 1)) <= tiny) by (apply small_pow; [lra|]; lia). lra. }
    destruct (IH q order c (i + 1)%Z (- j)%Z (acc + x)) as (r & Er & Br); [lra|lia|lia|lia|].
    exists r. split; [exact Er|].
    assert (q ^ Z.to_nat ((i + 1) * (i + 1 + 1)) <= q ^ Z.to_nat (i * (i + 1)) * q).
    { replace (q ^ Z.to_nat (i * (i + 1)) * q) with (q ^ (S (Z.to_nat (i * (i + 1))))) by (cbn [pow]; ring).
      apply pow_mono; [lra|]. nia. }
    replace (r - acc) with ((r - (acc + x)) + x) by ring.
    pose proof (Rabs_triang (r - (acc + x)) x).
    assert (0 < 1 - q) by lra. nra.
  - exists (acc + x). split; [reflexivity|]. replace (acc + x - acc) with x by ring. nra.
Qed.

Lemma den_rest f : forall q order c i j acc, 0 <= q < 0.612 -> (Z.abs j = 1)%Z ->
  (0 <= i <= 22)%Z -> (22 < i + Z.of_nat f)%Z ->
  exists r, acc_den_loop f q order c i j acc = DOk r /\ Rabs (r - acc) * (1 - q) <= q ^ Z.to_nat (i * i).
Proof.
  induction f as [|f IH]; intros q order c i j acc Hq Hj Hi Hf; [lia|].
  rewrite den_step by lia.
  pose proof (den_term_bound q order c i j (proj1 Hq) Hj) as B.
  set (x := den_term q order c i j) in *.
  assert (Hp : 0 <= q ^ Z.to_nat (i * i)) by (apply pow_le; lra).
  pose proof (Rabs_pos x) as Hx.
  destruct (gt_dec (Rabs x) tiny) as [Hgt|Hle].
  - assert (Hi' : (i < 22)%Z).
    { assert (i <> 22)%Z; [|lia]. intros ->.
      assert (q ^ Z.to_nat (22 * 22) <= tiny) by (apply small_pow; [lra|]; lia). lra. }
    destruct (IH q order c (i + 1)%Z (- j)%Z (acc + x)) as (r & Er & Br); [lra|lia|lia|lia|].
    exists r. split; [exact Er|].
    assert (q ^ Z.to_nat ((i + 1) * (i + 1)) <= q ^ Z.to_nat (i * i) * q).
    { replace (q ^ Z.to_nat (i * i) * q) with (q ^ (S (Z.to_nat (i * i)))) by (cbn [pow]; ring).
      apply pow_mono; [lra|]. nia. }
    replace (r - acc) with ((r - (acc + x)) + x) by ring.
    pose proof (Rabs_triang (r - (acc + x)) x).
    assert (0 < 1 - q) by lra. nra.
  - exists (acc + x). split; [reflexivity|]. replace (acc + x - acc) with x by ring. nra.
Qed.

(** ** compute_coef *)
Lemma coef_range k w : 0 < k < 1 -> 0 <= w -> 0 <= (1 - w * k) * (1 - w / k) ->
  let x := sqrt ((1 - w * k) * (1 - w / k)) / (1 + w) in 0 <= (1 - x) / (1 + x) <= 1.
Proof.
  intros Hk Hw Ha x.
  assert (Hx0 : 0 <= x) by (apply Rmult_le_pos; [apply sqrt_pos|left; apply Rinv_0_lt_compat; lra]).
  assert (Hx1 : x <= 1).
  { unfold x. apply (Rmult_le_reg_r (1 + w)); [lra|]. unfold Rdiv at 1.
    rewrite Rmult_assoc, Rinv_l, Rmult_1_r, Rmult_1_l by lra.
    rewrite <- (sqrt_square (1 + w)) by lra. apply sqrt_le_1_alt.
    assert (0 < / k) by (apply Rinv_0_lt_compat; lra). unfold Rdiv. 
    assert (k * / k = 1) by (apply Rinv_r; lra).
    replace ((1 - w * k) * (1 - w * / k)) with (1 - w * k - w * / k + w * w * (k * / k)) by ring. nra. }
  split.
  - apply Rmult_le_pos; [lra|left; apply Rinv_0_lt_compat; lra].
  - apply (Rmult_le_reg_r (1 + x)); [lra|]. unfold Rdiv. rewrite Rmult_assoc, Rinv_l by lra. lra.
Qed.

Definition nan_or {X} (P : X -> Prop) (r : dres X) : Prop :=
  match r with DOk x => P x | DNaN => True | DBad => False | DFuel => False end.

Lemma compute_coef_ok fuel index k q order :
  (23 <= fuel)%nat -> (0 <= index)%Z -> (index * 2 < order)%Z -> 0 < k < 1 -> 0 < q < 0.612 ->
  nan_or (fun a => 0 <= a <= 1) (compute_coef fuel index k q order).
Proof.
  intros Hf Hi Ho Hk Hq. unfold compute_coef, compute_acc_num, compute_acc_den.
  yes; [|lia]. yes; [|lia]. cbv zeta.
  yes; [|lia]. yes; [|lia].
  destruct (num_rest fuel q order (index + 1) 0 1 0) as (n & En & _); [lra|lia|lia|lia|]. rewrite En. cbn [dbind].
  destruct (den_rest fuel q order (index + 1) 1 (-1) 0) as (d & Ed & _); [lra|lia|lia|lia|].
  yes; [|lia]. yes; [|lia]. rewrite Ed. cbn [dbind].
  unfold need. destruct Rneq_dec; [|exact I]. destruct ge_dec; [|exact I]. cbn [nan_or].
  apply coef_range; [assumption| |lra]. 
  match goal with |- 0 <= ?x * ?x => pose proof (Rle_0_sqr x) as S; unfold Rsqr in S; lra end.
Qed.

Lemma coef_loop_ok fuel k q order n : forall i,
  (23 <= fuel)%nat -> (0 <= i)%Z -> ((i + Z.of_nat n - 1) * 2 < order)%Z -> 0 < k < 1 -> 0 < q < 0.612 ->
  nan_or (fun l => length l = n /\ Forall (fun a => 0 <= a <= 1) l) (coef_loop fuel n i k q order).
Proof.
  induction n as [|n IH]; intros i Hf Hi Ho Hk Hq; cbn [coef_loop]; [cbn; auto|].
  pose proof (compute_coef_ok fuel i k q order Hf Hi ltac:(lia) Hk Hq) as C.
  destruct (compute_coef fuel i k q order); cbn [dbind nan_or] in *; try easy.
  specialize (IH (i + 1)%Z Hf ltac:(lia) ltac:(lia) Hk Hq).
  destruct coef_loop; cbn [dbind nan_or] in *; try easy.
  destruct IH as [IH1 IH2]. split; [cbn; lia|]. constructor; assumption.
Qed.

Lemma coefs_spec_order_ok fuel n t : (23 <= fuel)%nat -> (0 < n)%Z -> 0 < t < 0.5 ->
  nan_or (fun l => length l = Z.to_nat n /\ Forall (fun a => 0 <= a <= 1) l) (compute_coefs_spec_order_tbw fuel n t).
Proof.
  intros Hf Hn Ht. unfold compute_coefs_spec_order_tbw.
  yes; [|lia]. yes; [|lra]. yes; [|lra]. rewrite transition_ok by assumption. cbn [dbind].
  apply coef_loop_ok; [assumption|lia|lia|now apply tk_bounds|now apply tq_bounds].
Qed.

(** ** compute_group_delay *)
Definition gd1 (a w : R) (ph_flag : bool) : R :=
  2 * (1 - a * a) / (a * a + (if ph_flag then -2 else 2) * a * cos (2 * w) + 1).

Lemma group_delay1_ok a f ph : 0 <= a <= 1 -> 0 <= f < 0.5 ->
  compute_group_delay1 a f ph = DOk (gd1 a (2 * hiir_PI * f) ph).
Proof.
  intros Ha Hf. unfold compute_group_delay1.
  yes; [|lra]. yes; [|lra]. yes; [|lra]. yes; [|lra]. reflexivity.
Qed.

(** the sections of a half: every second coefficient *)
Fixpoint evens {X} (l : list X) : list X :=
  match l with x :: _ :: r => x :: evens r | [x] => [x] | [] => [] end.
Fixpoint sum_list (l : list R) : R := match l with x :: r => x + sum_list r | [] => 0 end.

Lemma nth_error_skip {X} (l : list X) k x : nth_error l k = Some x -> skipn k l = x :: skipn (S k) l.
Proof.
  revert l. induction k as [|k IH]; intros [|y l] H; try discriminate.
  - injection H as ->. reflexivity.
  - cbn [nth_error] in H. cbn [skipn]. now apply IH.
Qed.

Lemma gdly_loop_ok l f ph : 0 <= f < 0.5 -> Forall (fun a => 0 <= a <= 1) l ->
  forall fuel k acc, (k <= length l + 1)%nat -> (length l <= k + fuel)%nat ->
  gdly_loop fuel l (Z.of_nat (length l)) (Z.of_nat k) f ph acc =
  DOk (acc + sum_list (map (fun a => gd1 a (2 * hiir_PI * f) ph) (evens (skipn k l)))).
Proof.
  intros Hf Hl. induction fuel as [|n IH]; intros k acc Hk Hn; cbn [gdly_loop].
  - destruct Z_lt_dec; [lia|]. rewrite skipn_all2 by lia. cbn. f_equal. ring.
  - destruct Z_lt_dec.
    + rewrite Nat2Z.id. destruct (nth_error l k) as [a|] eqn:E; [|apply nth_error_None in E; lia].
      assert (Ha : 0 <= a <= 1) by (rewrite Forall_forall in Hl; eapply Hl, nth_error_In, E).
      rewrite group_delay1_ok by assumption. cbn [dbind].
      replace (Z.of_nat k + 2)%Z with (Z.of_nat (k + 2)) by lia. rewrite IH by lia. f_equal.
      rewrite (nth_error_skip _ _ _ E).
      replace (k + 2)%nat with (S (S k)) by lia.
      destruct (nth_error l (S k)) as [b|] eqn:E2.
      * rewrite (nth_error_skip _ _ _ E2). cbn [evens map sum_list]. ring.
      * apply nth_error_None in E2. rewrite !skipn_all2 by lia. cbn [evens map sum_list]. ring.
    + rewrite skipn_all2 by lia. cbn. f_equal. ring.
Qed.

Lemma group_delay_ok l f ph : (0 < length l)%nat -> 0 <= f < 0.5 -> Forall (fun a => 0 <= a <= 1) l ->
  compute_group_delay l (Z.of_nat (length l)) f ph =
  DOk (sum_list (map (fun a => gd1 a (2 * hiir_PI * f) ph) (evens l))).
Proof.
  intros Hn Hf Hl. unfold compute_group_delay. yes; [|lia]. yes; [|lra]. yes; [|lra].
  change 0%Z with (Z.of_nat 0). rewrite Nat2Z.id, gdly_loop_ok; auto; try lia.
  cbn [skipn]. f_equal. ring.
Qed.

