(** * Properties of the filter design code: how the request influences the result *)
From Coq Require Import ZArith Reals List Lia Lra Psatz Bool.
From Interval Require Import Tactic.
From Verif Require Import DesignerModel DesignerProof PropsDesigner.
Open Scope R_scope.

Lemma tk_mono t t' : 0 < t -> t < t' -> t' < 0.5 -> tk t' < tk t.
Proof.
  intros H0 H H1. unfold tk. pose proof hiir_PI_bounds as P. pose proof PI_RGT_0 as P0.
  set (y := (1 - t * 2) * hiir_PI / 4). set (y' := (1 - t' * 2) * hiir_PI / 4).
  assert (Hy : 0 < y' /\ y' < y /\ y < PI / 4) by (unfold y, y'; split; [|split]; nra).
  assert (0 < tan y') by (apply tan_gt_0; lra).
  assert (tan y' < tan y) by (apply tan_increasing; lra). cbv zeta. nra.
Qed.
Lemma te_mono t t' : 0 < t -> t < t' -> t' < 0.5 -> te t' < te t.
Proof.
  intros H0 H H1. pose proof (tk_mono t t' H0 H H1) as M. pose proof (tk_bounds t ltac:(lra)) as K. pose proof (tk_bounds t' ltac:(lra)) as K'.
  unfold te. cbv zeta. set (s := Rpower (1 - tk t * tk t) 0.25). set (s' := Rpower (1 - tk t' * tk t') 0.25).
  assert (S0 : 0 < s) by apply exp_pos.
  assert (S1 : s < s').
  { unfold s, s', Rpower. apply exp_increasing, Rmult_lt_compat_l; [lra|]. apply ln_increasing; nra. }
  assert (Hm : forall z, 0 < z -> 0.5 * (1 - z) / (1 + z) = / (1 + z) - / 2) by (intros z Hz; replace 0.5 with (/ 2) by lra; field; lra). rewrite (Hm s), (Hm s') by lra.
  assert (/ (1 + s') < / (1 + s)) by (apply Rinv_lt_contravar; nra). lra.
Qed.
Lemma tq_mono t t' : 0 < t -> t < t' -> t' < 0.5 -> tq t' < tq t.
Proof.
  intros H0 H H1. pose proof (te_mono t t' H0 H H1) as M. pose proof (te_bounds t ltac:(lra)) as E. pose proof (te_bounds t' ltac:(lra)) as E'.
  unfold tq. cbv zeta. set (a := te t') in *. set (b := te t) in *.
  assert (E2 : 0 < a * a < b * b) by (split; nra). set (f2 := a * a) in *. set (g2 := b * b) in *.
  assert (E4 : 0 < f2 * f2 < g2 * g2) by (split; nra). set (f := f2 * f2) in *. set (g := g2 * g2) in *.
  clearbody a b f g. clear E2 f2 g2.
  assert (Q1 : 0 < 15 + 150 * f < 15 + 150 * g) by lra.
  assert (Q2 : 0 < 2 + f * (15 + 150 * f) < 2 + g * (15 + 150 * g)) by (split; nra).
  assert (Q3 : 0 < 1 + f * (2 + f * (15 + 150 * f)) < 1 + g * (2 + g * (15 + 150 * g))).
  { split; [nra|]. apply Rplus_lt_compat_l. apply Rlt_trans with (g * (2 + f * (15 + 150 * f))); [apply Rmult_lt_compat_r | apply Rmult_lt_compat_l]; lra. }
  apply Rlt_trans with (b * (1 + f * (2 + f * (15 + 150 * f)))); [apply Rmult_lt_compat_r | apply Rmult_lt_compat_l]; lra.
Qed.
Lemma atten_mono q q' o : 0 < q' -> q' < q -> (0 < o)%Z -> atten_of q o < atten_of q' o.
Proof.
  intros H0 H Ho. unfold atten_of, log10. cbv zeta.
  assert (L : ln q' < ln q) by now apply ln_increasing. apply IZR_lt in Ho.
  set (x := exp (IZR o * 0.5 * ln q)). set (y := exp (IZR o * 0.5 * ln q')).
  assert (Hy : 0 < y) by apply exp_pos. assert (Hxy : y < x) by (apply exp_increasing, Rmult_lt_compat_l; lra).
  pose proof ln10. assert (Hl : ln (4 * y / (1 + 4 * y)) < ln (4 * x / (1 + 4 * x))).
  { apply ln_increasing; [apply Rdiv_lt_0_compat; lra|].
    replace (4 * y / (1 + 4 * y)) with (1 - / (1 + 4 * y)) by (field; lra). replace (4 * x / (1 + 4 * x)) with (1 - / (1 + 4 * x)) by (field; lra).
    assert (/ (1 + 4 * x) < / (1 + 4 * y)) by (apply Rinv_lt_contravar; nra). lra. }
  assert (Hd : ln (4 * y / (1 + 4 * y)) / ln 10 < ln (4 * x / (1 + 4 * x)) / ln 10) by (apply Rmult_lt_compat_r; [apply Rinv_0_lt_compat; lra | exact Hl]).
  lra.
Qed.

(** a wider transition band has a smaller selectivity and nome *)
Theorem C51_decreasing t t' : 0 < t -> t < t' -> t' < 0.5 -> exists k q k' q',
  compute_transition_param t = DOk (k, q) /\ compute_transition_param t' = DOk (k', q') /\ k' < k /\ q' < q.
Proof.
  intros H0 H H1. exists (tk t), (tq t), (tk t'), (tq t'). split; [apply transition_ok; lra|]. split; [apply transition_ok; lra|].
  split; [now apply tk_mono | now apply tq_mono].
Qed.

(** ... and, with the same number of coefficients, more attenuation *)
Theorem C52_wider_band n t t' : (0 < n)%Z -> 0 < t -> t < t' -> t' < 0.5 ->
  exists a a', compute_atten_from_order_tbw n t = DOk a /\ compute_atten_from_order_tbw n t' = DOk a' /\ a < a'.
Proof.
  intros Hn H0 H H1. do 2 eexists. split; [apply atten_from_order_ok; [exact Hn | lra]|]. split; [apply atten_from_order_ok; [exact Hn | lra]|].
  apply atten_mono; [apply tq_bounds; lra | now apply tq_mono | lia].
Qed.

(** more attenuation or a narrower band never need fewer coefficients *)
Theorem C52_monotone att att' t t' n n' : 0 < att -> att <= att' -> 0 < t' -> t' <= t -> t < 0.5 ->
  compute_nbr_coefs_from_proto att t = DOk n -> compute_nbr_coefs_from_proto att' t' = DOk n' -> (0 < n')%Z -> (n <= n')%Z.
Proof.
  intros Ha Haa Ht Htt Ht5 E E' Hn'. destruct (Z_le_gt_dec n n') as [L|L]; [exact L|]. exfalso.
  destruct (C52_smallest att t n Ha ltac:(lra) E ltac:(lia)) as [_ S]. destruct (S n' ltac:(lia)) as (a & A1 & A2).
  destruct (C52_smallest att' t' n' ltac:(lra) ltac:(lra) E' Hn') as [(a' & B1 & B2) _].
  destruct Htt as [Htt|<-].
  - destruct (C52_wider_band n' t' t Hn' Ht Htt Ht5) as (b & b' & D1 & D2 & D3). rewrite A1 in D2. rewrite B1 in D1. injection D1 as <-. injection D2 as <-. lra.
  - rewrite A1 in B1. injection B1 as <-. lra.
Qed.
(** 48 dB with the bandwidth of the first stage and 96 dB with half of it *)
Example C52_monotone_case : exists n n', compute_nbr_coefs_from_proto 48 (9 / 98) = DOk n /\ compute_nbr_coefs_from_proto 96 (9 / 196) = DOk n' /\ (0 < n' /\ n < n')%Z.
Proof.
  destruct (C52_total 48 (9 / 98) ltac:(lra) ltac:(lra)) as [n En]. destruct (C52_total 96 (9 / 196) ltac:(lra) ltac:(lra)) as [n' En'].
  exists n, n'. split; [exact En|]. split; [exact En'|].
  destruct (nbr_coefs_ok 48 (9 / 98) ltac:(lra) ltac:(lra)) as (o & (O1 & O2 & O3) & Eo). rewrite Eo in En. injection En as <-.
  destruct (nbr_coefs_ok 96 (9 / 196) ltac:(lra) ltac:(lra)) as (o' & (P1 & P2 & P3) & Eo'). rewrite Eo' in En'. injection En' as <-.
  assert (B : 2 < order_bound 48 (tq (9 / 98)) <= 7) by (unfold order_bound, tq, te, tk, hiir_PI, Rpower; cbv zeta; split; interval with (i_prec 60)).
  assert (B' : 9 < order_bound 96 (tq (9 / 196))) by (unfold order_bound, tq, te, tk, hiir_PI, Rpower; cbv zeta; interval with (i_prec 60)).
  assert (L1 : (o <= 7)%Z) by (apply O3; [reflexivity | lra]). assert (L2 : (2 < o)%Z) by (apply lt_IZR; lra). assert (L3 : (9 < o')%Z) by (apply lt_IZR; lra).
  replace (o =? 1)%Z with false by lia. replace (o' =? 1)%Z with false by lia. rewrite !Z.quot_div_nonneg by lia.
  assert (o mod 2 = 1)%Z by (rewrite Zmod_odd, O1; reflexivity). assert (o' mod 2 = 1)%Z by (rewrite Zmod_odd, P1; reflexivity).
  Z.div_mod_to_equations. lia.
Qed.

Print Assumptions C51_decreasing.
Print Assumptions C52_wider_band.
Print Assumptions C52_monotone.
