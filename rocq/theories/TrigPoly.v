(** * Cosine polynomials with integer coefficients, and a certificate for their sign *)
From Coq Require Import ZArith Reals List Lia Lra Bool.
Import ListNotations.
Open Scope R_scope.

(** sum of L_i cos ((k + i) t) *)
Fixpoint cosum_from (k : R) (L : list Z) (t : R) : R :=
  match L with [] => 0 | x :: r => IZR x * cos (k * t) + cosum_from (k + 1) r t end.
Definition cosum (L : list Z) (t : R) : R := cosum_from 0 L t.

Fixpoint addl (L M : list Z) : list Z :=
  match L, M with
  | [], _ => M
  | _, [] => L
  | x :: L, y :: M => (x + y)%Z :: addl L M
  end.
Definition scal (z : Z) (L : list Z) : list Z := map (Z.mul z) L.

Lemma cosum_add k L : forall M t, cosum_from k (addl L M) t = cosum_from k L t + cosum_from k M t.
Proof.
  revert k. induction L as [|x L IH]; intros k [|y M] t; cbn [addl cosum_from]; try lra.
  rewrite IH, plus_IZR. lra.
Qed.
Lemma cosum_scal k z L t : cosum_from k (scal z L) t = IZR z * cosum_from k L t.
Proof.
  revert k. induction L as [|x L IH]; intros k; cbn [scal map cosum_from]; [lra|].
  fold (scal z L). rewrite IH, mult_IZR. lra.
Qed.

(** 2 cos t times a cosine polynomial *)
Definition twocos (L : list Z) : list Z :=
  match L with [] => [] | x :: r => addl r (0%Z :: (2 * x)%Z :: r) end.

Lemma cos_prod x t : 2 * cos t * cos (x * t) = cos ((x + 1) * t) + cos ((x - 1) * t).
Proof.
  replace ((x + 1) * t) with (x * t + t) by ring. replace ((x - 1) * t) with (x * t - t) by ring.
  rewrite cos_plus, cos_minus. lra.
Qed.

Lemma twocos_from k L t : 2 * cos t * cosum_from k L t = cosum_from (k + 1) L t + cosum_from (k - 1) L t.
Proof.
  revert k. induction L as [|x L IH]; intros k; cbn [cosum_from]; [lra|].
  rewrite Rmult_plus_distr_l, IH. replace (2 * cos t * (IZR x * cos (k * t))) with (IZR x * (2 * cos t * cos (k * t))) by ring.
  rewrite cos_prod. replace (k + 1 - 1) with k by ring. replace (k - 1 + 1) with k by ring. lra.
Qed.

Lemma twocos_ok L t : cosum (twocos L) t = 2 * cos t * cosum L t.
Proof.
  unfold cosum. rewrite twocos_from. destruct L as [|x r]; cbn [twocos cosum_from]; [lra|].
  rewrite cosum_add. cbn [cosum_from]. rewrite mult_IZR.
  replace (0 + 1) with 1 by ring. replace (0 - 1) with (-1) by ring. replace (-1 + 1) with 0 by ring.
  replace (-1 * t) with (- (1 * t)) by ring. rewrite cos_neg. lra.
Qed.

(** ** Multiples of an angle: D cos theta = m + r cos t *)
Section Cheb.
Context (D m r : Z) (theta t : R).
Hypothesis HD : IZR D * cos theta = IZR m + IZR r * cos t.

(** P represents D^n cos (n theta) *)
Definition is_cheb (n : nat) (P : list Z) : Prop := cosum P t = IZR D ^ n * cos (INR n * theta).

Definition cheb_next (P0 P1 : list Z) : list Z :=
  addl (addl (scal (2 * m) P1) (scal r (twocos P1))) (scal (- (D * D)) P0).

Lemma cheb_0 : is_cheb 0 [1%Z].
Proof. unfold is_cheb, cosum. cbn. rewrite !Rmult_0_l, cos_0. lra. Qed.
Lemma cheb_1 : is_cheb 1 [m; r].
Proof. unfold is_cheb, cosum. cbn [cosum_from pow INR]. replace (0 * t) with 0 by ring. replace ((0 + 1) * t) with t by ring. replace (1 * theta) with theta by ring. rewrite cos_0. lra. Qed.
Lemma cheb_step n P0 P1 : is_cheb n P0 -> is_cheb (S n) P1 -> is_cheb (S (S n)) (cheb_next P0 P1).
Proof.
  unfold is_cheb, cheb_next. intros H0 H1. unfold cosum in *. rewrite !cosum_add, !cosum_scal.
  fold (cosum (twocos P1) t). rewrite twocos_ok. unfold cosum. rewrite H0, H1, opp_IZR, !mult_IZR.
  rewrite (S_INR (S n)). pose proof (cos_prod (INR (S n)) theta) as C.
  replace (INR (S n) - 1) with (INR n) in C by (rewrite S_INR; ring).
  set (u := cos ((INR (S n) + 1) * theta)) in *. replace u with (2 * cos theta * cos (INR (S n) * theta) - cos (INR n * theta)) by lra.
  cbn [pow]. set (p := IZR D ^ n).
  replace (IZR D * (IZR D * p) * (2 * cos theta * cos (INR (S n) * theta) - cos (INR n * theta)))
    with (2 * (IZR D * cos theta) * (IZR D * p * cos (INR (S n) * theta)) - IZR D * (IZR D * p) * cos (INR n * theta)) by ring.
  rewrite HD. ring.
Qed.

(** sum of b_j D^(..) cos ((n + 2 j) theta) *)
Fixpoint odd_sum (n : nat) (b : list Z) : R :=
  match b with [] => 0 | x :: b => IZR x * cos (INR n * theta) + odd_sum (S (S n)) b end.

Fixpoint odd_acc (b : list Z) (P0 P1 acc : list Z) : list Z :=
  match b with
  | [] => acc
  | x :: b =>
      let P2 := cheb_next P0 P1 in let P3 := cheb_next P1 P2 in
      odd_acc b P2 P3 (match b with [] => addl acc (scal x P1) | _ => scal (D * D) (addl acc (scal x P1)) end)
  end.

Lemma odd_acc_ok b : forall n P0 P1 acc A, is_cheb n P0 -> is_cheb (S n) P1 -> cosum acc t = IZR D ^ S n * A -> b <> [] ->
  cosum (odd_acc b P0 P1 acc) t = IZR D ^ (S n + 2 * (length b - 1)) * (A + odd_sum (S n) b).
Proof.
  induction b as [|x b IH]; intros n P0 P1 acc A H0 H1 HA Hb; [congruence|].
  cbn [odd_acc odd_sum]. pose proof (cheb_step n P0 P1 H0 H1) as H2. pose proof (cheb_step (S n) P1 _ H1 H2) as H3.
  assert (HN : cosum (addl acc (scal x P1)) t = IZR D ^ S n * (A + IZR x * cos (INR (S n) * theta))).
  { unfold cosum. rewrite cosum_add, cosum_scal. fold (cosum acc t). fold (cosum P1 t). rewrite HA, H1. ring. }
  destruct b as [|y b].
  - cbn [odd_acc length odd_sum]. replace (S n + 2 * (1 - 1))%nat with (S n) by lia. rewrite HN. ring.
  - rewrite (IH (S (S n)) _ _ _ (A + IZR x * cos (INR (S n) * theta))); [|exact H2|exact H3| |discriminate].
    + replace (S (S (S n)) + 2 * (length (y :: b) - 1))%nat with (S n + 2 * (length (x :: y :: b) - 1))%nat by (cbn [length]; lia).
      cbn [odd_sum]. ring.
    + unfold cosum. rewrite cosum_scal. fold (cosum (addl acc (scal x P1)) t). rewrite HN, mult_IZR. cbn [pow]. ring.
Qed.

(** D^(2 |b| - 1) times the sum of b_j cos ((2 j + 1) theta) *)
Definition odd_poly (b : list Z) : list Z := odd_acc b [1%Z] [m; r] [].
Lemma odd_poly_ok b : b <> [] -> cosum (odd_poly b) t = IZR D ^ (1 + 2 * (length b - 1)) * odd_sum 1 b.
Proof.
  intros Hb. unfold odd_poly. rewrite (odd_acc_ok b 0 _ _ [] 0 cheb_0 cheb_1); [|unfold cosum; cbn; lra|exact Hb]. f_equal. lra.
Qed.
End Cheb.

(** ** Certificate: a sum of squares *)
Fixpoint csum (k : R) (a : list Z) (t : R) : R := match a with [] => 0 | x :: r => IZR x * cos (k * t) + csum (k + 1) r t end.
Fixpoint ssum (k : R) (a : list Z) (t : R) : R := match a with [] => 0 | x :: r => IZR x * sin (k * t) + ssum (k + 1) r t end.
Fixpoint autoc (a : list Z) : list Z :=
  match a with [] => [] | x :: r => addl ((x * x)%Z :: scal (2 * x) r) (autoc r) end.

Lemma csum_shift k a t : csum (k + 1) a t = cos t * csum k a t - sin t * ssum k a t /\ ssum (k + 1) a t = sin t * csum k a t + cos t * ssum k a t.
Proof.
  revert k. induction a as [|x r IH]; intros k; cbn [csum ssum]; [lra|].
  destruct (IH (k + 1)) as [-> ->]. replace ((k + 1) * t) with (k * t + t) by ring. rewrite cos_plus, sin_plus. split; ring.
Qed.

Lemma autoc_ok a t : cosum (autoc a) t = csum 0 a t * csum 0 a t + ssum 0 a t * ssum 0 a t.
Proof.
  induction a as [|x r IH]; cbn [autoc csum ssum]; [unfold cosum; cbn; lra|].
  unfold cosum in *. rewrite cosum_add, IH. cbn [cosum_from]. rewrite cosum_scal, !mult_IZR, Rmult_0_l, cos_0, sin_0.
  assert (E : forall k l, cosum_from k l t = csum k l t) by (intros k l; revert k; induction l; intros; cbn; [reflexivity|now rewrite IHl]).
  rewrite E. destruct (csum_shift 0 r t) as [-> ->]. pose proof (sin2_cos2 t) as T. unfold Rsqr in T.
  set (c := csum 0 r t). set (s := ssum 0 r t).
  assert (c * c + s * s = (cos t * cos t + sin t * sin t) * (c * c + s * s)) as -> by (replace (cos t * cos t + sin t * sin t) with 1 by lra; ring).
  ring.
Qed.
Lemma autoc_pos a t : 0 <= cosum (autoc a) t.
Proof. rewrite autoc_ok. nra. Qed.

Fixpoint sum_abs (L : list Z) : Z := match L with [] => 0%Z | x :: r => (Z.abs x + sum_abs r)%Z end.
Lemma cosum_abs k L t : Rabs (cosum_from k L t) <= IZR (sum_abs L).
Proof.
  revert k. induction L as [|x r IH]; intros k; cbn [cosum_from sum_abs]; [rewrite Rabs_R0; lra|].
  eapply Rle_trans; [apply Rabs_triang|]. rewrite plus_IZR. apply Rplus_le_compat; [|apply IH].
  rewrite Rabs_mult, abs_IZR. pose proof (COS_bound (k * t)) as B. assert (Rabs (cos (k * t)) <= 1) by (apply Rabs_le; lra).
  pose proof (Rabs_pos (IZR x)). nra.
Qed.

(** F - 2^q |a|^2 has a dominating constant *)
Definition certified (F : list Z) (q : Z) (a : list Z) : bool :=
  match addl F (scal (- 2 ^ q) (autoc a)) with [] => true | x :: r => (sum_abs r <=? x)%Z end.

Lemma certified_ok F q a t : certified F q a = true -> 0 <= cosum F t.
Proof.
  unfold certified. intros H.
  assert (E : cosum F t = cosum (addl F (scal (- 2 ^ q) (autoc a))) t + IZR (2 ^ q) * cosum (autoc a) t).
  { unfold cosum. rewrite cosum_add, cosum_scal, opp_IZR. ring. }
  assert (Hq : 0 <= IZR (2 ^ q)) by (apply IZR_le, Z.pow_nonneg; lia).
  pose proof (autoc_pos a t) as P. rewrite E.
  assert (0 <= cosum (addl F (scal (- 2 ^ q) (autoc a))) t); [|nra].
  destruct (addl _ _) as [|x r]; unfold cosum; cbn [cosum_from]; [lra|].
  apply Z.leb_le, IZR_le in H. pose proof (cosum_abs (0 + 1) r t) as B. apply Rabs_le_between in B || (unfold Rabs in B; destruct Rcase_abs in B).
  all: rewrite Rmult_0_l, cos_0; lra.
Qed.

(** ** The checker: |U - 2 sum| <= E for all theta with D cos theta between m - r and m + r *)
Definition odd_check (D m r U E : Z) (b : list Z) (q1 : Z) (a1 : list Z) (q2 : Z) (a2 : list Z) : bool :=
  let Dn := (D ^ (1 + 2 * (Z.of_nat (length b) - 1)))%Z in
  let h := scal (-2) (odd_poly D m r b) in
  certified (addl [((E + U) * Dn)%Z] h) q1 a1 &&
  certified (addl [((E - U) * Dn)%Z] (scal (-1) h)) q2 a2.

Lemma odd_check_ok D m r U E b q1 a1 q2 a2 theta : (0 < D)%Z -> (0 < r)%Z -> b <> [] ->
  IZR (m - r) <= IZR D * cos theta <= IZR (m + r) ->
  odd_check D m r U E b q1 a1 q2 a2 = true -> Rabs (2 * odd_sum theta 1 b - IZR U) <= IZR E.
Proof.
  intros HD Hr Hb Hc H. apply andb_prop in H. destruct H as [H1 H2].
  apply IZR_lt in HD, Hr. rewrite minus_IZR, plus_IZR in Hc.
  set (x := (IZR D * cos theta - IZR m) / IZR r).
  assert (Ex : x * IZR r = IZR D * cos theta - IZR m) by (unfold x; field; lra).
  assert (Hx : -1 <= x <= 1) by nra.
  pose (t := acos x). assert (Et : cos t = x) by (apply cos_acos; lra).
  assert (Hcos : IZR D * cos theta = IZR m + IZR r * cos t) by (rewrite Et; lra).
  apply (certified_ok _ _ _ t) in H1. apply (certified_ok _ _ _ t) in H2.
  unfold cosum in *. rewrite cosum_add, cosum_scal in H1. rewrite cosum_add, !cosum_scal in H2.
  fold (cosum (odd_poly D m r b) t) in H1, H2. rewrite (odd_poly_ok D m r theta t Hcos b Hb) in H1, H2.
  cbn [cosum_from] in H1, H2. rewrite Rmult_0_l, cos_0 in H1, H2.
  set (S := odd_sum theta 1 b) in *. set (P := IZR D ^ (1 + 2 * (length b - 1))) in *.
  assert (HP : 0 < P) by (apply pow_lt; lra).
  assert (EP : IZR (D ^ (1 + 2 * (Z.of_nat (length b) - 1))) = P).
  { unfold P. rewrite pow_IZR. f_equal. f_equal. destruct b; [congruence|cbn [length]; lia]. }
  rewrite mult_IZR, EP, plus_IZR in H1. rewrite mult_IZR, EP, minus_IZR in H2.
  apply Rabs_le. split; apply Rmult_le_reg_r with P; try exact HP; lra.
Qed.
