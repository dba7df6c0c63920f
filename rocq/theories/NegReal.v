(** * process_sample_neg in exact arithmetic *)
From Coq Require Import ZArith Reals List Lia Lra Bool ZifyNat ZifyBool.
From Verif Require Import Arith ArithR Spec SpecOk IirReal IirPhase SplitReal NegProof.
Import ListNotations.
Open Scope Z_scope.

Lemma mirror_cons (a : R) (x : list RA) : mirror ((a : RA) :: x) = (a : RA) :: negate (mirror x).
Proof.
  enough (H : forall n (x : list RA), (length x <= n)%nat -> forall a : R, mirror ((a : RA) :: x) = (a : RA) :: negate (mirror x)) by (eapply H; apply le_n).
  clear. induction n as [|n IH]; intros [|b x] L a; cbn [length] in L; try lia; try reflexivity.
  change (mirror ((a : RA) :: b :: x)) with ((a : RA) :: ((- b)%R : RA) :: mirror x). rewrite IH by lia. unfold negate. cbn [map]. do 2 f_equal.
  rewrite map_map. symmetry. etransitivity; [|apply map_id]. apply map_ext. intros r. exact (Ropp_involutive r).
Qed.
Lemma mirror_negate (x : list RA) : mirror (negate x) = negate (mirror x).
Proof. induction x as [|a x IH]; [reflexivity|]. change (negate (a :: x)) with ((- a)%R :: negate x). rewrite !mirror_cons, IH. reflexivity. Qed.
Lemma negate_negate (x : list RA) : negate (negate x) = x.
Proof. unfold negate. rewrite map_map. etransitivity; [|apply map_id]. apply map_ext. intros r. exact (Ropp_involutive r). Qed.
Lemma mirror_mirror (x : list RA) : mirror (mirror x) = x.
Proof. induction x as [|a x IH]; [reflexivity|]. rewrite !mirror_cons, mirror_negate, IH, negate_negate. reflexivity. Qed.
Lemma nallpass_mirror c (x : list RA) : forall x1 y1 : R,
  nallpass_from (A := RA) c x1 y1 x = mirror (allpass_from (A := RA) c (- x1)%R (- y1)%R (mirror x)).
Proof.
  induction x as [|x0 x IH]; intros x1 y1; [reflexivity|]. rewrite mirror_cons. cbn [nallpass_from allpass_from]. cbv zeta. raops.
  rewrite mirror_cons, IH. set (y0 := ((x0 + y1) * c - x1)%R).
  replace ((x0 - - y1) * c + - x1)%R with y0 by (unfold y0; ring).
  pose proof (allpass_from_negate c (mirror x) (- x0) (- y0)) as E. rewrite !Ropp_involutive in E. rewrite E, mirror_negate, negate_negate. reflexivity.
Qed.
Lemma nchain_mirror (cs x : list RA) : nchain cs x = mirror (chain cs (mirror x)).
Proof.
  revert x. induction cs as [|c r IH]; intros x; [symmetry; apply mirror_mirror|].
  cbn [nchain]. rewrite IH. change (chain (c :: r) (mirror x)) with (chain r (allpass c (mirror x))). do 2 f_equal.
  unfold nallpass, allpass. raops. rewrite (nallpass_mirror c x 0 0), mirror_mirror, Ropp_0. reflexivity.
Qed.

Lemma nchain_sine (cs x : list RA) rho amp f p : (0 < rho <= 1)%R -> Forall (fun c => 0 <= c < rho)%R cs ->
  (forall k, 0 <= k < size x -> smp x k = (amp * sin (f * IZR k + p))%R) ->
  forall k, 0 <= k < size x ->
  (Rabs (smp (nchain cs x) k - amp * sin (f * IZR k + (p - lags cs (f + PI)))) <= chain_gain rho cs * Rabs amp * rho ^ Z.to_nat k)%R.
Proof.
  intros Hr F Hx k Hk. rewrite nchain_mirror.
  set (w := fun k => (rho ^ Z.to_nat k)%R).
  assert (P : forall n, (0 < rho ^ n)%R) by (intros n; apply pow_lt; lra).
  assert (N : near (mirror x) [Wave amp (f + PI) p] (Rabs amp) w).
  { split; [split|].
    - apply Rabs_pos.
    - cbn [amps w_amp]. unfold w. cbn. lra.
    - intros j Hj. rewrite (mirror_sine x amp f p Hx j Hj). cbn [waves]. unfold wval. cbn [w_amp w_freq w_phase]. rewrite Rplus_0_r, Rminus_diag_eq by reflexivity. rewrite Rabs_R0.
      apply Rmult_le_pos; [apply Rabs_pos | unfold w; left; apply P]. }
  assert (S0 : steady rho w).
  { intros j Hj. unfold w. split; [left; apply P|]. replace (Z.to_nat (j + 1)) with (S (Z.to_nat j)) by lia. cbn [pow]. lra. }
  destruct (chain_near cs rho (proj2 Hr) F _ _ _ _ S0 N) as [_ C].
  assert (Sz : size (chain (A := RA) cs (mirror x)) = size x) by (unfold size; now rewrite chain_length, mirror_length).
  specialize (C k ltac:(rewrite Sz; exact Hk)). cbn [map waves] in C. unfold wval, delayed in C. cbn [w_amp w_freq w_phase] in C. rewrite Rplus_0_r in C.
  rewrite (smp_mirror (length (chain (A := RA) cs (mirror x)))) by lia.
  replace ((f + PI) * IZR k + (p - lags cs (f + PI)))%R with (f * IZR k + (p - lags cs (f + PI)) + IZR k * PI)%R in C by ring. rewrite sin_parity in C.
  set (s := sin _) in *. set (u := smp _ k) in *. change (Arith.T RA) with R in u. clearbody u. destruct (Z.even k).
  - rewrite Rmult_1_l. exact C.
  - replace (-1 * u - amp * s)%R with (- (u - amp * - s))%R by ring. rewrite Rabs_Ropp. exact C.
Qed.
