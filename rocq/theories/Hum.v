(** * The section with coefficient 1 after the input has fallen silent

    The vector code appends a section with coefficient 1 if the number of
    coefficients is odd.  It does not damp, so that an error that has built up
    stays. *)
From Coq Require Import ZArith Reals List Lia Lra Bool ZifyNat ZifyBool.
From Flocq Require Import Core BinarySingleNaN Mult_error.
From Verif Require Import Arith ArithR ArithF Tables ResamplerModel ResamplerProof ResamplerOk Spec SpecOk SpecR Client Feed Twin
  TablesF TableFacts FloatComm FloatSum FloatFir FloatErr IirReal FloatIir FloatDrift Tail.
Import ListNotations.
Open Scope Z_scope.

(** ** Adding something very small changes nothing *)
Lemma grid_big x : generic_format radix2 fexp32 x -> (bpow radix2 (-8) <= Rabs x)%R -> exists k, x = (IZR k * bpow radix2 (-31))%R.
Proof.
  intros G H. unfold generic_format in G. set (e := cexp radix2 fexp32 x) in *. set (q := Ztrunc _) in G.
  assert (E : -31 <= e).
  { unfold e, cexp, FLT_exp. assert (M : -7 <= mag radix2 x); [|lia].
    replace (-7) with (-8 + 1) by lia. apply mag_ge_bpow. replace (-8 + 1 - 1) with (-8) by lia. exact H. }
  exists (q * 2 ^ (e + 31)). rewrite G. unfold F2R; cbn [Fnum Fexp]. rewrite mult_IZR.
  replace e with ((e + 31) + (-31)) at 1 by lia. rewrite bpow_plus, <- Rmult_assoc. do 2 f_equal.
  rewrite <- IZR_Zpower by lia. reflexivity.
Qed.
Lemma rnd_absorb g e : generic_format radix2 fexp32 g -> (1 / 100 <= Rabs g)%R -> (Rabs e <= bpow radix2 (-60))%R -> rnd (g + e) = g.
Proof.
  intros G Hg He. set (z := (g + e)%R).
  destruct (@round_N_pt radix2 fexp32 (@FLT_exp_valid (-149) 24 Hprec32) (fun x => negb (Z.even x)) z) as [F N].
  change (generic_format radix2 fexp32 (rnd z)) in F. specialize (N g G). change (Rabs (rnd z - z) <= Rabs (g - z))%R in N.
  assert (P8 : (bpow radix2 (-8) = / 256)%R) by reflexivity.
  assert (P60 : (bpow radix2 (-60) * 1048576 = bpow radix2 (-40))%R) by (change 1048576%R with (bpow radix2 20); rewrite <- bpow_plus; reflexivity).
  assert (P31 : (bpow radix2 (-40) * 512 = bpow radix2 (-31))%R) by (change 512%R with (bpow radix2 9); rewrite <- bpow_plus; reflexivity).
  assert (P32 : (bpow radix2 (-31) * 8388608 = bpow radix2 (-8))%R) by (change 8388608%R with (bpow radix2 23); rewrite <- bpow_plus; reflexivity).
  assert (B31 : (0 < bpow radix2 (-31))%R) by apply bpow_gt_0.
  replace (g - z)%R with (- e)%R in N by (unfold z; ring). rewrite Rabs_Ropp in N.
  assert (D : (Rabs (rnd z - g) <= 2 * Rabs e)%R).
  { replace (rnd z - g)%R with ((rnd z - z) + e)%R by (unfold z; ring). eapply Rle_trans; [apply Rabs_triang|]. lra. }
  assert (Hr : (bpow radix2 (-8) <= Rabs (rnd z))%R).
  { pose proof (Rabs_triang_inv g (g - rnd z)) as T. replace (g - (g - rnd z))%R with (rnd z) in T by ring. rewrite (Rabs_minus_sym g (rnd z)) in T. lra. }
  destruct (grid_big g G ltac:(lra)) as [i Ei]. destruct (grid_big (rnd z) F Hr) as [j Ej].
  rewrite Ei, Ej in D. rewrite Ei, Ej. replace (IZR j * bpow radix2 (-31) - IZR i * bpow radix2 (-31))%R with (IZR (j - i) * bpow radix2 (-31))%R in D by (rewrite minus_IZR; ring).
  rewrite Rabs_mult, <- abs_IZR, (Rabs_pos_eq (bpow radix2 (-31))) in D by lra.
  destruct (Z.eq_dec j i) as [->|Q]; [reflexivity|]. exfalso.
  assert (Q1 : (1 <= IZR (Z.abs (j - i)))%R) by (apply IZR_le; lia).
  assert (Q2 : (1 * bpow radix2 (-31) <= IZR (Z.abs (j - i)) * bpow radix2 (-31))%R) by (apply Rmult_le_compat_r; lra). lra.
Qed.

Lemma frozen_step (u u1 y1 : b32) : fin u -> fin u1 -> fin y1 -> (Rabs (val u) <= bpow radix2 (-60))%R -> (Rabs (val u1) <= bpow radix2 (-60))%R ->
  (1 / 100 <= Rabs (val y1) <= 2)%R ->
  fin (b32_plus (b32_mult (b32_minus u y1) (@f1 F32)) u1) /\ val (b32_plus (b32_mult (b32_minus u y1) (@f1 F32)) u1) = (- val y1)%R.
Proof.
  intros Fu F1 Fy Hu H1 Hy.
  assert (B1 : (bpow radix2 (-60) <= 1)%R) by (change 1%R with (bpow radix2 0); apply bpow_le; lia).
  assert (G : generic_format radix2 fexp32 (- val y1)) by apply generic_format_opp, (generic_format_B2R 24 128).
  assert (R1 : rnd (val u - val y1) = (- val y1)%R).
  { replace (val u - val y1)%R with (- val y1 + val u)%R by ring. apply rnd_absorb; [exact G | rewrite Rabs_Ropp; lra | exact Hu]. }
  destruct (minus_is u y1 _ Fu Fy ltac:(eapply Rle_trans; [apply Rabs_triang|]; rewrite Rabs_Ropp; lra) R1) as [Fd Ed].
  set (d := b32_minus u y1) in *.
  destruct (mult_one d Fd ltac:(apply le_huge; rewrite Ed, Rabs_Ropp; lra)) as [Fm Em]. set (m := b32_mult d (@f1 F32)) in *. rewrite Ed in Em.
  apply plus_is; [exact Fm | exact F1 | |].
  - eapply Rle_trans; [apply Rabs_triang|]. rewrite Em, Rabs_Ropp. lra.
  - rewrite Em. apply rnd_absorb; [exact G | rewrite Rabs_Ropp; lra | exact H1].
Qed.

Lemma steady_step (u u1 y1 : b32) : fin u -> fin u1 -> fin y1 -> (Rabs (val u) <= 19 / 10)%R -> (Rabs (val u1) <= 19 / 10)%R ->
  (Rabs (val y1 - val u1) <= 1 / 10)%R ->
  let y := b32_plus (b32_mult (b32_minus u y1) (@f1 F32)) u1 in
  fin y /\ (Rabs (Rabs (val y - val u) - Rabs (val y1 - val u1)) <= 10 * ulp1)%R.
Proof.
  intros Fu F1 Fy Hu H1 Hd y. destruct ulp1_small as [U0 U1].
  apply Rabs_le_inv in Hu, H1, Hd.
  assert (A : (Rabs (val u - val y1) <= 39 / 10)%R) by (apply Rabs_le; lra).
  destruct (minus_step u y1 Fu Fy ltac:(apply le_huge; lra)) as [Fd Ed]. set (d := b32_minus u y1) in *.
  assert (A1 : (ulp1 * Rabs (val u - val y1) <= ulp1 * (39 / 10))%R) by (apply Rmult_le_compat_l; lra).
  assert (Ed' : (Rabs (val d - (val u - val y1)) <= ulp1 * (39 / 10))%R) by lra. clear Ed.
  pose proof Ed' as Ed. apply Rabs_le_inv in Ed. pose proof A as A'. apply Rabs_le_inv in A'.
  destruct (mult_one d Fd ltac:(apply le_huge; apply Rabs_le; lra)) as [Fm Em]. set (m := b32_mult d (@f1 F32)) in *.
  assert (B : (Rabs (val m + val u1) <= 59 / 10)%R) by (rewrite Em; apply Rabs_le; lra).
  assert (H8 : (8 <= huge)%R) by (change 8%R with (bpow radix2 3); unfold huge; apply bpow_le; lia).
  destruct (plus_step m u1 Fm F1 ltac:(lra)) as [Fy' Ey]. change (b32_plus m u1) with y in Fy', Ey. split; [exact Fy'|].
  assert (B1 : (ulp1 * Rabs (val m + val u1) <= ulp1 * (59 / 10))%R) by (apply Rmult_le_compat_l; lra).
  assert (Ey' : (Rabs (val y - (val m + val u1)) <= ulp1 * (59 / 10))%R) by lra. rewrite Em in Ey'.
  eapply Rle_trans; [|apply Rle_trans with (Rabs ((val y - val u) + (val y1 - val u1))); [|]].
  - rewrite <- (Rabs_Ropp (val y1 - val u1)). apply Rabs_triang_inv2.
  - replace (val y - val u - - (val y1 - val u1))%R with (val y - val u + (val y1 - val u1))%R by ring. apply Rle_refl.
  - apply Rabs_le_inv in Ey'. apply Rabs_le. lra.
Qed.

(** ** A sequence that goes through the section *)
Lemma hum (u y : Z -> b32) J (n : nat) M :
  (forall k, J < k <= M -> y k = b32_plus (b32_mult (b32_minus (u k) (y (k - 1))) (@f1 F32)) (u (k - 1))) ->
  (forall k, J <= k <= M -> fin (u k) /\ (Rabs (val (u k)) <= 19 / 10)%R /\ (J + Z.of_nat n <= k -> (Rabs (val (u k)) <= bpow radix2 (-60))%R)) ->
  fin (y J) -> (INR n <= 400)%R -> (Rabs (val (y J) - val (u J)) = 300000 * ulp1)%R ->
  forall k, J + Z.of_nat n <= k <= M ->
    fin (y k) /\ (17 / 1000 <= Rabs (val (y k)) <= 19 / 1000)%R /\ (k < M -> val (y (k + 1)) = (- val (y k))%R).
Proof.
  intros HY HU F0 Hn H0. destruct ulp1_small as [U0 U1].
  assert (P1 : forall i : nat, (i <= n)%nat -> J + Z.of_nat i <= M ->
    fin (y (J + Z.of_nat i)) /\ (Rabs (Rabs (val (y (J + Z.of_nat i)%Z) - val (u (J + Z.of_nat i)%Z)) - 300000 * ulp1) <= INR i * (10 * ulp1))%R).
  { induction i as [|i IH]; intros Hi HM.
    - replace (J + Z.of_nat 0) with J by lia. split; [exact F0|]. rewrite H0, Rminus_eq_0, Rabs_R0. cbn. lra.
    - destruct IH as [Fi Ei]; [lia | lia |]. set (k := J + Z.of_nat i) in *. replace (J + Z.of_nat (S i)) with (k + 1) by lia.
      destruct (HU k ltac:(lia)) as (Fu1 & Bu1 & _). destruct (HU (k + 1) ltac:(lia)) as (Fu & Bu & _).
      rewrite (HY (k + 1)) by lia. replace (k + 1 - 1) with k by lia.
      assert (Hi' : (INR i * (10 * ulp1) <= 400 * (10 * ulp1))%R) by (apply Rmult_le_compat_r; [lra|]; apply Rle_trans with (INR n); [apply le_INR; lia | exact Hn]).
      destruct (steady_step (u (k + 1)) (u k) (y k) Fu Fu1 Fi Bu Bu1) as [F E]; [apply Rabs_le_inv in Ei; lra|].
      split; [exact F|]. rewrite S_INR. apply Rabs_le_inv in E, Ei. apply Rabs_le. lra. }
  assert (B60 : (bpow radix2 (-60) <= ulp1)%R) by (unfold ulp1; apply bpow_le; lia).
  assert (P2 : forall i : nat, J + Z.of_nat n + Z.of_nat i <= M ->
    fin (y (J + Z.of_nat n + Z.of_nat i)) /\ (17 / 1000 <= Rabs (val (y (J + Z.of_nat n + Z.of_nat i)%Z)) <= 19 / 1000)%R).
  { induction i as [|i IH]; intros HM.
    - replace (J + Z.of_nat n + Z.of_nat 0) with (J + Z.of_nat n) by lia. destruct (P1 n ltac:(lia) ltac:(lia)) as [F E]. split; [exact F|].
      destruct (HU (J + Z.of_nat n) ltac:(lia)) as (_ & _ & Bu). specialize (Bu ltac:(lia)).
      assert (Hn' : (INR n * (10 * ulp1) <= 400 * (10 * ulp1))%R) by (apply Rmult_le_compat_r; lra).
      set (v := val (y (J + Z.of_nat n))) in *. set (q := val (u (J + Z.of_nat n))) in *.
      apply Rabs_le_inv in E.
      pose proof (Rabs_triang (v - q) q) as T1. replace (v - q + q)%R with v in T1 by ring.
      pose proof (Rabs_triang v (- q)) as T2. rewrite Rabs_Ropp in T2. change (v + - q)%R with (v - q)%R in T2. lra.
    - destruct IH as [Fi Ei]; [lia|]. set (k := J + Z.of_nat n + Z.of_nat i) in *. replace (J + Z.of_nat n + Z.of_nat (S i)) with (k + 1) by lia.
      destruct (HU k ltac:(lia)) as (Fu1 & _ & Bu1). destruct (HU (k + 1) ltac:(lia)) as (Fu & _ & Bu). rewrite (HY (k + 1)) by lia. replace (k + 1 - 1) with k by lia.
      destruct (frozen_step (u (k + 1)) (u k) (y k) Fu Fu1 Fi (Bu ltac:(lia)) (Bu1 ltac:(lia)) ltac:(lra)) as [F E]. split; [exact F|]. rewrite E, Rabs_Ropp. exact Ei. }
  intros k Hk. destruct (P2 (Z.to_nat (k - J - Z.of_nat n)) ltac:(lia)) as [F E]. replace (J + Z.of_nat n + Z.of_nat (Z.to_nat (k - J - Z.of_nat n))) with k in F, E by lia.
  split; [exact F|]. split; [exact E|]. intros HM.
  destruct (HU k ltac:(lia)) as (Fu1 & _ & Bu1). destruct (HU (k + 1) ltac:(lia)) as (Fu & _ & Bu). rewrite (HY (k + 1)) by lia. replace (k + 1 - 1) with k by lia.
  now destruct (frozen_step (u (k + 1)) (u k) (y k) Fu Fu1 F (Bu ltac:(lia)) (Bu1 ltac:(lia)) ltac:(lra)) as [_ Ek].
Qed.

(** ** The input of [long_drift] again, the error relative to the section before *)
Lemma long_gap n : Z.of_nat n <= 300000 -> exists x : list F32, length x = S (S n) /\
  (forall k, 0 <= k < size x -> fin (smp x k) /\ (Rabs (val (smp x k)) <= 1)%R) /\
  forall j, 2 <= j < size x ->
  (Rabs (val (smp (A := F32) (allpass (A := F32) f1 (allpass (A := F32) c1 x)) j) - val (smp (A := F32) (allpass (A := F32) c1 x) j)) = IZR (j - 1) * w)%R.
Proof.
  intros Hn. pose proof w_pos as W. destruct ulp1_small as [_ W1]. change ulp1 with w in W1.
  destruct (b32_dy_exact (-9316000) (-24) ltac:(lia) ltac:(lia)) as [S1 S2]. fold start1 in S1, S2.
  destruct (b32_dy_exact 9319212 (-24) ltac:(lia) ltac:(lia)) as [L1 L2]. fold level in L1, L2.
  destruct (drift n 1%R 9316000 9319212 0 start1 level level) as (xs & L & B & D).
  - now left.
  - lia.
  - lia.
  - lia.
  - lia.
  - lia.
  - split; [exact S2 | rewrite S1; symmetry; apply Rmult_1_l].
  - split; [exact L2 | rewrite L1; symmetry; apply Rmult_1_l].
  - split; [exact L2 | rewrite L1; symmetry; apply Rmult_1_l].
  - set (x := (f1 : F32) :: start1 :: xs : list F32).
    assert (LX : length x = S (S n)) by (unfold x; cbn; do 2 f_equal; exact L).
    assert (SX : size x = Z.of_nat n + 2) by (unfold size; rewrite LX; lia).
    assert (BX : forall k, (k < S (S n))%nat -> fin (nth k x (@f0 F32)) /\ (Rabs (val (nth k x (@f0 F32))) <= 1)%R).
    { intros [|[|k]] Hk; unfold x; cbn [nth]; [| |apply B; lia].
      - destruct one_val as [O1 O2]. split; [exact O1 | rewrite O2, Rabs_R1; lra].
      - split; [exact S2|]. rewrite S1. rewrite Rabs_left by lra. lra. }
    exists x. split; [exact LX|]. split; [intros k Hk; rewrite smp_nth by lia; apply BX; lia|].
    intros j Hj. specialize (D (Z.to_nat (j - 2)) ltac:(lia)). cbn zeta in D.
    assert (EU : allpass (A := F32) c1 x = (c1 : F32) :: (level : F32) :: allpass_from (A := F32) c1 start1 level xs) by exact (allpass_two c1 _ _ _ _ xs start_first).
    rewrite EU.
    assert (EY : forall us, allpass (A := F32) f1 ((c1 : F32) :: (level : F32) :: us) = (c1 : F32) :: (level : F32) :: allpass_from (A := F32) f1 level level us) by (intros us; exact (allpass_two f1 _ _ _ _ us start_second)).
    rewrite EY. rewrite !smp_nth by lia. replace (Z.to_nat j) with (S (S (Z.to_nat (j - 2)))) by lia. cbn [nth]. etransitivity; [exact D|]. do 2 f_equal. lia.
Qed.

Lemma allpass_from_app (c : F32) : forall (x z : list F32) x1 y1, exists t, allpass_from (A := F32) c x1 y1 (x ++ z) = allpass_from (A := F32) c x1 y1 x ++ t.
Proof.
  induction x as [|a x IH]; intros z x1 y1.
  - now exists (allpass_from (A := F32) c x1 y1 z).
  - cbn [app allpass_from]. destruct (IH z a (fadd (fmul (fsub a y1) c) x1)) as [t E]. exists t. cbn [app]. f_equal. exact E.
Qed.
Lemma smp_app_left (x z : list F32) k : k < size x -> smp (x ++ z) k = smp x k.
Proof. intros H. unfold smp. destruct (Z.ltb_spec k 0); [reflexivity|]. unfold size in H. apply app_nth1. lia. Qed.
Lemma smp_zeros (x : list F32) n k : size x <= k -> smp (x ++ repeat (f0 : F32) n) k = (f0 : F32).
Proof.
  intros H. unfold size in H. unfold smp. destruct (Z.ltb_spec k 0); [reflexivity|]. rewrite app_nth2 by lia.
  destruct (Nat.lt_ge_cases (Z.to_nat k - length x) n) as [Q|Q]; [|apply nth_overflow; rewrite repeat_length; lia].
  apply nth_repeat.
Qed.

Lemma smp_repeat0 n k : smp (repeat (f0 : F32) n) k = (f0 : F32).
Proof. destruct (Z_lt_le_dec k 0); [now rewrite smp_neg by lia|]. apply (smp_zeros [] n k). cbn. lia. Qed.

Lemma odd_resample x j : 0 <= j < size x -> smp (resample (A := F32) FILTER_IIR UP PREC_48DB true 2 x) (2 * j + 1) = smp (allpass (A := F32) f1 (allpass (A := F32) c1 x)) j.
Proof.
  intros Hj. change (resample (A := F32) FILTER_IIR UP PREC_48DB true 2 x) with
    (weave (chain (evens (even_up (coeffs (A := F32) FILTER_IIR UP PREC_48DB 2))) x) (chain (odds (even_up (coeffs (A := F32) FILTER_IIR UP PREC_48DB 2))) x)).
  rewrite weave_odd' by (rewrite ?chain_length; reflexivity || lia). rewrite odd_even_up. reflexivity.
Qed.

Lemma long_hum : exists x : list F32, size x = 300002 /\
  (forall k, 0 <= k < size x -> fin (smp x k) /\ (Rabs (val (smp x k)) <= 1)%R) /\
  forall n, let v := allpass (A := F32) f1 (allpass (A := F32) c1 (x ++ repeat (f0 : F32) n)) in
  exists h, (17 / 1000 <= Rabs h <= 19 / 1000)%R /\
  forall j, 300400 <= j < 300002 + Z.of_nat n -> fin (smp v j) /\ val (smp v j) = (if Z.even j then h else - h)%R.
Proof.
  destruct (long_gap (Z.to_nat 300000) ltac:(lia)) as (x & LX & BX & GX).
  assert (SX : size x = 300002) by (unfold size; rewrite LX; lia). clear LX.
  exists x. split; [exact SX|]. split; [exact BX|]. intros n.
  set (xz := x ++ repeat (f0 : F32) n). assert (SZ : size xz = 300002 + Z.of_nat n) by (unfold xz, size; rewrite app_length, repeat_length; unfold size in SX; lia).
  set (u := allpass (A := F32) c1 xz). set (v := allpass (A := F32) f1 u).
  assert (SU : size u = size xz) by (unfold u, size; now rewrite allpass_length).
  assert (SV : size v = size xz) by (unfold v, size; rewrite allpass_length; exact SU).
  destruct ulp1_small as [U0 U1]. destruct c1_val as [Fc Hc].
  assert (AM : (amp (val c1) <= 19 / 10)%R) by (unfold amp; lra).
  assert (FU0 : forall z, fades 1 300002 0 z -> fades (amp (val c1) * 1) (300002 + 1 + Z.of_nat 341) (amp (val c1) * 0 + lift (val c1) * tiny) (allpass (A := F32) c1 z)).
  { intros z FZ. apply section_fades; [exact Fc | lra | | | lra | lia | | exact FZ].
    - unfold low. change 1%R with (bpow radix2 0). apply bpow_le. lia.
    - unfold high. apply Rle_trans with (bpow radix2 4); [change (bpow radix2 4) with 16%R; lra | apply bpow_le; lia].
    - unfold eps4. assert (0 <= val c1 * (1 + 4 * ulp1) <= 4447 / 10000)%R; [|replace (INR 341) with 341%R by (rewrite INR_IZR_INZ; reflexivity); lra].
      split; [apply Rmult_le_pos; lra|]. apply Rle_trans with (4446 / 10000 * (1 + 4 * ulp1))%R; [apply Rmult_le_compat_r; lra | lra]. }
  assert (FU : fades (amp (val c1) * 1) (300002 + 1 + Z.of_nat 341) (amp (val c1) * 0 + lift (val c1) * tiny) u).
  { apply FU0. intros k Hk. destruct (Z_lt_le_dec k 300002) as [Q|Q].
    - unfold xz. rewrite smp_app_left by lia. destruct (BX k ltac:(lia)) as [F B]. split; [exact F|]. split; [exact B|]. intros; lia.
    - unfold xz. rewrite smp_zeros by lia. split; [reflexivity|]. change (val (@f0 F32)) with 0%R. rewrite Rabs_R0. split; [lra | intros; lra]. }
  assert (FJ : fin (smp (A := F32) (allpass (A := F32) f1 (allpass (A := F32) c1 x)) 300001)).
  { pose proof (FU0 x) as Q. assert (Q0 : fades 1 300002 0 x) by (intros k Hk; destruct (BX k Hk) as [F B]; split; [exact F|]; split; [exact B|]; intros; lia).
    specialize (Q Q0). apply fades_bounded, bounded_near in Q.
    assert (A1 : (1 <= amp (val c1))%R) by (unfold amp; lra).
    pose proof (pad_near (amp (val c1) * 1)%R 0%R (allpass (A := F32) c1 x) _ ltac:(unfold low; apply Rle_trans with (bpow radix2 0); [apply bpow_le; lia | change (bpow radix2 0) with 1%R; lra])
      ltac:(unfold high; apply Rle_trans with (bpow radix2 4); [change (bpow radix2 4) with 16%R; lra | apply bpow_le; lia]) (Rle_refl 0)
      ltac:(unfold size; rewrite allpass_length; unfold size in SX; lia) Q) as P.
    apply (near_smp _ _ _ _ _ P). unfold size. rewrite !allpass_length. unfold size in SX. lia. }
  assert (LT : (amp (val c1) * 0 + lift (val c1) * tiny <= bpow radix2 (-60))%R).
  { rewrite Rmult_0_r, Rplus_0_l. assert (I2 : (/ (1 - val c1) <= 2)%R) by (replace 2%R with (/ (1 / 2))%R by lra; apply Rinv_le_contravar; lra).
    assert (L4 : (lift (val c1) <= 4)%R) by (unfold lift, Rdiv; lra).
    apply Rle_trans with (4 * tiny)%R; [apply Rmult_le_compat_r; [apply Rlt_le, tiny_pos | exact L4]|].
    unfold tiny. change 4%R with (bpow radix2 2). rewrite <- bpow_plus. apply bpow_le. lia. }
  destruct (allpass_from_app c1 x (repeat (f0 : F32) n) f0 f0) as [t Et]. change (u = allpass (A := F32) c1 x ++ t) in Et.
  destruct (allpass_from_app f1 (allpass (A := F32) c1 x) t f0 f0) as [t' Et']. rewrite <- Et in Et'. change (v = allpass (A := F32) f1 (allpass (A := F32) c1 x) ++ t') in Et'.
  pose proof (hum (fun k => smp u k : b32) (fun k => smp v k : b32) 300001 343 (300001 + Z.of_nat n)) as HH. cbn beta in HH.
  assert (D : forall j, 300400 <= j <= 300001 + Z.of_nat n -> fin (smp v j) /\ (17 / 1000 <= Rabs (val (smp v j)) <= 19 / 1000)%R /\
    (j < 300001 + Z.of_nat n -> val (smp v (j + 1)) = (- val (smp v j))%R)).
  { intros j Hj. apply HH.
    - intros k Hk. apply smp_allpass_rec. lia.
    - intros k Hk. destruct (FU k ltac:(lia)) as (F & B & Q). split; [exact F|]. split; [change (Rabs (val (smp u k)) <= 19 / 10)%R; lra|].
      intros Hk2. change (Rabs (val (smp u k)) <= bpow radix2 (-60))%R. eapply Rle_trans; [apply Q; lia | exact LT].
    - rewrite Et', smp_app_left by (unfold size; rewrite ?allpass_length; unfold size in SX; lia). exact FJ.
    - rewrite INR_IZR_INZ. apply IZR_le. lia.
    - rewrite Et, Et', !smp_app_left by (unfold size; rewrite ?allpass_length; unfold size in SX; lia).
      etransitivity; [apply GX; lia|]. change w with ulp1. f_equal.
    - lia. }
  clear - D. cbn zeta. destruct (Z_le_gt_dec 300400 (300001 + Z.of_nat n)) as [Q|Q].
  - pose (h := val (smp v 300400)). exists h. split; [apply D; lia|]. intros j Hj. split; [apply D; lia|].
    assert (P : forall i : nat, 300400 + Z.of_nat i <= 300001 + Z.of_nat n -> val (smp v (300400 + Z.of_nat i)) = (if Z.even (300400 + Z.of_nat i) then h else - h)%R).
    { induction i as [|i IH]; intros Hi; [reflexivity|]. specialize (IH ltac:(lia)).
      replace (300400 + Z.of_nat (S i)) with (300400 + Z.of_nat i + 1) by lia. destruct (D (300400 + Z.of_nat i) ltac:(lia)) as (_ & _ & S1). rewrite S1, IH by lia.
      rewrite (Z.even_add (300400 + Z.of_nat i) 1). destruct (Z.even (300400 + Z.of_nat i)); [reflexivity | apply Ropp_involutive]. }
    specialize (P (Z.to_nat (j - 300400)) ltac:(lia)). replace (300400 + Z.of_nat (Z.to_nat (j - 300400))) with j in P by lia. exact P.
  - exists (17 / 1000)%R. split; [rewrite Rabs_pos_eq; lra | intros; lia].
Qed.

(** ** The mean with a branch that is silent *)
Lemma half_exact (v : b32) : fin v -> (1 / 100 <= Rabs (val v) <= 1)%R ->
  fin (b32_mult (b32_plus v (@f0 F32)) (@fhalf F32)) /\ val (b32_mult (b32_plus v (@f0 F32)) (@fhalf F32)) = (val v / 2)%R.
Proof.
  intros Fv Hv. assert (G : generic_format radix2 fexp32 (val v)) by apply (generic_format_B2R 24 128).
  destruct (plus_is v (@f0 F32) (val v) Fv eq_refl) as [Fp Ep].
  { change (val (@f0 F32)) with 0%R. rewrite Rplus_0_r. lra. }
  { change (val (@f0 F32)) with 0%R. rewrite Rplus_0_r. apply round_generic; [apply valid_rnd_N | exact G]. }
  set (p := b32_plus v (@f0 F32)) in *.
  assert (Hh : fin (@fhalf F32) /\ val (@fhalf F32) = (/ 2)%R).
  { destruct (b32_dy_exact 1 (-1) ltac:(lia) ltac:(lia)) as [E F]. split; [exact F|]. change (val (b32_dy 1 (-1)) = / 2)%R. rewrite E. change (bpow radix2 (-1)) with (/ 2)%R. ring. }
  destruct Hh as [Fh Eh].
  destruct (mult_step p (@fhalf F32) Fp Fh) as [Fm _].
  { apply le_huge. rewrite Ep, Eh, Rabs_mult, (Rabs_pos_eq (/ 2)) by lra. lra. }
  split; [exact Fm|]. rewrite mult_val by exact Fm. rewrite Ep, Eh. change (val v / 2)%R with (val v * / 2)%R.
  apply round_generic; [apply valid_rnd_N|]. change (/ 2)%R with (bpow radix2 (-1)).
  apply mult_bpow_exact_FLT; [exact G|].
  assert (M : -7 <= mag radix2 (val v)); [|lia].
  replace (-7) with (-8 + 1) by lia. apply mag_ge_bpow. replace (-8 + 1 - 1) with (-8) by lia. change (bpow radix2 (-8)) with (/ 256)%R. lra.
Qed.
Lemma allpass_silence (c : F32) n : b32_plus (b32_mult (b32_minus (@f0 F32) (@f0 F32)) c) (@f0 F32) = (@f0 F32) ->
  allpass (A := F32) c (repeat (f0 : F32) n) = repeat (f0 : F32) n.
Proof.
  intros H. unfold allpass. induction n as [|n IH]; [reflexivity|]. cbn [repeat allpass_from].
  change (fadd (fmul (fsub (f0 : F32) f0) c) f0) with (b32_plus (b32_mult (b32_minus (@f0 F32) (@f0 F32)) c) (@f0 F32)). rewrite H. f_equal. exact IH.
Qed.
