(** * Sums of products in binary32: rounding errors and overflow *)
From Coq Require Import ZArith Reals List Lia Lra Bool ZifyNat ZifyBool.
From Flocq Require Import Core Relative Plus_error BinarySingleNaN.
From Verif Require Import Arith ArithR ArithF Spec SpecOk SpecR.
Import ListNotations.
Open Scope Z_scope.

Notation fin v := (is_finite (v : b32) = true).
Notation val v := (B2R (v : b32)).
Notation fexp32 := (FLT_exp (-149) 24).
Notation rnd := (round radix2 fexp32 ZnearestE).

Lemma fexp_eq e : SpecFloat.fexp 24 128 e = fexp32 e. Proof. reflexivity. Qed.
Lemma rnd_eq x : round radix2 (SpecFloat.fexp 24 128) (round_mode mode_NE) x = rnd x. Proof. reflexivity. Qed.

(** operands of a finite result are finite *)
Lemma plus_fin_inv a b : fin (b32_plus a b) -> fin a /\ fin b.
Proof.
  unfold b32_plus. destruct a as [sa|sa| |sa ma ea Ha], b as [sb|sb| |sb mb eb Hb]; cbn; intros H; try discriminate; try (split; reflexivity).
  destruct (Bool.eqb sa sb); discriminate.
Qed.
Lemma mult_fin_inv a b : fin (b32_mult a b) -> fin a /\ fin b.
Proof.
  unfold b32_mult. destruct a as [sa|sa| |sa ma ea Ha], b as [sb|sb| |sb mb eb Hb]; cbn; intros H; try discriminate; split; reflexivity.
Qed.
Lemma overflow_not_fin s (v : b32) : B2SF v = binary_overflow 24 128 mode_NE s -> ~ fin v.
Proof. intros E F. rewrite <- is_finite_SF_B2SF, E in F. destruct s; discriminate. Qed.

Lemma plus_val a b : fin (b32_plus a b) -> val (b32_plus a b) = rnd (val a + val b).
Proof.
  intros F. destruct (plus_fin_inv _ _ F) as [Fa Fb].
  pose proof (Bplus_correct 24 128 Hprec32 Hmax32 mode_NE a b Fa Fb) as H. rewrite rnd_eq in H.
  destruct (Rlt_bool _ _); [apply H|]. destruct H as [H _]. now apply overflow_not_fin in H.
Qed.
Lemma mult_val a b : fin (b32_mult a b) -> val (b32_mult a b) = rnd (val a * val b).
Proof.
  intros F. pose proof (Bmult_correct 24 128 Hprec32 Hmax32 mode_NE a b) as H. rewrite rnd_eq in H.
  destruct (Rlt_bool _ _); [apply H|]. now apply overflow_not_fin in H.
Qed.

(** and conversely, if the rounded result is in range *)
Lemma plus_fin a b : fin a -> fin b -> (Rabs (rnd (val a + val b)) < bpow radix2 128)%R -> fin (b32_plus a b).
Proof.
  intros Fa Fb L. pose proof (Bplus_correct 24 128 Hprec32 Hmax32 mode_NE a b Fa Fb) as H. rewrite rnd_eq in H.
  rewrite Rlt_bool_true in H by exact L. apply H.
Qed.
Lemma mult_fin a b : fin a -> fin b -> (Rabs (rnd (val a * val b)) < bpow radix2 128)%R -> fin (b32_mult a b).
Proof.
  intros Fa Fb L. pose proof (Bmult_correct 24 128 Hprec32 Hmax32 mode_NE a b) as H. rewrite rnd_eq in H.
  rewrite Rlt_bool_true in H by exact L. destruct H as (_ & H & _). unfold b32_mult. now rewrite H, Fa, Fb.
Qed.

(** ** Rounding errors *)
Definition ulp1 : R := bpow radix2 (-24).
Definition tiny : R := bpow radix2 (-150).

Lemma u_ro_eq : u_ro radix2 24 = ulp1.
Proof. unfold u_ro, ulp1. change (-24) with (-1 + -23). rewrite bpow_plus. cbn. lra. Qed.
Lemma ulp1_pos : (0 < ulp1)%R. Proof. apply bpow_gt_0. Qed.
Lemma tiny_pos : (0 < tiny)%R. Proof. apply bpow_gt_0. Qed.

Lemma plus_err a b : fin (b32_plus a b) ->
  (Rabs (val (b32_plus a b) - (val a + val b)) <= ulp1 * Rabs (val a + val b))%R.
Proof.
  intros F. rewrite (plus_val _ _ F).
  assert (Ga : generic_format radix2 fexp32 (val a)) by apply (generic_format_B2R 24 128).
  assert (Gb : generic_format radix2 fexp32 (val b)) by apply (generic_format_B2R 24 128).
  destruct (@FLT_plus_error_N_ex radix2 (-149) 24 Hprec32 (fun x => negb (Z.even x)) (val a) (val b) Ga Gb) as (eps & He & ->).
  replace ((val a + val b) * (1 + eps) - (val a + val b))%R with (eps * (val a + val b))%R by ring.
  rewrite Rabs_mult. apply Rmult_le_compat_r; [apply Rabs_pos|]. eapply Rle_trans; [exact He|].
  rewrite u_ro_eq. pose proof ulp1_pos. apply Rmult_le_reg_r with (1 + ulp1)%R; [lra|].
  unfold Rdiv. rewrite Rmult_assoc, Rinv_l, Rmult_1_r by lra. nra.
Qed.
Lemma mult_err a b : fin (b32_mult a b) ->
  (Rabs (val (b32_mult a b) - val a * val b) <= ulp1 * Rabs (val a * val b) + tiny)%R.
Proof.
  intros F. rewrite (mult_val _ _ F).
  destruct (relative_error_N_FLT'_ex radix2 (-149) 24 Hprec32 (fun x => negb (Z.even x)) (val a * val b)) as (eps & eta & He & Ht & _ & ->).
  replace (val a * val b * (1 + eps) + eta - val a * val b)%R with (eps * (val a * val b) + eta)%R by ring.
  eapply Rle_trans; [apply Rabs_triang|]. apply Rplus_le_compat.
  - rewrite Rabs_mult. apply Rmult_le_compat_r; [apply Rabs_pos|]. eapply Rle_trans; [exact He|].
    rewrite u_ro_eq. pose proof ulp1_pos. apply Rmult_le_reg_r with (1 + ulp1)%R; [lra|].
    unfold Rdiv. rewrite Rmult_assoc, Rinv_l, Rmult_1_r by lra. nra.
  - eapply Rle_trans; [exact Ht|]. apply Req_le. unfold tiny. change (-150) with (-1 + -149). rewrite bpow_plus. cbn. lra.
Qed.

(** v is the sum s of products with absolute sum a, n of which may underflow,
    computed with at most k roundings on each path *)
Definition near_sum (k : nat) (v : b32) (s a n : R) : Prop :=
  (Rabs (val v - s) <= ((1 + ulp1) ^ k - 1) * a + (1 + ulp1) ^ k * n * tiny /\ Rabs s <= a /\ 0 <= n)%R.

Lemma pow_ge1 k : (1 <= (1 + ulp1) ^ k)%R.
Proof. apply pow_R1_Rle. pose proof ulp1_pos. lra. Qed.
Lemma ns_more k k' v s a n : near_sum k v s a n -> (k <= k')%nat -> near_sum k' v s a n.
Proof.
  intros (H & Ha & Hn) L. split; [|split; assumption]. pose proof tiny_pos.
  assert (P : ((1 + ulp1) ^ k <= (1 + ulp1) ^ k')%R) by (apply Rle_pow; [pose proof ulp1_pos; lra | exact L]).
  pose proof (Rabs_pos s).
  assert ((1 + ulp1) ^ k * n * tiny <= (1 + ulp1) ^ k' * n * tiny)%R.
  { apply Rmult_le_compat_r; [lra|]. apply Rmult_le_compat_r; lra. }
  assert (((1 + ulp1) ^ k - 1) * a <= ((1 + ulp1) ^ k' - 1) * a)%R by (apply Rmult_le_compat_r; lra). lra.
Qed.
Lemma ns_zero k s : near_sum k (B754_zero s) 0 0 0.
Proof. split; [|split; [rewrite Rabs_R0|]; lra]. cbn. rewrite Rminus_0_r, Rabs_R0. lra. Qed.
Lemma ns_mult x t : fin (b32_mult x t) -> near_sum 1 (b32_mult x t) (val x * val t) (Rabs (val x) * Rabs (val t)) 1.
Proof.
  intros F. rewrite <- Rabs_mult. split; [|split; lra]. rewrite pow_1. pose proof (mult_err x t F). pose proof ulp1_pos. pose proof tiny_pos.
  assert (0 <= ulp1 * tiny)%R by (apply Rmult_le_pos; lra). lra.
Qed.
Lemma ns_mult' x t : fin (b32_mult x t) -> near_sum 1 (b32_mult x t) (val x * val t) (Rabs (val x) * Rabs (val t)) (1 * 1).
Proof. rewrite Rmult_1_l. apply ns_mult. Qed.
Lemma ns_mult_zero x s : fin x -> near_sum 1 (b32_mult x (B754_zero s)) 0 0 0.
Proof.
  intros F. destruct x as [sx|sx| |sx mx ex Hx]; try discriminate; apply ns_zero.
Qed.
Lemma ns_plus k v s a n v' s' a' n' : fin (b32_plus v v') -> near_sum k v s a n -> near_sum k v' s' a' n' ->
  near_sum (S k) (b32_plus v v') (s + s') (a + a') (n + n').
Proof.
  intros F (H & Ha & Hn) (H' & Ha' & Hn').
  split; [|split; [eapply Rle_trans; [apply Rabs_triang | lra] | lra]].
  pose proof (plus_err v v' F) as Pe. set (p := val (b32_plus v v')) in *. set (q := (1 + ulp1)%R) in *.
  pose proof (pow_ge1 k) as G. fold q in G.
  assert (T : (Rabs (val v + val v' - (s + s')) <= (q ^ k - 1) * (a + a') + q ^ k * (n + n') * tiny)%R).
  { replace (val v + val v' - (s + s'))%R with ((val v - s) + (val v' - s'))%R by ring. eapply Rle_trans; [apply Rabs_triang | lra]. }
  assert (B : (Rabs (val v + val v') <= (a + a') + ((q ^ k - 1) * (a + a') + q ^ k * (n + n') * tiny))%R).
  { replace (val v + val v')%R with ((s + s') + (val v + val v' - (s + s')))%R by ring. eapply Rle_trans; [apply Rabs_triang|].
    apply Rplus_le_compat; [|exact T]. eapply Rle_trans; [apply Rabs_triang | lra]. }
  replace (p - (s + s'))%R with ((p - (val v + val v')) + (val v + val v' - (s + s')))%R by ring.
  eapply Rle_trans; [apply Rabs_triang|].
  assert (U : (ulp1 * Rabs (val v + val v') <= ulp1 * ((a + a') + ((q ^ k - 1) * (a + a') + q ^ k * (n + n') * tiny)))%R)
    by (apply Rmult_le_compat_l; [apply Rlt_le, ulp1_pos | exact B]).
  cbn [pow].
  replace ((q * q ^ k - 1) * (a + a') + q * q ^ k * (n + n') * tiny)%R
    with (ulp1 * ((a + a') + ((q ^ k - 1) * (a + a') + q ^ k * (n + n') * tiny)) + ((q ^ k - 1) * (a + a') + q ^ k * (n + n') * tiny))%R
    by (unfold q; ring). lra.
Qed.

(** the same sums over the reals: values, absolute values, numbers of products *)
Section Sums.
Variables (w t : Z -> b32).
Let wr (i : Z) : RA := val (w i).
Let tr (i : Z) : RA := val (t i).
Let wa (i : Z) : RA := Rabs (val (w i)).
Let ta (i : Z) : RA := Rabs (val (t i)).
Let one (i : Z) : RA := 1%R.

Lemma ns_mac n : fin (mac (A := F32) n w t) ->
  near_sum (n + 1) (mac (A := F32) n w t) (mac n wr tr) (mac n wa ta) (mac n one one).
Proof.
  induction n as [|n IH]; cbn [mac]; intros F; [apply ns_zero|].
  destruct (plus_fin_inv _ _ F) as [F1 F2]. change (S n + 1)%nat with (S (n + 1)).
  apply ns_plus; [exact F | now apply IH | apply ns_more with 1%nat; [exact (ns_mult' _ _ F2) | lia]].
Qed.
Lemma ns_vterm n i : fin (vterm (A := F32) n w t i) ->
  near_sum 1 (vterm (A := F32) n w t i) (vterm n wr tr i) (vterm n wa ta i) (vterm n one one i).
Proof.
  unfold vterm, tap0. destruct ((0 <=? i) && (i <? n)); cbn [fmul F32 RA f0]; intros F.
  - exact (ns_mult' _ _ F).
  - rewrite !Rmult_0_r. apply ns_mult_zero. now apply (mult_fin_inv _ _ F).
Qed.
Lemma ns_vlane n s g : fin (vlane (A := F32) n w t s g) ->
  near_sum (g + 1) (vlane (A := F32) n w t s g) (vlane n wr tr s g) (vlane n wa ta s g) (vlane n one one s g).
Proof.
  induction g as [|g IH]; cbn [vlane]; intros F; [now apply ns_vterm|].
  destruct (plus_fin_inv _ _ F) as [F1 F2]. change (S g + 1)%nat with (S (g + 1)).
  apply ns_plus; [exact F | now apply IH | eapply ns_more; [now apply ns_vterm | lia]].
Qed.
Lemma ns_vmac n j : fin (vmac (A := F32) n w t j) ->
  near_sum (Z.to_nat ((n + 6) / 4 - 1) + 4) (vmac (A := F32) n w t j) (vmac n wr tr j) (vmac n wa ta j) (vmac n one one j).
Proof.
  unfold vmac. cbv zeta. set (g := Z.to_nat ((n + 6) / 4 - 1)). intros F.
  destruct (plus_fin_inv _ _ F) as [F1 F2]. destruct (plus_fin_inv _ _ F1) as [F3 F4]. destruct (plus_fin_inv _ _ F3) as [F5 F6].
  replace (g + 4)%nat with (S (S (S (g + 1)))) by lia.
  apply ns_plus; [exact F | | eapply ns_more; [now apply ns_vlane | lia]].
  apply ns_plus; [exact F1 | | eapply ns_more; [now apply ns_vlane | lia]].
  apply ns_plus; [exact F3 | now apply ns_vlane | now apply ns_vlane].
Qed.

Lemma sumR_const n : sumR n (fun _ => 1%R) = INR n.
Proof. induction n as [|n IH]; [reflexivity|]. rewrite S_INR. cbn [sumR]. now rewrite IH. Qed.

Theorem ns_sum_of vec n v : 0 <= n -> sum_of (A := F32) vec n w t v -> fin v ->
  near_sum (Z.to_nat n + 4) v (sumR (Z.to_nat n) (fun i => val (w i) * val (t i))%R)
    (sumR (Z.to_nat n) (fun i => Rabs (val (w i)) * Rabs (val (t i)))%R) (IZR n).
Proof.
  intros Hn H F.
  assert (E1 : forall k, sumR k (fun i => (one i * one i)%R) = INR k).
  { intros k. rewrite <- sumR_const. apply sumR_ext. intros. unfold one. lra. }
  replace (IZR n) with (INR (Z.to_nat n)) by (rewrite INR_IZR_INZ; f_equal; lia).
  destruct H as [->|(_ & j & Hj & ->)].
  - pose proof (ns_mac _ F) as Q. rewrite !mac_sum, E1 in Q. eapply ns_more; [exact Q | lia].
  - pose proof (ns_vmac _ _ F) as Q. rewrite !vmac_sum, E1 in Q by assumption. eapply ns_more; [exact Q|].
    pose proof (Z.div_mod (n + 6) 4 ltac:(lia)). pose proof (Z.mod_pos_bound (n + 6) 4 ltac:(lia)). lia.
Qed.
(** every sample in the window is finite *)
Lemma mac_fin_inv n : fin (mac (A := F32) n w t) -> forall i, 0 <= i < Z.of_nat n -> fin (w i) /\ fin (t i).
Proof.
  induction n as [|n IH]; [lia|]. cbn [mac]. intros F i Hi. destruct (plus_fin_inv _ _ F) as [F1 F2].
  destruct (Z.eq_dec i (Z.of_nat n)) as [->|]; [now apply mult_fin_inv | apply IH; [exact F1 | lia]].
Qed.
End Sums.

(** k roundings cost at most k + 1 units *)
Lemma pow_bound k : Z.of_nat k <= 4000 -> ((1 + ulp1) ^ k - 1 <= IZR (Z.of_nat k + 1) * ulp1)%R.
Proof.
  intros Hk. pose proof ulp1_pos as U. set (K := IZR (Z.of_nat k)).
  assert (K0 : (0 <= K <= 4000)%R) by (unfold K; split; apply IZR_le; lia).
  assert (U1 : (ulp1 * 16777216 = 1)%R) by (unfold ulp1; cbn; lra).
  assert (B : ((1 + ulp1) ^ k * (1 - K * ulp1) <= 1)%R).
  { unfold K. clear K K0. induction k as [|k IH]; [cbn; lra|]. cbn [pow].
    assert (I : ((1 + ulp1) ^ k * (1 - IZR (Z.of_nat k) * ulp1) <= 1)%R) by (apply IH; lia).
    assert (0 <= (1 + ulp1) ^ k)%R by (apply pow_le; lra).
    rewrite Nat2Z.inj_succ, succ_IZR. set (K := IZR (Z.of_nat k)) in *.
    assert ((1 + ulp1) * (1 - (K + 1) * ulp1) <= 1 - K * ulp1)%R.
    { assert (0 <= K)%R by (unfold K; apply IZR_le; lia). assert (0 <= K * (ulp1 * ulp1))%R by (apply Rmult_le_pos; [lra | apply Rmult_le_pos; lra]).
      assert (0 <= ulp1 * ulp1)%R by (apply Rmult_le_pos; lra). lra. }
    assert ((1 + ulp1) ^ k * ((1 + ulp1) * (1 - (K + 1) * ulp1)) <= (1 + ulp1) ^ k * (1 - K * ulp1))%R by (apply Rmult_le_compat_l; lra). lra. }
  rewrite plus_IZR. fold K. set (P := ((1 + ulp1) ^ k)%R) in *. pose proof (pow_ge1 k) as P1. fold P in P1.
  assert (S1 : (K * ulp1 <= 1 / 2)%R) by (assert (K * ulp1 <= 4000 * ulp1)%R by (apply Rmult_le_compat_r; lra); lra).
  assert (S2 : (K * (K * ulp1) <= 1)%R).
  { assert (K * (K * ulp1) <= 4000 * (4000 * ulp1))%R; [|lra].
    apply Rmult_le_compat; [lra | apply Rmult_le_pos; lra | lra | apply Rmult_le_compat_r; lra]. }
  apply Rmult_le_reg_r with (1 - K * ulp1)%R; [lra|].
  assert (D : ((P - 1) * (1 - K * ulp1) <= K * ulp1)%R) by lra. eapply Rle_trans; [exact D|].
  assert (E : ((K + 1) * ulp1 * (1 - K * ulp1) = K * ulp1 + ulp1 * (1 - K * (K * ulp1) - K * ulp1))%R) by ring. rewrite E.
  assert (S3 : (K * (K * ulp1) + K * ulp1 <= 1)%R).
  { assert (K * (K * ulp1) <= 4000 * (4000 * ulp1))%R; [|assert (K * ulp1 <= 4000 * ulp1)%R by (apply Rmult_le_compat_r; lra); lra].
    apply Rmult_le_compat; [lra | apply Rmult_le_pos; lra | lra | apply Rmult_le_compat_r; lra]. }
  assert (0 <= ulp1 * (1 - K * (K * ulp1) - K * ulp1))%R by (apply Rmult_le_pos; lra). lra.
Qed.

Corollary near_sum_bound k v s a n : Z.of_nat k <= 4000 -> near_sum k v s a n ->
  (Rabs (val v - s) <= IZR (Z.of_nat k + 1) * bpow radix2 (-24) * a + n * bpow radix2 (-149))%R.
Proof.
  intros Hk (H & Ha & Hn). pose proof (pow_bound k Hk) as P. fold ulp1. pose proof (Rabs_pos s).
  assert (U1 : (ulp1 * 16777216 = 1)%R) by (unfold ulp1; cbn; lra). pose proof ulp1_pos.
  assert (Q : ((1 + ulp1) ^ k <= 2)%R).
  { assert (IZR (Z.of_nat k + 1) * ulp1 <= 4001 * ulp1)%R; [|lra]. apply Rmult_le_compat_r; [lra|]. apply IZR_le. lia. }
  assert (T : (2 * tiny = bpow radix2 (-149))%R) by (unfold tiny; change (-149) with (1 + -150); rewrite bpow_plus; reflexivity).
  pose proof tiny_pos.
  assert (((1 + ulp1) ^ k - 1) * a <= IZR (Z.of_nat k + 1) * ulp1 * a)%R by (apply Rmult_le_compat_r; lra).
  assert ((1 + ulp1) ^ k * n * tiny <= n * bpow radix2 (-149))%R; [|lra].
  rewrite <- T. assert ((1 + ulp1) ^ k * (n * tiny) <= 2 * (n * tiny))%R by (apply Rmult_le_compat_r; [apply Rmult_le_pos; lra | exact Q]). lra.
Qed.

(** ** Overflow *)

(** v is finite and at most c 2^e *)
Definition atmost (c e : Z) (v : b32) : Prop := fin v /\ (Rabs (val v) <= IZR c * bpow radix2 e)%R.

Lemma atmost_format c e : 0 <= c <= 2 ^ 24 -> -149 <= e -> generic_format radix2 fexp32 (IZR c * bpow radix2 e)%R.
Proof.
  intros Hc He. destruct (Z.eq_dec c (2 ^ 24)) as [->|N].
  - change (IZR (2 ^ 24)) with (bpow radix2 24). rewrite <- bpow_plus. apply generic_format_bpow. unfold FLT_exp. lia.
  - apply generic_format_FLT. exists (Float radix2 c e); cbn [Fnum Fexp]; [reflexivity | change (Z.abs c < 2 ^ 24); lia | exact He].
Qed.
Lemma rnd_atmost c e x : 0 <= c <= 2 ^ 24 -> -149 <= e -> (Rabs x <= IZR c * bpow radix2 e)%R -> (Rabs (rnd x) <= IZR c * bpow radix2 e)%R.
Proof.
  intros Hc He H. apply abs_round_le_generic; [apply FLT_exp_valid; exact Hprec32 | apply valid_rnd_N | now apply atmost_format | exact H].
Qed.
Lemma atmost_lt c e : 0 <= c <= 64 -> e <= 121 -> (IZR c * bpow radix2 e < bpow radix2 128)%R.
Proof.
  intros Hc He. apply Rle_lt_trans with (bpow radix2 6 * bpow radix2 e)%R.
  - apply Rmult_le_compat_r; [apply bpow_ge_0|]. change (bpow radix2 6) with (IZR 64). apply IZR_le. lia.
  - rewrite <- bpow_plus. apply bpow_lt. lia.
Qed.
Lemma atmost_more c c' e v : atmost c e v -> c <= c' -> atmost c' e v.
Proof. intros [F H] L. split; [exact F|]. eapply Rle_trans; [exact H|]. apply Rmult_le_compat_r; [apply bpow_ge_0 | now apply IZR_le]. Qed.
Lemma atmost_plus c c' e v v' : 0 <= c -> 0 <= c' -> c + c' <= 64 -> -149 <= e <= 121 ->
  atmost c e v -> atmost c' e v' -> atmost (c + c') e (b32_plus v v').
Proof.
  intros C C' S He [F H] [F' H'].
  assert (B : (Rabs (val v + val v') <= IZR (c + c') * bpow radix2 e)%R).
  { rewrite plus_IZR. eapply Rle_trans; [apply Rabs_triang | lra]. }
  apply (rnd_atmost (c + c') e) in B; [|lia|lia].
  assert (FP : fin (b32_plus v v')).
  { apply plus_fin; [exact F | exact F'|]. eapply Rle_lt_trans; [exact B | apply atmost_lt; lia]. }
  split; [exact FP|]. now rewrite plus_val.
Qed.
Lemma atmost_mult c e x t : 0 <= c <= 64 -> -149 <= e <= 121 -> atmost c e x -> fin t -> (Rabs (val t) <= 1)%R -> atmost c e (b32_mult x t).
Proof.
  intros C He [F H] Ft Ht.
  assert (B : (Rabs (val x * val t) <= IZR c * bpow radix2 e)%R).
  { rewrite Rabs_mult. rewrite <- (Rmult_1_r (IZR c * bpow radix2 e)). apply Rmult_le_compat; try apply Rabs_pos; assumption. }
  apply (rnd_atmost c e) in B; [|lia|lia].
  assert (FP : fin (b32_mult x t)).
  { apply mult_fin; [exact F | exact Ft|]. eapply Rle_lt_trans; [exact B | apply atmost_lt; lia]. }
  split; [exact FP|]. now rewrite mult_val.
Qed.

Section Over.
Variables (e : Z) (w t : Z -> b32).
Hypothesis He : -149 <= e <= 121.
Hypothesis Hw : forall i, atmost 1 e (w i).
Hypothesis Ht : forall i, fin (t i) /\ (Rabs (val (t i)) <= 1)%R.

Lemma am_mac n : Z.of_nat n <= 64 -> atmost (Z.of_nat n) e (mac (A := F32) n w t).
Proof.
  induction n as [|n IH]; intros L; cbn [mac].
  - split; [reflexivity|]. cbn. rewrite Rabs_R0. lra.
  - replace (Z.of_nat (S n)) with (Z.of_nat n + 1) by lia. apply atmost_plus; try lia; [apply IH; lia|].
    destruct (Ht (Z.of_nat n)). now apply atmost_mult.
Qed.
Lemma am_vterm n i : atmost 1 e (vterm (A := F32) n w t i).
Proof.
  unfold vterm, tap0. destruct ((0 <=? i) && (i <? n)).
  - destruct (Ht i). now apply atmost_mult.
  - apply atmost_mult; [lia | exact He | apply Hw | reflexivity | cbn; rewrite Rabs_R0; lra].
Qed.
Lemma am_vlane n s g : Z.of_nat g + 1 <= 64 -> atmost (Z.of_nat g + 1) e (vlane (A := F32) n w t s g).
Proof.
  induction g as [|g IH]; intros L; cbn [vlane]; [apply am_vterm|].
  replace (Z.of_nat (S g) + 1) with (Z.of_nat g + 1 + 1) by lia. apply atmost_plus; try lia; [apply IH; lia | apply am_vterm].
Qed.
Theorem am_sum_of vec n v : 0 <= n <= 58 -> sum_of (A := F32) vec n w t v -> atmost (n + 6) e v.
Proof.
  intros Hn [->|(_ & j & Hj & ->)].
  - apply atmost_more with (Z.of_nat (Z.to_nat n)); [|lia]. apply am_mac. lia.
  - unfold vmac. cbv zeta. set (g := Z.to_nat ((n + 6) / 4 - 1)).
    pose proof (Z.div_mod (n + 6) 4 ltac:(lia)). pose proof (Z.mod_pos_bound (n + 6) 4 ltac:(lia)).
    apply atmost_more with ((Z.of_nat g + 1) + (Z.of_nat g + 1) + (Z.of_nat g + 1) + (Z.of_nat g + 1)); [|lia].
    repeat (apply atmost_plus; try lia); apply am_vlane; lia.
Qed.
End Over.
