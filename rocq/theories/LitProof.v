(** * Decimal literals: the conversions of Arith.v are correctly rounded

    [round_rat] is rounding to nearest, ties to even, in the sense of Flocq. *)
From Coq Require Import ZArith Reals List Lia Lra Bool.
From Flocq Require Import Core BinarySingleNaN Mult_error.
From Verif Require Import Arith ArithF Tables ResamplerModel ResamplerOk Spec TablesF FloatSum.
Import ListNotations.
Open Scope Z_scope.

Notation dy m e := (F2R (Float radix2 m e)).

Lemma two_pow k : 0 <= k -> IZR (2 ^ k) = bpow radix2 k.
Proof. intros H. exact (IZR_Zpower radix2 k H). Qed.

(** quotients of integers, scaled by a power of two *)
Lemma scaled n d e : 0 < d ->
  (IZR (if 0 <=? e then n else n * 2 ^ (- e)) / IZR (if 0 <=? e then d * 2 ^ e else d) = IZR n / IZR d * bpow radix2 (- e))%R.
Proof.
  intros Hd. assert (D : (IZR d <> 0)%R) by (apply not_0_IZR; lia). destruct (Z.leb_spec 0 e) as [H|H].
  - rewrite mult_IZR, two_pow by exact H. rewrite bpow_opp. pose proof (bpow_gt_0 radix2 e). field. split; [lra | exact D].
  - rewrite mult_IZR, two_pow by lia. field. exact D.
Qed.
Lemma scaled_pos d e : 0 < d -> 0 < (if 0 <=? e then d * 2 ^ e else d).
Proof. intros H. destruct (Z.leb_spec 0 e); [|exact H]. pose proof (Z.pow_pos_nonneg 2 e). lia. Qed.
Lemma floor_div a b : 0 < b -> Zfloor (IZR a / IZR b) = a / b.
Proof.
  intros H. apply Zfloor_imp. assert (B : (0 < IZR b)%R) by (apply IZR_lt; exact H). split.
  - apply Rmult_le_reg_r with (IZR b); [exact B|]. unfold Rdiv. rewrite Rmult_assoc, Rinv_l, Rmult_1_r, <- mult_IZR by lra. apply IZR_le. pose proof (Z.mul_div_le a b H). lia.
  - apply Rmult_lt_reg_r with (IZR b); [exact B|]. unfold Rdiv. rewrite Rmult_assoc, Rinv_l, Rmult_1_r, <- mult_IZR by lra. apply IZR_lt. pose proof (Z.mul_succ_div_gt a b H). lia.
Qed.

(** rounding a quotient to the nearest integer *)
Lemma nearest_div a b : 0 < b ->
  ZnearestE (IZR a / IZR b) =
  let q := a / b in let r := a - q * b in
  if 2 * r <? b then q else if b <? 2 * r then q + 1 else if Z.even q then q else q + 1.
Proof.
  intros H. cbn zeta. assert (B : (0 < IZR b)%R) by (apply IZR_lt; exact H).
  unfold Znearest. rewrite floor_div by exact H. set (q := a / b).
  assert (R0 : 0 <= a - q * b < b) by (unfold q; pose proof (Z.mod_pos_bound a b H); rewrite Z.mod_eq in *; lia).
  assert (E : (IZR a / IZR b - IZR q = IZR (a - q * b) / IZR b)%R) by (rewrite minus_IZR, mult_IZR; field; lra).
  assert (C : 0 < a - q * b -> Zceil (IZR a / IZR b) = q + 1).
  { intros P. rewrite Zceil_floor_neq; rewrite floor_div by exact H; fold q; [reflexivity|].
    intros Q. assert (Z0 : (IZR (a - q * b) / IZR b = 0)%R) by (rewrite <- E, Q; ring).
    assert (0 < IZR (a - q * b) / IZR b)%R by (apply Rdiv_lt_0_compat; [apply IZR_lt; lia | exact B]). lra. }
  rewrite E. set (r := a - q * b) in *.
  assert (S : (IZR r / IZR b = / 2 + IZR (2 * r - b) / (2 * IZR b))%R) by (rewrite minus_IZR, mult_IZR; field; lra).
  destruct (Z.ltb_spec (2 * r) b) as [L|L].
  - rewrite Rcompare_Lt; [reflexivity|]. rewrite S. assert (IZR (2 * r - b) / (2 * IZR b) < 0)%R; [|lra].
    apply Rmult_lt_reg_r with (2 * IZR b)%R; [lra|]. unfold Rdiv. rewrite Rmult_assoc, Rinv_l, Rmult_1_r, Rmult_0_l by lra. apply IZR_lt. lia.
  - destruct (Z.ltb_spec b (2 * r)) as [G|G].
    + rewrite Rcompare_Gt; [apply C; lia|]. rewrite S. assert (0 < IZR (2 * r - b) / (2 * IZR b))%R; [|lra]. apply Rdiv_lt_0_compat; [apply IZR_lt; lia | lra].
    + rewrite Rcompare_Eq; [|rewrite S; replace (2 * r - b) with 0 by lia; field; lra]. destruct (Z.even q); cbn [negb]; [reflexivity | apply C; lia].
Qed.

Lemma log2_bpow n : 0 < n -> (bpow radix2 (Z.log2 n) <= IZR n < bpow radix2 (Z.log2 n + 1))%R.
Proof.
  intros H. pose proof (Z.log2_spec n H). pose proof (Z.log2_nonneg n). rewrite <- !two_pow by lia. split; [apply IZR_le | apply IZR_lt]; lia.
Qed.

Theorem round_rat_correct p n d : 0 < p -> 0 <= n -> 0 < d ->
  let '(q, e) := round_rat p n d in dy q e = round radix2 (FLX_exp p) ZnearestE (IZR n / IZR d).
Proof.
  intros Hp Hn Hd. unfold round_rat. destruct (Z.eqb_spec n 0) as [->|N].
  { unfold Rdiv. rewrite Rmult_0_l, round_0 by apply valid_rnd_N. apply F2R_0. }
  assert (Hn' : 0 < n) by lia. clear Hn N. cbv zeta.
  set (e0 := Z.log2 n - Z.log2 d - p).
  set (x := (IZR n / IZR d)%R).
  destruct (log2_bpow n Hn') as [N1 N2]. destruct (log2_bpow d Hd) as [D1 D2].
  assert (Dp : (0 < IZR d)%R) by (apply IZR_lt; exact Hd). assert (Np : (0 < IZR n)%R) by (apply IZR_lt; exact Hn').
  assert (X0 : (0 < x)%R) by (apply Rdiv_lt_0_compat; assumption).
  set (q0 := if 0 <=? e0 then n / (d * 2 ^ e0) else n * 2 ^ (- e0) / d).
  assert (Q0 : q0 = Zfloor (x * bpow radix2 (- e0))).
  { unfold x. rewrite <- scaled, floor_div by (try apply scaled_pos; exact Hd). unfold q0. destruct (0 <=? e0); reflexivity. }
  assert (XL : (bpow radix2 (p - 1) < x * bpow radix2 (- e0))%R).
  { apply Rmult_lt_reg_r with (IZR d * bpow radix2 e0)%R; [apply Rmult_lt_0_compat; [exact Dp | apply bpow_gt_0]|].
    replace (x * bpow radix2 (- e0) * (IZR d * bpow radix2 e0))%R with (IZR n * (bpow radix2 (- e0) * bpow radix2 e0))%R by (unfold x; field; lra).
    rewrite <- bpow_plus, Z.add_opp_diag_l, Rmult_1_r. apply Rlt_le_trans with (2 := N1).
    rewrite (Rmult_comm (IZR d)), <- Rmult_assoc, <- bpow_plus. apply Rlt_le_trans with (bpow radix2 (p - 1 + e0) * bpow radix2 (Z.log2 d + 1))%R.
    - apply Rmult_lt_compat_l; [apply bpow_gt_0 | exact D2].
    - rewrite <- bpow_plus. apply bpow_le. unfold e0. lia. }
  assert (Q1 : 2 ^ (p - 1) <= q0).
  { rewrite Q0. apply Zfloor_lub. rewrite two_pow by lia. apply Rlt_le. exact XL. }
  assert (Q2 : 0 < q0) by (pose proof (Z.pow_pos_nonneg 2 (p - 1)); lia).
  set (e1 := e0 + (Z.log2 q0 + 1 - p)).
  assert (M : mag radix2 x = (e1 + p) :> Z).
  { apply mag_unique. rewrite Rabs_pos_eq by lra. destruct (log2_bpow q0 Q2) as [L1 L2].
    pose proof (Zfloor_lb (x * bpow radix2 (- e0))) as F1. pose proof (Zfloor_ub (x * bpow radix2 (- e0))) as F2. rewrite <- Q0 in F1, F2.
    pose proof (bpow_gt_0 radix2 e0) as B0.
    assert (Xe : x = (x * bpow radix2 (- e0) * bpow radix2 e0)%R) by (rewrite Rmult_assoc, <- bpow_plus, Z.add_opp_diag_l; cbn; ring).
    split.
    - rewrite Xe. replace (e1 + p - 1) with (Z.log2 q0 + e0) by (unfold e1; lia). rewrite bpow_plus. apply Rmult_le_compat_r; [lra|]. lra.
    - rewrite Xe. replace (e1 + p) with (Z.log2 q0 + 1 + e0) by (unfold e1; lia). rewrite bpow_plus. apply Rmult_lt_compat_r; [exact B0|].
      apply Rlt_le_trans with (1 := F2). rewrite <- two_pow by (pose proof (Z.log2_nonneg q0); lia). rewrite <- plus_IZR. apply IZR_le.
      pose proof (Z.log2_spec q0 Q2). pose proof (Z.log2_nonneg q0). lia. }
  assert (CE : cexp radix2 (FLX_exp p) x = e1) by (unfold cexp, FLX_exp; rewrite M; lia).
  unfold round, scaled_mantissa. rewrite CE.
  set (num := if 0 <=? e1 then n else n * 2 ^ (- e1)). set (den := if 0 <=? e1 then d * 2 ^ e1 else d).
  assert (SM : (x * bpow radix2 (- e1) = IZR num / IZR den)%R) by (symmetry; apply scaled; exact Hd).
  rewrite SM, nearest_div by (apply scaled_pos; exact Hd). reflexivity.
Qed.

Lemma dy_sign (s q e : Z) : dy (s * q) e = (IZR s * dy q e)%R.
Proof. unfold F2R. cbn [Fnum Fexp]. rewrite mult_IZR. ring. Qed.
Lemma round_sign p s x : 0 < p -> s = -1 \/ s = 0 \/ s = 1 -> round radix2 (FLX_exp p) ZnearestE (IZR s * x) = (IZR s * round radix2 (FLX_exp p) ZnearestE x)%R.
Proof.
  intros Hp [->|[->| ->]].
  - replace (-1 * x)%R with (- x)%R by ring. rewrite round_NE_opp. ring.
  - rewrite !Rmult_0_l. apply round_0, valid_rnd_N.
  - now rewrite !Rmult_1_l.
Qed.
Lemma sgn_cases m : Z.sgn m = -1 \/ Z.sgn m = 0 \/ Z.sgn m = 1.
Proof. destruct m; cbn; auto. Qed.

Theorem round_dyadic_correct p m e : 0 < p -> let '(q, e') := round_dyadic p m e in dy q e' = round radix2 (FLX_exp p) ZnearestE (dy m e).
Proof.
  intros Hp. unfold round_dyadic.
  assert (V : dy m e = (IZR (Z.sgn m) * (IZR (if 0 <=? e then Z.abs m * 2 ^ e else Z.abs m) / IZR (if 0 <=? e then 1 else 2 ^ (- e))))%R).
  { rewrite <- (Z.abs_sgn m) at 1. rewrite Z.mul_comm, dy_sign. apply f_equal. unfold F2R. cbn [Fnum Fexp]. destruct (Z.leb_spec 0 e).
    - rewrite mult_IZR, two_pow by lia. field.
    - rewrite two_pow, bpow_opp by lia. unfold Rdiv. now rewrite Rinv_inv. }
  rewrite V, round_sign by (try exact Hp; apply sgn_cases).
  assert (W : 0 < (if 0 <=? e then 1 else 2 ^ (- e))) by (destruct (Z.leb_spec 0 e); [lia | apply Z.pow_pos_nonneg; lia]).
  pose proof (round_rat_correct p (if 0 <=? e then Z.abs m * 2 ^ e else Z.abs m) (if 0 <=? e then 1 else 2 ^ (- e)) Hp) as R.
  destruct (Z.leb_spec 0 e) as [G|G].
  - specialize (R ltac:(pose proof (Z.pow_nonneg 2 e); lia) W). destruct (round_rat p (Z.abs m * 2 ^ e) 1). now rewrite dy_sign, R.
  - specialize (R ltac:(lia) W). destruct (round_rat p (Z.abs m) (2 ^ (- e))). now rewrite dy_sign, R.
Qed.

(** the number that a decimal literal denotes *)
Definition dec_val (d : dec) : R := (IZR (dmant d) * powerRZ 10 (dexp d))%R.
Lemma ten_pow e : 0 <= e -> powerRZ 10 e = IZR (10 ^ e).
Proof. intros H. rewrite <- (Z2Nat.id e H) at 2. rewrite <- pow_IZR. rewrite <- (Z2Nat.id e H) at 1. symmetry. apply pow_powerRZ. Qed.

Theorem dec_to_double_correct d : let '(m, e) := dec_to_double d in dy m e = round radix2 (FLX_exp 53) ZnearestE (dec_val d).
Proof.
  unfold dec_to_double. set (e := dexp d). set (m := dmant d).
  assert (V : dec_val d = (IZR (Z.sgn m) * (IZR (if 0 <=? e then Z.abs m * 10 ^ e else Z.abs m) / IZR (if 0 <=? e then 1 else 10 ^ (- e))))%R).
  { unfold dec_val. fold m e. rewrite <- (Z.abs_sgn m) at 1. rewrite Z.mul_comm, mult_IZR, Rmult_assoc. apply f_equal. destruct (Z.leb_spec 0 e).
    - rewrite mult_IZR, ten_pow by lia. field.
    - rewrite <- ten_pow by lia. replace e with (- - e) at 1 by lia. rewrite powerRZ_neg' . reflexivity. }
  rewrite V, round_sign by (try reflexivity; apply sgn_cases).
  assert (W : 0 < (if 0 <=? e then 1 else 10 ^ (- e))) by (destruct (Z.leb_spec 0 e); [lia | apply Z.pow_pos_nonneg; lia]).
  pose proof (round_rat_correct 53 (if 0 <=? e then Z.abs m * 10 ^ e else Z.abs m) (if 0 <=? e then 1 else 10 ^ (- e)) eq_refl) as R.
  destruct (Z.leb_spec 0 e) as [G|G].
  - specialize (R ltac:(pose proof (Z.pow_nonneg 10 e); lia) W). destruct (round_rat 53 (Z.abs m * 10 ^ e) 1). now rewrite dy_sign, R.
  - specialize (R ltac:(lia) W). destruct (round_rat 53 (Z.abs m) (10 ^ (- e))). now rewrite dy_sign, R.
Qed.

(** ** The coefficients *)
Definition rnd64 : R -> R := round radix2 (FLT_exp (-1074) 53) ZnearestE.
Definition rnd32 : R -> R := round radix2 (FLT_exp (-149) 24) ZnearestE.

Lemma pow_format emin prec e : 0 < prec -> emin <= e - prec + 1 -> generic_format radix2 (FLT_exp emin prec) (bpow radix2 e).
Proof. intros H1 H2. apply generic_format_FLT_bpow; [exact H1 | lia]. Qed.

Theorem lit_correct d k : k = 0 \/ k = 1 -> (bpow radix2 (-100) <= Rabs (dec_val d) <= bpow radix2 100)%R ->
  fin (lit (A := F32) d k) /\ val (lit (A := F32) d k) = rnd32 (rnd64 (rnd64 (dec_val d) * bpow radix2 k)).
Proof.
  intros Hk [B1 B2]. set (x := dec_val d) in *.
  pose proof (dec_to_double_correct d) as D. unfold lit, lit_float. destruct (dec_to_double d) as [m e].
  fold x in D. rewrite <- (round_FLT_FLX radix2 (-1074) 53) in D by (apply Rle_trans with (2 := B1), bpow_le; lia). fold rnd64 in D.
  change (round radix2 (FLT_exp (-1074) 53) ZnearestE x) with (rnd64 x) in D.
  assert (V1 : (bpow radix2 (-100) <= Rabs (rnd64 x))%R) by (apply abs_round_ge_generic; [apply FLT_exp_valid; reflexivity | apply valid_rnd_N | apply pow_format; lia | exact B1]).
  assert (V2 : (Rabs (rnd64 x) <= bpow radix2 100)%R) by (apply abs_round_le_generic; [apply FLT_exp_valid; reflexivity | apply valid_rnd_N | apply pow_format; lia | exact B2]).
  assert (S : rnd64 (rnd64 x * bpow radix2 k) = (rnd64 x * bpow radix2 k)%R).
  { unfold rnd64 at 1. apply round_generic; [apply valid_rnd_N|]. apply Mult_error.mult_bpow_pos_exact_FLT; [|lia].
    apply generic_format_round; [apply FLT_exp_valid; reflexivity | apply valid_rnd_N]. }
  rewrite S. pose proof (round_dyadic_correct 24 m (e + k) eq_refl) as Q. destruct (round_dyadic 24 m (e + k)) as [m' e'].
  assert (E : dy m (e + k) = (rnd64 x * bpow radix2 k)%R) by (rewrite <- D; unfold F2R; cbn [Fnum Fexp]; rewrite bpow_plus; ring).
  rewrite E in Q. set (y := (rnd64 x * bpow radix2 k)%R) in *.
  assert (Y : Rabs y = (Rabs (rnd64 x) * bpow radix2 k)%R) by (unfold y; rewrite Rabs_mult, (Rabs_pos_eq (bpow radix2 k)) by apply bpow_ge_0; reflexivity).
  assert (K1 : (1 <= bpow radix2 k <= 2)%R) by (destruct Hk as [->| ->]; cbn; lra).
  pose proof (Rabs_pos (rnd64 x)) as A0. pose proof (bpow_gt_0 radix2 (-100)) as P0.
  assert (Y1 : (bpow radix2 (-100) <= Rabs y)%R) by (rewrite Y; nra).
  assert (Y2 : (Rabs y <= bpow radix2 101)%R) by (rewrite Y; replace 101 with (100 + 1) by reflexivity; rewrite bpow_plus; change (bpow radix2 1) with 2%R; nra).
  rewrite <- (round_FLT_FLX radix2 (-149) 24) in Q by (apply Rle_trans with (2 := Y1), bpow_le; lia). change (dy m' e' = rnd32 y) in Q.
  cbn [fdy F32]. pose proof (binary_normalize_correct 24 128 Hprec32 Hmax32 mode_NE m' e' false) as N. cbn zeta in N. rewrite Q in N.
  assert (I : round radix2 (SpecFloat.fexp 24 128) (round_mode mode_NE) (rnd32 y) = rnd32 y).
  { apply round_generic; [apply valid_rnd_round_mode|]. apply generic_format_round; [apply FLT_exp_valid; reflexivity | apply valid_rnd_N]. }
  rewrite I in N. rewrite Rlt_bool_true in N.
  - destruct N as (N1 & N2 & _). split; [exact N2 | exact N1].
  - apply Rle_lt_trans with (bpow radix2 101); [|apply bpow_lt; reflexivity].
    apply abs_round_le_generic; [apply FLT_exp_valid; reflexivity | apply valid_rnd_N | apply pow_format; lia | exact Y2].
Qed.

(** every literal of the tables is far from overflow and underflow *)
Definition moderate (d : dec) : bool := (1 <=? Z.abs (dmant d)) && (Z.abs (dmant d) <? 10 ^ 18) && (-30 <=? dexp d) && (dexp d <=? 0).
Lemma moderate_range d : moderate d = true -> (bpow radix2 (-100) <= Rabs (dec_val d) <= bpow radix2 100)%R.
Proof.
  unfold moderate. intros H. apply andb_prop in H as [H H4]. apply andb_prop in H as [H H3]. apply andb_prop in H as [H1 H2].
  apply Z.leb_le in H1, H3, H4. apply Z.ltb_lt in H2. unfold dec_val. rewrite Rabs_mult, <- abs_IZR.
  replace (dexp d) with (- - dexp d) by lia. rewrite powerRZ_neg', ten_pow by lia. set (k := - dexp d) in *.
  assert (T0 : (1 <= IZR (10 ^ k))%R) by (apply (IZR_le 1); pose proof (Z.pow_pos_nonneg 10 k); lia).
  assert (T1 : (IZR (10 ^ k) <= IZR (10 ^ 30))%R) by (apply IZR_le, Z.pow_le_mono_r; lia).
  rewrite Rabs_pos_eq by (apply Rlt_le, Rinv_0_lt_compat; lra).
  assert (M1 : (1 <= IZR (Z.abs (dmant d)))%R) by (apply (IZR_le 1); exact H1). assert (M2 : (IZR (Z.abs (dmant d)) <= IZR (10 ^ 18))%R) by (apply IZR_le; lia).
  assert (I1 : (/ IZR (10 ^ k) <= 1)%R) by (rewrite <- Rinv_1; apply Rinv_le; lra).
  assert (I2 : (/ IZR (10 ^ 30) <= / IZR (10 ^ k))%R) by (apply Rinv_le; lra).
  assert (I0 : (0 < / IZR (10 ^ 30))%R) by (apply Rinv_0_lt_compat, (IZR_lt 0); reflexivity).
  split.
  - apply Rle_trans with (/ IZR (10 ^ 30))%R; [|nra]. change (bpow radix2 (-100)) with (/ IZR (2 ^ 100))%R. apply (Rinv_le (IZR (10 ^ 30)) (IZR (2 ^ 100))). apply (IZR_lt 0). vm_compute. reflexivity. apply (IZR_le (10 ^ 30) (2 ^ 100)). vm_compute. discriminate.
  - apply Rle_trans with (IZR (10 ^ 18)); [nra|]. change (bpow radix2 100) with (IZR (2 ^ 100)). apply (IZR_le (10 ^ 18) (2 ^ 100)). vm_compute. discriminate.
Qed.
Definition all_tables : list dec :=
  concat (map (fun s => concat (map (fun p => match fir_table s p with Some t => t | None => [] end ++ match iir_table s p with Some (t, _) => t | None => [] end) [1; 8; 12; 16; 20; 24])) [2; 4; 8]).
Lemma all_moderate : forallb moderate all_tables = true.
Proof. vm_compute. reflexivity. Qed.

(** Rounding the decimal number to single precision at once: for the numbers in the tables the
    detour through double precision makes no difference. *)
Definition direct (d : dec) (k : Z) : Z * Z :=
  let '(q, e) := round_rat 24 (Z.abs (dmant d) * 2 ^ k) (10 ^ (- dexp d)) in (Z.sgn (dmant d) * q, e).
Definition same_dy (a b : Z * Z) : bool := let '(m, e) := a in let '(n, f) := b in let l := Z.min e f in m * 2 ^ (e - l) =? n * 2 ^ (f - l).
Lemma same_dy_eq a b : same_dy a b = true -> dy (fst a) (snd a) = dy (fst b) (snd b).
Proof.
  destruct a as [m e], b as [n f]. cbn [fst snd]. unfold same_dy. set (l := Z.min e f). intros H. apply Z.eqb_eq in H.
  rewrite (F2R_change_exp radix2 l m e), (F2R_change_exp radix2 l n f) by (unfold l; lia). change (radix_val radix2) with 2. now rewrite H.
Qed.
Lemma all_direct : forallb (fun d => same_dy (lit_float d 0) (direct d 0) && same_dy (lit_float d 1) (direct d 1)) all_tables = true.
Proof. vm_compute. reflexivity. Qed.
Lemma direct_correct d k : 0 <= k -> dexp d <= 0 -> dy (fst (direct d k)) (snd (direct d k)) = round radix2 (FLX_exp 24) ZnearestE (dec_val d * bpow radix2 k).
Proof.
  intros Hk He. unfold direct. pose proof (Z.pow_pos_nonneg 2 k ltac:(lia) Hk) as P2. pose proof (Z.pow_pos_nonneg 10 (- dexp d) ltac:(lia) ltac:(lia)) as P10.
  pose proof (round_rat_correct 24 (Z.abs (dmant d) * 2 ^ k) (10 ^ (- dexp d)) eq_refl ltac:(lia) P10) as R.
  destruct (round_rat 24 (Z.abs (dmant d) * 2 ^ k) (10 ^ (- dexp d))) as [q e]. cbn [fst snd]. rewrite dy_sign, R, <- round_sign by (try reflexivity; apply sgn_cases).
  apply f_equal. unfold dec_val. rewrite mult_IZR, two_pow by exact Hk.
  rewrite <- (Z.abs_sgn (dmant d)) at 3. rewrite mult_IZR. replace (dexp d) with (- - dexp d) at 2 by lia. rewrite powerRZ_neg', ten_pow by lia. unfold Rdiv. ring.
Qed.

Theorem lit_once d k : In d all_tables -> k = 0 \/ k = 1 ->
  fin (lit (A := F32) d k) /\ val (lit (A := F32) d k) = rnd32 (dec_val d * bpow radix2 k) /\
  val (lit (A := F32) d k) = rnd32 (rnd64 (rnd64 (dec_val d) * bpow radix2 k)).
Proof.
  intros Hd Hk. pose proof all_moderate as M. rewrite forallb_forall in M. specialize (M d Hd). pose proof (moderate_range d M) as [R1 R2].
  destruct (lit_correct d k Hk (conj R1 R2)) as [F V]. split; [exact F|]. split; [|exact V].
  assert (L : val (lit (A := F32) d k) = dy (fst (lit_float d k)) (snd (lit_float d k))).
  { unfold lit in *. destruct (lit_float d k) as [m e] eqn:E. cbn [fst snd]. cbn [fdy F32] in *.
    assert (G : generic_format radix2 (FLT_exp (-149) 24) (dy m e)).
    { unfold lit_float in E. pose proof (dec_to_double_correct d) as D. destruct (dec_to_double d) as [m0 e0].
      pose proof (round_dyadic_correct 24 m0 (e0 + k) eq_refl) as Q. rewrite E in Q. rewrite Q, <- (round_FLT_FLX radix2 (-149) 24).
      - apply generic_format_round; [apply FLT_exp_valid; reflexivity | apply valid_rnd_N].
      - replace (dy m0 (e0 + k)) with (dy m0 e0 * bpow radix2 k)%R by (unfold F2R; cbn [Fnum Fexp]; rewrite bpow_plus; ring).
        rewrite D, Rabs_mult, (Rabs_pos_eq (bpow radix2 k)) by apply bpow_ge_0.
        assert (K1 : (1 <= bpow radix2 k)%R) by (destruct Hk as [->| ->]; cbn; lra).
        assert (A1 : (bpow radix2 (-100) <= Rabs (round radix2 (FLX_exp 53) ZnearestE (dec_val d)))%R)
          by (apply abs_round_ge_generic; [apply FLX_exp_valid; reflexivity | apply valid_rnd_N | apply generic_format_bpow; unfold FLX_exp; lia | exact R1]).
        apply Rle_trans with (bpow radix2 (-100)); [apply bpow_le; lia|]. pose proof (bpow_gt_0 radix2 (-100)). nra. }
    pose proof (binary_normalize_correct 24 128 Hprec32 Hmax32 mode_NE m e false) as N. cbn zeta in N.
    assert (I : round radix2 (SpecFloat.fexp 24 128) (round_mode mode_NE) (dy m e) = dy m e) by (apply round_generic; [apply valid_rnd_round_mode | exact G]).
    rewrite I in N. unfold b32_dy in *.
    destruct (Rlt_bool (Rabs (dy m e)) (bpow radix2 128)); [apply N|]. exfalso. exact (overflow_not_fin _ _ N F). }
  pose proof all_direct as A. rewrite forallb_forall in A. specialize (A d Hd). apply andb_prop in A as [A0 A1].
  assert (S : same_dy (lit_float d k) (direct d k) = true) by (destruct Hk as [->| ->]; assumption).
  assert (He : dexp d <= 0) by (unfold moderate in M; apply andb_prop in M as [_ M]; now apply Z.leb_le).
  rewrite L, (same_dy_eq _ _ S), direct_correct by (try exact He; lia). unfold rnd32. symmetry. apply round_FLT_FLX.
  rewrite Rabs_mult, (Rabs_pos_eq (bpow radix2 k)) by apply bpow_ge_0.
  assert (K1 : (1 <= bpow radix2 k)%R) by (destruct Hk as [->| ->]; cbn; lra).
  apply Rle_trans with (bpow radix2 (-100)); [apply bpow_le; lia|]. pose proof (bpow_gt_0 radix2 (-100)). nra.
Qed.
Lemma in_tables s p d : stage_no s -> In p [1; 8; 12; 16; 20; 24] ->
  In d (match fir_table s p with Some t => t | None => [] end) \/ In d (match iir_table s p with Some (t, _) => t | None => [] end) -> In d all_tables.
Proof.
  intros Hs Hp H. unfold all_tables. apply in_concat.
  exists (concat (map (fun p => match fir_table s p with Some t => t | None => [] end ++ match iir_table s p with Some (t, _) => t | None => [] end) [1; 8; 12; 16; 20; 24])).
  split.
  - apply in_map_iff. exists s. split; [reflexivity|]. destruct Hs as [->|[->| ->]]; cbn; auto.
  - apply in_concat. exists (match fir_table s p with Some t => t | None => [] end ++ match iir_table s p with Some (t, _) => t | None => [] end).
    split; [|apply in_app_iff; exact H]. apply in_map_iff. exists p. split; [reflexivity | exact Hp].
Qed.
