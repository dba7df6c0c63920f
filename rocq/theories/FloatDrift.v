(** * Rounding errors of the section with coefficient 1 can add up

    An input close to the Nyquist frequency, of amplitude about 0.55, can be
    chosen sample by sample such that each sample adds one unit 2^-24 to the
    error. *)
From Coq Require Import ZArith Reals List Lia Lra Bool ZifyNat ZifyBool.
From Flocq Require Import Core BinarySingleNaN.
From Verif Require Import Arith ArithR ArithF Tables ResamplerModel ResamplerProof ResamplerOk Spec SpecOk SpecR Client Feed Twin
  TablesF TableFacts FloatComm FloatSum FloatFir FloatErr IirReal FloatIir.
Import ListNotations.
Open Scope Z_scope.

(** ** Rounding of numbers in [1/2, 1] and [1, 2], in units of 2^-24 *)
Notation w := (bpow radix2 (-24)).
Lemma w_pos : (0 < w)%R. Proof. apply bpow_gt_0. Qed.
Lemma rnd_int k : Z.abs k <= 2 ^ 24 -> rnd (IZR k * w) = (IZR k * w)%R.
Proof.
  intros H. apply round_generic; [apply valid_rnd_N|]. destruct (Z_le_gt_dec 0 k).
  - apply atmost_format; lia.
  - replace (IZR k * w)%R with (- (IZR (- k) * w))%R by (rewrite opp_IZR; ring). apply generic_format_opp, atmost_format; lia.
Qed.
Lemma rnd_opp x : rnd (- x) = (- rnd x)%R. Proof. apply round_NE_opp. Qed.
Lemma mag_of x e : (bpow radix2 (e - 1) <= x < bpow radix2 e)%R -> mag radix2 x = e :> Z.
Proof. intros H. apply mag_unique. rewrite Rabs_pos_eq; [exact H|]. pose proof (bpow_ge_0 radix2 (e - 1)). lra. Qed.

(** between 1/2 and 1: the nearest integer *)
Lemma rnd_half x k : (IZR (2 ^ 23) <= x < IZR (2 ^ 24))%R -> (Rabs (x - IZR k) < / 2)%R -> rnd (x * w) = (IZR k * w)%R.
Proof.
  intros Hx Hk. pose proof w_pos as W. change (IZR (2 ^ 23)) with (bpow radix2 23) in Hx. change (IZR (2 ^ 24)) with (bpow radix2 24) in Hx.
  assert (M : mag radix2 (x * w) = 0 :> Z).
  { apply mag_of. change (0 - 1) with (23 + -24). rewrite (bpow_plus radix2 23 (-24)). replace (bpow radix2 0) with (bpow radix2 24 * w)%R by (rewrite <- bpow_plus; reflexivity). split; [apply Rmult_le_compat_r; lra | apply Rmult_lt_compat_r; lra]. }
  unfold round, scaled_mantissa, cexp. rewrite M. change (FLT_exp (-149) 24 0) with (-24). unfold F2R. cbn [Fnum Fexp].
  rewrite Rmult_assoc, <- bpow_plus. change (-24 + - -24) with 0. rewrite Rmult_1_r. do 2 f_equal. now apply Znearest_imp.
Qed.
(** between 1 and 2: 4 i + 3 is a tie and goes up *)
Lemma rnd_tie i : 2 ^ 24 <= 4 * i + 3 < 2 ^ 25 -> rnd (IZR (4 * i + 3) * w) = (IZR (4 * i + 4) * w)%R.
Proof.
  intros Hi. pose proof w_pos as W. destruct Hi as [I1 I2]. apply IZR_le in I1. apply IZR_lt in I2.
  change (IZR (2 ^ 25)) with (bpow radix2 25) in I2. change (IZR (2 ^ 24)) with (bpow radix2 24) in I1.
  assert (M : mag radix2 (IZR (4 * i + 3) * w) = 1 :> Z).
  { apply mag_of. change (1 - 1) with (24 + -24). rewrite (bpow_plus radix2 24 (-24)). replace (bpow radix2 1) with (bpow radix2 25 * w)%R by (rewrite <- bpow_plus; reflexivity). split; [apply Rmult_le_compat_r; lra | apply Rmult_lt_compat_r; lra]. }
  unfold round, scaled_mantissa, cexp. rewrite M. change (FLT_exp (-149) 24 1) with (-23). unfold F2R. cbn [Fnum Fexp].
  rewrite Rmult_assoc, <- bpow_plus. change (-24 + - -23) with (-1). change (bpow radix2 (-1)) with (/ 2)%R.
  set (v := (IZR (4 * i + 3) * / 2)%R). assert (Ev : v = (IZR (2 * i + 1) + / 2)%R) by (unfold v; rewrite !plus_IZR, !mult_IZR; lra).
  assert (Fl : Zfloor v = 2 * i + 1) by (apply Zfloor_imp; rewrite Ev, (plus_IZR (2 * i + 1) 1); lra).
  assert (Ce : Zceil v = 2 * i + 2).
  { apply Zceil_imp. rewrite Ev. replace (2 * i + 2 - 1) with (2 * i + 1) by lia. replace (2 * i + 2) with (2 * i + 1 + 1) by lia. rewrite (plus_IZR (2 * i + 1) 1). lra. }
  unfold Znearest. rewrite Fl, Ce, Ev. rewrite Rcompare_Eq by lra.
  replace (Z.even (2 * i + 1)) with false by (rewrite Z.even_add, Z.even_mul; reflexivity). cbn [negb].
  replace (4 * i + 4) with ((2 * i + 2) * 2) by lia. rewrite mult_IZR, Rmult_assoc. f_equal. change (-24) with (-1 + -23). rewrite bpow_plus. change (bpow radix2 (-1)) with (/ 2)%R. lra.
Qed.

(** the same with a sign *)
Definition sgn (s : R) : Prop := s = 1%R \/ s = (-1)%R.
Lemma rnd_sgn s x y : sgn s -> rnd x = y -> rnd (s * x) = (s * y)%R.
Proof. intros [->| ->] H; [now rewrite !Rmult_1_l|]. replace (-1 * x)%R with (- x)%R by ring. rewrite rnd_opp, H. ring. Qed.

(** ** The operations, when the rounded result is known *)
Lemma le_huge x : (Rabs x <= 4)%R -> (Rabs x <= huge)%R.
Proof. intros H. eapply Rle_trans; [exact H|]. change 4%R with (bpow radix2 2). unfold huge. apply bpow_le. lia. Qed.
Lemma plus_is a b y : fin a -> fin b -> (Rabs (val a + val b) <= 4)%R -> rnd (val a + val b) = y -> fin (b32_plus a b) /\ val (b32_plus a b) = y.
Proof. intros Fa Fb H <-. destruct (plus_step a b Fa Fb (le_huge _ H)) as [F _]. split; [exact F | now apply plus_val]. Qed.
Lemma minus_is a b y : fin a -> fin b -> (Rabs (val a - val b) <= 4)%R -> rnd (val a - val b) = y -> fin (b32_minus a b) /\ val (b32_minus a b) = y.
Proof.
  intros Fa Fb H <-. pose proof (Bminus_correct 24 128 Hprec32 Hmax32 mode_NE a b Fa Fb) as Q. rewrite rnd_eq in Q.
  rewrite Rlt_bool_true in Q by (apply rnd_huge, le_huge, H). destruct Q as (Q1 & Q2 & _). split; [exact Q2 | exact Q1].
Qed.

(** ** One sample *)
Definition c1 : b32 := smp (coeffs (A := F32) FILTER_IIR UP PREC_48DB 2) 1.
Lemma c1_val : fin c1 /\ (4445 / 10000 < val c1 < 4446 / 10000)%R.
Proof.
  pose proof (iir_coeffs_F UP 2 8 ltac:(left; reflexivity) ltac:(left; reflexivity)) as H. unfold c1.
  remember (iir_ints 2 8) as l eqn:El. vm_compute in El. subst l. cbn [map] in H. change PREC_48DB with 8.
  remember (coeffs (A := F32) FILTER_IIR UP 8 2) as cs. inversion H as [|a b l k H1 J1 E1 E2]; subst. inversion J1 as [|a' b' l' k' [F E] J2 E3 E4]; subst.
  change (smp (A := F32) (a :: a' :: l') 1) with a'. split; [exact F|]. rewrite E. unfold coef. change (unit_of DOWN) with (/ 281474976710656)%R. lra.
Qed.

(** units of 2^-24 *)
Notation is_ v s n := (fin v /\ val v = (s * (IZR n * w))%R).
Lemma sgn_abs s : sgn s -> Rabs s = 1%R.
Proof. intros [->| ->]; [apply Rabs_R1 | rewrite Rabs_left; lra]. Qed.
Lemma small_units s n : sgn s -> Z.abs n <= 2 ^ 25 -> (Rabs (s * (IZR n * w)) <= 4)%R.
Proof.
  intros H Hn. rewrite !Rabs_mult, sgn_abs, <- abs_IZR, (Rabs_pos_eq w) by (assumption || apply bpow_ge_0). apply IZR_le in Hn. pose proof w_pos.
  assert (W : (IZR (2 ^ 25) * w = 2)%R) by (change (IZR (2 ^ 25)) with (bpow radix2 25); rewrite <- bpow_plus; reflexivity).
  assert (IZR (Z.abs n) * w <= IZR (2 ^ 25) * w)%R by (apply Rmult_le_compat_r; lra). lra.
Qed.

(** the number of units the next sample lies above the last output of the first section is twice this *)
Definition next_r (X A E : Z) : Z := (X + A + E - 3) mod 4.

Lemma first_section s X A R (x x1 u1 : b32) : sgn s -> 0 <= R <= 3 -> 2 ^ 23 + 10 <= X < 2 ^ 24 -> 0 <= A <= 2 ^ 24 - 10 ->
  is_ x s (A + 2 * R) -> is_ x1 s (- X) -> is_ u1 s A ->
  is_ (b32_plus (b32_mult (b32_minus x u1) c1) x1) s (- (X - R)).
Proof.
  intros Hs HR HX HA [Fx Ex] [F1 E1] [Fu Eu]. pose proof w_pos as W. destruct c1_val as [Fc Ec]. destruct ulp1_small as [U0 U1].
  destruct (minus_is x u1 (s * (IZR (2 * R) * w)) Fx Fu) as [Fd Ed].
  - rewrite Ex, Eu. replace (s * (IZR (A + 2 * R) * w) - s * (IZR A * w))%R with (s * (IZR (2 * R) * w))%R by (rewrite plus_IZR; ring). apply small_units; [exact Hs | lia].
  - rewrite Ex, Eu. replace (s * (IZR (A + 2 * R) * w) - s * (IZR A * w))%R with (s * (IZR (2 * R) * w))%R by (rewrite plus_IZR; ring).
    apply rnd_sgn; [exact Hs|]. apply rnd_int. lia.
  - set (d := b32_minus x u1) in *.
    assert (Bm : (Rabs (val d * val c1) <= 3 * w)%R).
    { rewrite Rabs_mult, Ed, !Rabs_mult, sgn_abs, (Rabs_pos_eq w), (Rabs_pos_eq (val c1)), <- abs_IZR by (assumption || lra). rewrite Z.abs_eq by lia.
      assert (IZR (2 * R) <= 6)%R by (apply IZR_le; lia). assert (0 <= IZR (2 * R))%R by (apply IZR_le; lia).
      assert (IZR (2 * R) * w * val c1 <= 6 * w * val c1)%R by (apply Rmult_le_compat_r; [lra | apply Rmult_le_compat_r; lra]).
      assert (w * val c1 <= w * (1 / 2))%R by (apply Rmult_le_compat_l; lra). lra. }
    assert (W1 : (w * 16777216 = 1)%R) by exact U1.
    destruct (mult_step d c1 Fd Fc ltac:(apply le_huge; lra)) as [Fm Em]. set (m := b32_mult d c1) in *.
    assert (TW : (tiny <= w * (1 / 1000))%R).
    { unfold tiny. change (-150) with (-24 + -126). rewrite bpow_plus. apply Rmult_le_compat_l; [lra|]. apply Rle_trans with (bpow radix2 (-10)); [apply bpow_le; lia | cbn; lra]. }
    assert (Em' : (Rabs (val m - val d * val c1) <= w * (1 / 100))%R).
    { eapply Rle_trans; [exact Em|]. change ulp1 with w. assert (w * Rabs (val d * val c1) <= w * (3 * w))%R by (apply Rmult_le_compat_l; lra).
      assert (w * (3 * w) <= w * (1 / 1000))%R by (apply Rmult_le_compat_l; lra). lra. }
    (* in units, without the sign *)
    set (v := (IZR X - s * val m * 16777216)%R).
    assert (Sv : (val m + val x1 = - s * (v * w))%R).
    { unfold v. rewrite E1, opp_IZR. assert (Q : (s * s = 1)%R) by (destruct Hs as [->| ->]; lra).
      replace (- s * ((IZR X - s * val m * 16777216) * w))%R with (- s * (IZR X * w) + (s * s) * val m * (w * 16777216))%R by ring. rewrite Q, W1. ring. }
    assert (Dv : (Rabs (v - IZR (X - R)) < / 2)%R).
    { unfold v. rewrite minus_IZR. replace (IZR X - s * val m * 16777216 - (IZR X - IZR R))%R with (IZR R - s * val m * 16777216)%R by ring.
      assert (Q : (s * s = 1)%R) by (destruct Hs as [->| ->]; lra).
      replace (IZR R - s * val m * 16777216)%R with (IZR R - IZR (2 * R) * val c1 - s * ((val m - val d * val c1) * 16777216))%R.
      2: { rewrite Ed. replace (s * ((val m - s * (IZR (2 * R) * w) * val c1) * 16777216))%R with (s * val m * 16777216 - (s * s) * IZR (2 * R) * val c1 * (w * 16777216))%R by ring. rewrite Q, W1. ring. }
      assert (B1 : (Rabs (s * ((val m - val d * val c1) * 16777216)) <= 1 / 100)%R).
      { rewrite !Rabs_mult, sgn_abs, (Rabs_pos_eq 16777216) by (assumption || lra). rewrite Rmult_1_l.
        apply Rle_trans with (w * (1 / 100) * 16777216)%R; [apply Rmult_le_compat_r; lra | lra]. }
      assert (B2 : (Rabs (IZR R - IZR (2 * R) * val c1) <= 4 / 10)%R).
      { rewrite mult_IZR. assert (R = 0 \/ R = 1 \/ R = 2 \/ R = 3) as [->|[->|[->| ->]]] by lia; apply Rabs_le; lra. }
      eapply Rle_lt_trans; [apply Rabs_triang|]. rewrite Rabs_Ropp. lra. }
    assert (Rv : rnd (v * w) = (IZR (X - R) * w)%R).
    { apply rnd_half; [|exact Dv]. apply Rabs_lt_inv in Dv.
      assert (IZR (2 ^ 23) + 7 <= IZR (X - R))%R by (rewrite <- (plus_IZR (2 ^ 23) 7); apply IZR_le; lia).
      destruct (Z.eq_dec (X - R) (2 ^ 24)) as [Q|Q].
      - lia.
      - assert (IZR (X - R) <= IZR (2 ^ 24 - 1))%R by (apply IZR_le; lia). rewrite (minus_IZR (2 ^ 24) 1) in *. lra. }
    assert (Hs' : sgn (- s)) by (destruct Hs as [->| ->]; [right | left]; lra).
    replace (s * (IZR (- (X - R)) * w))%R with (- s * (IZR (X - R) * w))%R by (rewrite opp_IZR; ring).
    apply plus_is; [exact Fm | exact F1 | |].
    + pose proof (Rabs_triang (val m) (val x1)). pose proof (abs_near _ _ _ _ Em' Bm). rewrite E1 in *.
      assert (Rabs (s * (IZR (- X) * w)) <= 2)%R; [|lra].
      rewrite !Rabs_mult, sgn_abs, (Rabs_pos_eq w), <- abs_IZR by (assumption || lra). assert (IZR (Z.abs (- X)) <= 16777216)%R by (apply IZR_le; lia).
      assert (IZR (Z.abs (- X)) * w <= 16777216 * w)%R by (apply Rmult_le_compat_r; lra). lra.
    + rewrite Sv. apply rnd_sgn; [exact Hs' | exact Rv].
Qed.

Lemma second_section s A A' E i (u u1 y1 : b32) : sgn s -> A' + A + E = 4 * i + 3 -> 2 ^ 24 <= A' + A + E < 2 ^ 25 ->
  0 <= A <= 2 ^ 24 -> 0 <= A' -> 0 <= E -> A' + E + 1 <= 2 ^ 24 ->
  is_ u s (- A') -> is_ u1 s A -> is_ y1 s (A + E) ->
  is_ (b32_plus (b32_mult (b32_minus u y1) (@f1 F32)) u1) s (- (A' + E + 1)).
Proof.
  intros Hs Hi HN HA HA' HE HB [Fu Eu] [F1 E1] [Fy Ey]. assert (Hs' : sgn (- s)) by (destruct Hs as [->| ->]; [right | left]; lra).
  destruct (minus_is u y1 (- s * (IZR (4 * i + 4) * w)) Fu Fy) as [Fd Ed].
  - rewrite Eu, Ey. replace (s * (IZR (- A') * w) - s * (IZR (A + E) * w))%R with (s * (IZR (- (A' + A + E)) * w))%R by (rewrite !opp_IZR, !plus_IZR; ring).
    apply small_units; [exact Hs | lia].
  - rewrite Eu, Ey. replace (s * (IZR (- A') * w) - s * (IZR (A + E) * w))%R with (- s * (IZR (4 * i + 3) * w))%R by (rewrite <- Hi, !opp_IZR, !plus_IZR; ring).
    apply rnd_sgn; [exact Hs'|]. apply rnd_tie. lia.
  - set (d := b32_minus u y1) in *.
    destruct (mult_one d Fd) as [Fm Em]; [apply le_huge; rewrite Ed; apply small_units; [exact Hs' | lia]|].
    set (m := b32_mult d (@f1 F32)) in *. rewrite Ed in Em.
    assert (Sm : (val m + val u1 = s * (IZR (- (A' + E + 1)) * w))%R).
    { rewrite Em, E1. replace (- (A' + E + 1)) with (- (4 * i + 4) + A) by lia. rewrite (plus_IZR (- (4 * i + 4))), opp_IZR. ring. }
    apply plus_is; [exact Fm | exact F1 | |]; rewrite Sm; [apply small_units; [exact Hs | lia]|].
    apply rnd_sgn; [exact Hs|]. apply rnd_int. lia.
Qed.

(** ** Many samples *)
Lemma drift n : forall s X A E (x1 u1 y1 : b32), sgn s ->
  2 ^ 23 + 10 + 3 * Z.of_nat n <= X <= 2 ^ 24 - 10 - 7 * Z.of_nat n -> 2 ^ 23 + 10 + 3 * Z.of_nat n <= A <= 2 ^ 24 - 10 - 7 * Z.of_nat n ->
  0 <= E -> A + E + 7 * Z.of_nat n + 10 <= 2 ^ 24 -> X + E + 7 * Z.of_nat n + 10 <= 2 ^ 24 ->
  is_ x1 s (- X) -> is_ u1 s A -> is_ y1 s (A + E) ->
  exists xs : list F32, length xs = n /\
    (forall k, (k < n)%nat -> fin (nth k xs (@f0 F32)) /\ (Rabs (val (nth k xs (@f0 F32))) <= 1)%R) /\
    let us := allpass_from (A := F32) c1 x1 u1 xs in
    let ys := allpass_from (A := F32) (@f1 F32) u1 y1 us in
    forall k, (k < n)%nat -> (Rabs (val (nth k ys (@f0 F32)) - val (nth k us (@f0 F32))) = IZR (E + Z.of_nat k + 1) * w)%R.
Proof.
  induction n as [|n IH]; intros s X A E x1 u1 y1 Hs HX HA HE HAE HXE H1 Hu Hy.
  - exists []. split; [reflexivity|]. split; [intros; lia|]. cbn. intros; lia.
  - set (R := next_r X A E). assert (HR : 0 <= R <= 3) by (unfold R, next_r; pose proof (Z.mod_pos_bound (X + A + E - 3) 4); lia).
    assert (Hm : exists i, X - R + A + E = 4 * i + 3).
    { exists ((X + A + E - 3) / 4). unfold R, next_r. pose proof (Z.div_mod (X + A + E - 3) 4). lia. }
    destruct Hm as [i Hi].
    assert (Hx : exists x : b32, is_ x s (A + 2 * R)).
    { destruct Hs as [->| ->].
      - exists (b32_dy (A + 2 * R) (-24)). destruct (b32_dy_exact (A + 2 * R) (-24)) as [Q1 Q2]; [lia | lia |]. split; [exact Q2 | rewrite Q1; ring].
      - exists (b32_dy (- (A + 2 * R)) (-24)). destruct (b32_dy_exact (- (A + 2 * R)) (-24)) as [Q1 Q2]; [lia | lia |]. split; [exact Q2 | rewrite Q1, opp_IZR; ring]. }
    destruct Hx as [x Hx].
    pose proof (first_section s X A R x x1 u1 Hs HR ltac:(lia) ltac:(lia) Hx H1 Hu) as Hu'. set (u := b32_plus (b32_mult (b32_minus x u1) c1) x1) in *.
    pose proof (second_section s A (X - R) E i u u1 y1 Hs Hi ltac:(lia) ltac:(lia) ltac:(lia) HE ltac:(lia) Hu' Hu Hy) as Hy'.
    set (y := b32_plus (b32_mult (b32_minus u y1) (@f1 F32)) u1) in *.
    assert (Hs' : sgn (- s)) by (destruct Hs as [->| ->]; [right | left]; lra).
    assert (flip : forall (v : b32) k, is_ v s (- k) -> is_ v (- s)%R k) by (intros v k [F Ev]; split; [exact F | rewrite Ev, opp_IZR; ring]).
    assert (flip' : forall (v : b32) k, is_ v s k -> is_ v (- s)%R (- k)) by (intros v k [F Ev]; split; [exact F | rewrite Ev, opp_IZR; ring]).
    destruct (IH (- s)%R (A + 2 * R) (X - R) (E + 1) x u y Hs') as (xs & L & B & D).
    + lia.
    + lia.
    + lia.
    + lia.
    + lia.
    + now apply flip'.
    + now apply flip.
    + replace (X - R + (E + 1)) with (X - R + E + 1) by lia. now apply flip.
    + exists (x :: xs : list F32). split; [exact (f_equal S L)|]. split.
      * intros [|k] Hk; [|apply B; lia]. cbn [nth]. destruct Hx as [Fx Ex]. split; [exact Fx|]. rewrite Ex, !Rabs_mult, sgn_abs, <- abs_IZR, (Rabs_pos_eq w) by (assumption || apply bpow_ge_0).
        pose proof w_pos. destruct ulp1_small as [_ W1]. change ulp1 with w in W1.
        assert (IZR (Z.abs (A + 2 * R)) * w <= 16777216 * w)%R by (apply Rmult_le_compat_r; [lra | apply IZR_le; lia]). lra.
      * cbn zeta in D |- *. change (allpass_from (A := F32) c1 x1 u1 (x :: xs)) with (u :: allpass_from (A := F32) c1 x u xs : list F32).
        change (allpass_from (A := F32) f1 u1 y1 (u :: allpass_from (A := F32) c1 x u xs)) with (y :: allpass_from (A := F32) f1 u y (allpass_from (A := F32) c1 x u xs) : list F32).
        intros [|k] Hk.
        -- cbn [nth]. destruct Hu' as [_ ->], Hy' as [_ ->].
           replace (s * (IZR (- (X - R + E + 1)) * w) - s * (IZR (- (X - R)) * w))%R with (- s * (IZR (E + 1) * w))%R by (rewrite !opp_IZR, !plus_IZR; ring).
           rewrite !Rabs_mult, sgn_abs, <- abs_IZR, (Rabs_pos_eq w), Z.abs_eq by (assumption || apply bpow_ge_0 || lia). rewrite Rmult_1_l. do 2 f_equal. lia.
        -- cbn [nth]. etransitivity; [apply D; lia|]. do 2 f_equal. lia.
Qed.

(** ** From the start *)
Lemma weave_odd' {A : arith} (x y : list A) j : length x = length y -> 0 <= j -> smp (weave x y) (2 * j + 1) = smp y j.
Proof.
  intros L Hj. rewrite <- (weave_odds x y L) at 2. rewrite smp_odds. now replace (j <? 0) with false by lia.
Qed.
Lemma smp_nth {A : arith} (x : list A) j : 0 <= j -> smp x j = nth (Z.to_nat j) x f0.
Proof. intros H. unfold smp. now replace (j <? 0) with false by lia. Qed.
Lemma near_smp B e (x : list F32) (X : list RA) j : Forall2 (near B e) x X -> 0 <= j < size (A := F32) x -> near B e (smp (A := F32) x j) (smp (A := RA) X j).
Proof.
  intros H Hj. rewrite !smp_nth by lia. assert (Hk : (Z.to_nat j < length x)%nat) by (unfold size in Hj; lia). revert Hk. generalize (Z.to_nat j). clear Hj.
  induction H as [|a b x X H1 _ IH]; intros [|k] Hk; cbn [length] in Hk; [lia | lia | exact H1 |]. apply IH. lia.
Qed.
Definition start1 : b32 := b32_dy (-9316000) (-24).
Definition level : b32 := b32_dy 9319212 (-24).
Definition lst (l : list b32) : list F32 := l.
Lemma start_first : allpass_from (A := F32) c1 f0 f0 (lst [@f1 F32; start1]) = lst [c1; level].
Proof.
  change (lst [b32_plus (b32_mult (b32_minus (@f1 F32) (@f0 F32)) c1) (@f0 F32);
    b32_plus (b32_mult (b32_minus start1 (b32_plus (b32_mult (b32_minus (@f1 F32) (@f0 F32)) c1) (@f0 F32))) c1) (@f1 F32)] = lst [c1; level]).
  unfold lst. f_equal; [|f_equal]; apply B2SF_inj; vm_compute; reflexivity.
Qed.
Lemma start_second : allpass_from (A := F32) f1 f0 f0 (lst [c1; level]) = lst [c1; level].
Proof.
  change (lst [b32_plus (b32_mult (b32_minus c1 (@f0 F32)) (@f1 F32)) (@f0 F32);
    b32_plus (b32_mult (b32_minus level (b32_plus (b32_mult (b32_minus c1 (@f0 F32)) (@f1 F32)) (@f0 F32))) (@f1 F32)) c1] = lst [c1; level]).
  unfold lst. f_equal; [|f_equal]; apply B2SF_inj; vm_compute; reflexivity.
Qed.
Lemma allpass_two (c a b u v : F32) xs : allpass_from (A := F32) c f0 f0 (lst [a; b]) = lst [u; v] ->
  allpass (A := F32) c (a :: b :: xs) = u :: v :: allpass_from (A := F32) c b v xs.
Proof. unfold lst. cbn [allpass_from]. intros E. injection E as <- <-. reflexivity. Qed.

Lemma odd_even_up : odds (even_up (coeffs (A := F32) FILTER_IIR UP PREC_48DB 2)) = lst [c1; @f1 F32].
Proof.
  unfold c1. pose proof (iir_coeffs_F UP 2 8 ltac:(left; reflexivity) ltac:(left; reflexivity)) as H.
  remember (iir_ints 2 8) as l eqn:El. vm_compute in El. subst l. cbn [map] in H. change PREC_48DB with 8.
  remember (coeffs (A := F32) FILTER_IIR UP 8 2) as cs. inversion H as [|a b l k H1 J1 E1 E2]; subst. inversion J1 as [|a' b' l' k' _ J2 E3 E4]; subst.
  inversion J2 as [|a'' b'' l'' k'' _ J3 E5 E6]; subst. inversion J3; subst. reflexivity.
Qed.
Lemma odds_R : exists C : R, is_coef c1 C /\ odds (coeffs (A := RA) FILTER_IIR UP PREC_48DB 2) = [C : RA].
Proof.
  exists (coef 125141128314880). split.
  - pose proof (iir_coeffs_F UP 2 8 ltac:(left; reflexivity) ltac:(left; reflexivity)) as H. unfold c1.
    remember (iir_ints 2 8) as l eqn:El. vm_compute in El. subst l. cbn [map] in H. change PREC_48DB with 8.
    remember (coeffs (A := F32) FILTER_IIR UP 8 2) as cs. inversion H as [|a b l k H1 J1 E1 E2]; subst. inversion J1 as [|a' b' l' k' J J2 E3 E4]; subst.
    exact J.
  - pose proof (iir_coeffs_R UP 2 8 ltac:(left; reflexivity) ltac:(left; reflexivity)) as H. fold coef in H. change PREC_48DB with 8.
    rewrite H. reflexivity.
Qed.

Lemma long_drift n : Z.of_nat n <= 300000 -> exists x : list F32, length x = S (S n) /\
  (forall k, 0 <= k < size x -> fin (smp x k) /\ (Rabs (val (smp x k)) <= 1)%R) /\
  forall j, 0 <= j < size x ->
  (IZR (j - 10) * w <= Rabs (val (smp (resample (A := F32) FILTER_IIR UP PREC_48DB true 2 x) (2 * j + 1))
    - smp (resample (A := RA) FILTER_IIR UP PREC_48DB false 2 (vals x)) (2 * j + 1)))%R.
Proof.
  intros Hn. pose proof w_pos as W. destruct ulp1_small as [_ W1]. change ulp1 with w in W1.
  destruct (b32_dy_exact (-9316000) (-24) ltac:(lia) ltac:(lia)) as [S1 S2]. fold start1 in S1, S2.
  destruct (b32_dy_exact 9319212 (-24) ltac:(lia) ltac:(lia)) as [L1 L2]. fold level in L1, L2.
  destruct (drift n 1%R 9316000 9319212 0 start1 level level) as (xs & L & B & D).
  - now left.
  - lia.
  - lia.
  - lia.
  - lia.
  - lia.
  - split; [exact S2 | rewrite S1; symmetry; apply Rmult_1_l].
  - split; [exact L2 | rewrite L1; symmetry; apply Rmult_1_l].
  - split; [exact L2 | rewrite L1; symmetry; apply Rmult_1_l].
  - set (x := (f1 : F32) :: start1 :: xs : list F32).
    assert (LX : length x = S (S n)) by (unfold x; cbn; do 2 f_equal; exact L).
    assert (SX : size x = Z.of_nat n + 2) by (unfold size; rewrite LX; lia).
    assert (BX : forall k, (k < S (S n))%nat -> fin (nth k x (@f0 F32)) /\ (Rabs (val (nth k x (@f0 F32))) <= 1)%R).
    { intros [|[|k]] Hk; unfold x; cbn [nth]; [| |apply B; lia].
      - destruct one_val as [O1 O2]. split; [exact O1 | rewrite O2, Rabs_R1; lra].
      - split; [exact S2|]. rewrite S1. rewrite Rabs_left by lra. lra. }
    exists x. split; [exact LX|]. split; [intros k Hk; rewrite smp_nth by lia; apply BX; lia|].
    intros j Hj.
    assert (E1 : smp (resample (A := F32) FILTER_IIR UP PREC_48DB true 2 x) (2 * j + 1) = smp (allpass (A := F32) f1 (allpass (A := F32) c1 x)) j).
    { change (resample (A := F32) FILTER_IIR UP PREC_48DB true 2 x) with
        (weave (chain (evens (even_up (coeffs (A := F32) FILTER_IIR UP PREC_48DB 2))) x) (chain (odds (even_up (coeffs (A := F32) FILTER_IIR UP PREC_48DB 2))) x)).
      rewrite weave_odd' by (rewrite ?chain_length; reflexivity || lia). rewrite odd_even_up. reflexivity. }
    destruct odds_R as (C & HC & EC).
    assert (E2 : smp (resample (A := RA) FILTER_IIR UP PREC_48DB false 2 (vals x)) (2 * j + 1) = smp (chain (A := RA) [C : RA] (vals x)) j).
    { change (resample (A := RA) FILTER_IIR UP PREC_48DB false 2 (vals x)) with
        (weave (chain (evens (coeffs (A := RA) FILTER_IIR UP PREC_48DB 2)) (vals x)) (chain (odds (coeffs (A := RA) FILTER_IIR UP PREC_48DB 2)) (vals x))).
      rewrite weave_odd' by (rewrite ?chain_length; reflexivity || lia). rewrite EC. reflexivity. }
    rewrite E1, E2.
    assert (N : Forall2 (near (amps [C] * 1) (amps [C] * 0 + ulp1 * unitss [C] * 1)) (chain (A := F32) [c1 : F32] x) (chain (A := RA) [C : RA] (vals x))).
    { destruct HC as [HC1 HC2]. destruct c1_val as [_ Hc]. rewrite HC2 in Hc. apply chain_near.
      - constructor; [split; assumption | constructor].
      - constructor; [lra | constructor].
      - lra.
      - unfold low. change 1%R with (bpow radix2 0). apply bpow_le. lia.
      - cbn [amps]. unfold amp, high. apply Rle_trans with (bpow radix2 4); [cbn; lra | apply bpow_le; lia].
      - unfold vals. rewrite <- LX in BX. revert BX. clear. generalize x as l. clear. induction l as [|a l IH]; intros H; [constructor|].
        cbn [map]. constructor.
        + destruct (H 0%nat ltac:(cbn; lia)) as [F Bd]. split; [exact F|]. split; [exact Bd|]. rewrite Rminus_eq_0, Rabs_R0. lra.
        + apply IH. intros k Hk. apply (H (S k)). cbn [length]. apply -> Nat.succ_lt_mono. exact Hk. }
    assert (U : (unitss [C] <= 9)%R).
    { destruct HC as [_ HC2]. destruct c1_val as [_ Hc]. rewrite HC2 in Hc. cbn [unitss amps]. unfold units, amp.
      rewrite Rmult_1_l, Rmult_0_r, Rplus_0_r. apply Rmult_le_reg_r with (1 - C)%R; [lra|]. unfold Rdiv at 1. rewrite Rmult_assoc, Rinv_l, Rmult_1_r by lra. nra. }
    assert (NJ : near (amps [C] * 1) (amps [C] * 0 + ulp1 * unitss [C] * 1) (smp (A := F32) (allpass (A := F32) c1 x) j) (smp (A := RA) (chain (A := RA) [C : RA] (vals x)) j)).
    { change (chain (A := F32) [c1 : F32] x) with (allpass (A := F32) c1 x) in N. apply near_smp; [exact N | unfold size; rewrite allpass_length; unfold size in Hj; lia]. }
    destruct NJ as (_ & _ & NJ). change ulp1 with w in NJ.
    set (u := smp (A := F32) (allpass (A := F32) c1 x) j) in *. set (V := smp (A := RA) (chain (A := RA) [C : RA] (vals x)) j) in *.
    set (y := smp (A := F32) (allpass (A := F32) f1 (allpass (A := F32) c1 x)) j).
    assert (NJ' : (Rabs (val u - V) <= 9 * w)%R).
    { eapply Rle_trans; [exact NJ|]. rewrite Rmult_0_r, Rplus_0_l, Rmult_1_r, (Rmult_comm w). apply Rmult_le_compat_r; lra. }
    destruct (Z_lt_le_dec j 2) as [J|J].
    { eapply Rle_trans; [|apply Rabs_pos]. assert (IZR (j - 10) <= 0)%R by (apply IZR_le; lia). 
      replace 0%R with (0 * w)%R by ring. apply Rmult_le_compat_r; lra. }
    assert (DJ : (Rabs (val y - val u) = IZR (j - 1) * w)%R).
    { specialize (D (Z.to_nat (j - 2)) ltac:(lia)). cbn zeta in D. unfold y, u.
      assert (EU : allpass (A := F32) c1 x = (c1 : F32) :: (level : F32) :: allpass_from (A := F32) c1 start1 level xs) by exact (allpass_two c1 _ _ _ _ xs start_first).
      rewrite EU.
      assert (EY : forall us, allpass (A := F32) f1 ((c1 : F32) :: (level : F32) :: us) = (c1 : F32) :: (level : F32) :: allpass_from (A := F32) f1 level level us) by (intros us; exact (allpass_two f1 _ _ _ _ us start_second)).
      rewrite EY. rewrite !smp_nth by lia. replace (Z.to_nat j) with (S (S (Z.to_nat (j - 2)))) by lia. cbn [nth]. etransitivity; [exact D|]. do 2 f_equal. lia. }
    replace (IZR (j - 10) * w)%R with (IZR (j - 1) * w - 9 * w)%R by (rewrite !minus_IZR; ring). rewrite <- DJ.
    pose proof (Rabs_triang (val y - V) (- (val u - V))) as Tr. rewrite Rabs_Ropp in Tr. replace (val y - V + - (val u - V))%R with (val y - val u)%R in Tr by ring.
    fold y. set (a1 := Rabs (val y - val u)) in *. set (a2 := Rabs (val y - V)) in *. set (a3 := Rabs (val u - V)) in *. change (a1 - 9 * w <= a2)%R. lra.
Qed.
