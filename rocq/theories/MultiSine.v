(** * What testmultidelay.cc reports: bounds *)
From Coq Require Import ZArith Reals List Lia Lra Bool String ZifyNat ZifyBool.
From Flocq Require Import Core BinarySingleNaN.
From Interval Require Import Tactic.
From Verif Require Import Arith ArithR ArithF Mem FirModel IirModel Tables ResamplerModel Wp Stage Cascade
  ResamplerProof ResamplerOk Spec SpecOk SpecR Client Feed StreamFacts DelayFacts ConfigFacts TablesF TableFacts FirReal FreqFir Tones
  FloatComm FloatSum FloatFir FloatErr Cases PropsStream PropsFir PropsFreq TonesProof PropsTones PropsFloat FloatFreq PropsFloatFreq PropsFloatTones
  AccuracyModel AccuracyProof AccuracySine ToneAt MultiModel MultiProof.
Import ListNotations.
Open Scope Z_scope.

(** ** The comparison *)
Lemma up_to_rsub E mx v s : up_to E mx -> (Rabs (v - s) <= E)%R -> up_to E (xmax mx (xrsub s (Fin v))).
Proof.
  intros (u & -> & Hu) H. cbn [xrsub]. unfold xmax. cbn [xlt]. destruct (Rlt_dec u (s - v)).
  - exists (s - v)%R. split; [reflexivity|]. rewrite Rabs_minus_sym in H. pose proof (Rle_abs (s - v)). lra.
  - exists u. auto.
Qed.
Lemma up_to_weaken E E' d : (E <= E')%R -> up_to E d -> up_to E' d.
Proof. intros H (v & -> & Hv). exists v. split; [reflexivity | lra]. Qed.

Section Measure.
Context {A : arith} (to_double : A -> xdouble) (new_rate delay : R) (y : list A).

Definition ideal (i : Z) : R := sin ((IZR i - delay) * freq / new_rate * 2 * PI).

Lemma measure_up_to E n : (0 <= E)%R -> (0 <= delay)%R ->
  (forall i, 0 <= i < Z.of_nat n -> (2 * delay < IZR i)%R -> exists v, to_double (smp y i) = Fin v /\ (Rabs (v - ideal i) <= E)%R) ->
  up_to E (measure to_double new_rate delay y n).
Proof.
  intros HE HD. induction n as [|n IH]; intros H; cbn [measure]; [now apply up_to_0|].
  assert (IH' : up_to E (measure to_double new_rate delay y n)) by (apply IH; intros i Hi; apply H; lia).
  destruct (Rlt_dec delay (IZR (Z.of_nat n) - delay)) as [L|]; [|exact IH'].
  destruct (H (Z.of_nat n)) as (v & Ev & B); [lia | lra|]. rewrite nthZ_smp, Ev by lia. unfold expected_at.
  destruct (Rle_dec 0 (IZR (Z.of_nat n) - delay)); [|lra]. now apply up_to_rsub.
Qed.

(** nothing below what is expected is necessary *)
Lemma measure_nothing n :
  (forall i, 0 <= i < Z.of_nat n -> match to_double (smp y i) with Fin v => (expected_at new_rate delay i <= v)%R | MInf => False | _ => True end) ->
  measure to_double new_rate delay y n = Fin 0.
Proof.
  induction n as [|n IH]; intros H; cbn [measure]; [reflexivity|].
  rewrite IH by (intros i Hi; apply H; lia). destruct (Rlt_dec _ _) as [_|]; [|reflexivity].
  specialize (H (Z.of_nat n) ltac:(lia)). rewrite nthZ_smp by lia. destruct (to_double (smp y (Z.of_nat n))); cbn [xrsub]; unfold xmax; cbn [xlt]; try reflexivity; [|contradiction].
  destruct (Rlt_dec 0 _); [lra | reflexivity].
Qed.

(** one large difference is enough *)
Lemma measure_above E n i v : (forall i, 0 <= i < Z.of_nat n -> exists v, to_double (smp y i) = Fin v) -> (0 <= delay)%R ->
  0 <= i < Z.of_nat n -> (2 * delay < IZR i)%R -> to_double (smp y i) = Fin v -> (E < ideal i - v)%R ->
  exists u, measure to_double new_rate delay y n = Fin u /\ (E < u)%R.
Proof.
  intros HF HD Hi Hp Hv HE.
  assert (G : forall k, (k <= n)%nat -> exists u, measure to_double new_rate delay y k = Fin u /\ (i < Z.of_nat k -> (E < u)%R)).
  { induction k as [|k IH]; intros Hk; cbn [measure]; [exists 0%R; split; [reflexivity | lia]|].
    destruct (IH ltac:(lia)) as (u & -> & Hu). destruct (HF (Z.of_nat k)) as [w Hw]; [lia|]. rewrite nthZ_smp, Hw by lia. cbn [xrsub]. unfold xmax. cbn [xlt]. unfold expected_at.
    destruct (Z.eq_dec i (Z.of_nat k)) as [->|N].
    - assert (w = v) by congruence. subst w. destruct (Rlt_dec delay (IZR (Z.of_nat k) - delay)); [|lra]. destruct (Rle_dec 0 (IZR (Z.of_nat k) - delay)); [|lra].
      fold (ideal (Z.of_nat k)). destruct (Rlt_dec u (ideal (Z.of_nat k) - v)); [eexists; split; [reflexivity | auto] | exists u; split; [reflexivity | intros; lra]].
    - destruct (Rlt_dec delay (IZR (Z.of_nat k) - delay)); [|exists u; split; [reflexivity | intros; apply Hu; lia]].
      match goal with |- context [Rlt_dec u ?q] => destruct (Rlt_dec u q) as [L|L] end; eexists; (split; [reflexivity|]); intros Q; assert (E < u)%R by (apply Hu; lia); lra. }
  destruct (G n ltac:(lia)) as (u & E1 & E2). exists u. split; [exact E1 | apply E2; lia].
Qed.
End Measure.

(** ** The signal and the chains *)
Lemma signal_at {A : arith} (to_float : R -> A) i : 0 <= i < 1024 -> smp (signal to_float) i = to_float (sin (IZR i * freq / rate * 2 * PI)).
Proof. intros H. exact (smp_tab (A := A) 1024 (fun i => to_float (sin (IZR i * freq / rate * 2 * PI))) i H). Qed.
Lemma size_signal {A : arith} (to_float : R -> A) : size (signal to_float) = 1024.
Proof. exact (size_tab (A := A) 1024 (fun i => to_float (sin (IZR i * freq / rate * 2 * PI))) ltac:(lia)). Qed.
Lemma angle i : (IZR i * freq / rate * 2 * PI = omega 1000 * IZR i)%R.
Proof. unfold freq, rate, omega. field. Qed.
Lemma sum_signal (x : list RA) : (forall i, 0 <= i < size x -> smp x i = sin (IZR i * freq / rate * 2 * PI)) -> is_sum x 0 [tone 1000 0].
Proof. intros H. split; [lia|]. intros i Hi. rewrite H by exact Hi. rewrite tone_at, Z.sub_0_r. f_equal. apply angle. Qed.

(** tests with FIR filters of at least 16 bits *)
Definition standard (t : test) : Prop := t_fir t = true /\ (t_ratio t = 2 \/ t_ratio t = 4 \/ t_ratio t = 8) /\ (t_prec t = 16 \/ t_prec t = 20 \/ t_prec t = 24).
Lemma standard_filter t : standard t -> t_filter t = FILTER_FIR.
Proof. intros [H _]. unfold t_filter. now rewrite H. Qed.
Lemma standard_valid t : standard t -> valid (t_filter t) (t_ratio t) (t_prec t).
Proof. intros H. rewrite (standard_filter t H). destruct H as (_ & R & P). split; [unfold ratio_no; tauto|]. intros _. cbn. unfold fir_prec. tauto. Qed.
Lemma standard_hq t : standard t -> hq_prec (t_prec t).
Proof. intros (_ & _ & P). unfold hq_prec. tauto. Qed.

Definition chain_of (t : test) (x : list RA) : list RA :=
  let p := t_prec t in let ratio := t_ratio t in
  if t_up t then resample FILTER_FIR UP p false ratio x
  else if t_down t then resample FILTER_FIR DOWN p false ratio x
  else resample FILTER_FIR DOWN p false ratio (resample FILTER_FIR UP p false ratio x).
Definition delay_of (t : test) : R :=
  total_delay t (IZR (fir_delay8 UP (t_ratio t) (t_prec t)) / 8) (IZR (fir_delay8 DOWN (t_ratio t) (t_prec t)) / 8).
Definition exact_err (t : test) : R :=
  let p := t_prec t in
  if t_up t then up_err (t_ratio t) (e2_of p) (e4_of p) (e8_of p)
  else if t_down t then eg_of p
  else over_err (t_ratio t) (e2_of p) (e4_of p) (e8_of p).

Lemma chain_close t (x : list RA) i : standard t -> is_sum x 0 [tone 1000 0] -> size x = 1024 -> size (chain_of t x) = out_samples t ->
  0 <= i < out_samples t -> (2 * delay_of t < IZR i)%R ->
  (Rabs (smp (chain_of t x) i - ideal (new_rate t) (delay_of t) i) <= exact_err t)%R.
Proof.
  intros HS HX Sx Sy Hi HD. pose proof (standard_hq t HS) as HQ. destruct HS as (_ & Rr & Pp).
  pose proof (errors_1000 _ Pp) as SE. pose proof (gains_1000 _ _ Pp Rr) as GE.
  assert (TM : mass [tone 1000 0] = 1%R) by apply tone_mass.
  assert (FS : Forall (fun u => stage_errors (t_prec t) (w_frq u) (e2_of (t_prec t)) (e4_of (t_prec t)) (e8_of (t_prec t))) [tone 1000 0]) by (constructor; [exact SE | constructor]).
  assert (R0 : (IZR (t_ratio t) <> 0)%R) by (apply not_0_IZR; lia).
  unfold chain_of, delay_of, total_delay, exact_err, ideal, new_rate, out_samples in *. destruct (t_up t) eqn:TU; [|destruct (t_down t) eqn:TD].
  - pose proof (sum_up_at (t_prec t) (t_ratio t) x 0 [tone 1000 0] i _ _ _ Rr HQ HX FS) as Q. cbn zeta in Q.
    assert (J : fir_delay8 UP (t_ratio t) (t_prec t) <= 4 * i) by (apply le_IZR; rewrite mult_IZR; lra).
    specialize (Q ltac:(lia) ltac:(rewrite Sy; lia)). rewrite TM, Rmult_1_r, tone_sines in Q. eapply Rle_trans; [right | exact Q]. do 3 f_equal. unfold omega, freq, rate. field. exact R0.
  - pose proof (down_at (t_prec t) (t_ratio t) x 0 (tone 1000 0) i _ Rr HQ HX GE) as Q. 
    assert (J : fir_delay8 DOWN (t_ratio t) (t_prec t) <= 4 * i) by (apply le_IZR; rewrite mult_IZR; lra).
    assert (J' : t_ratio t * fir_delay8 DOWN (t_ratio t) (t_prec t) <= t_ratio t * (4 * i)) by (apply Z.mul_le_mono_nonneg_l; lia).
    specialize (Q ltac:(lia) ltac:(rewrite Sy; lia)). rewrite TM, Rmult_1_r, tone_sines in Q. eapply Rle_trans; [right | exact Q]. do 3 f_equal. unfold omega, freq, rate. field. exact R0.
  - assert (E16 : forall p, (p = 16 \/ p = 20 \/ p = 24) -> (0 <= e2_of p <= 0.00576 /\ 0 <= e4_of p <= 0.00576 /\ 0 <= e8_of p <= 0.00576)%R).
    { intros p [->|[->| ->]]; unfold e2_of, e4_of, e8_of; cbn [Z.eqb Pos.eqb]; lra. }
    destruct (E16 _ Pp) as (B2 & B4 & B8).
    pose proof (trip_at (t_prec t) (t_ratio t) x 0 [tone 1000 0] i _ _ _ Rr HQ B2 B4 B8 HX FS) as Q. cbn zeta in Q.
    assert (J : fir_delay8 UP (t_ratio t) (t_prec t) + t_ratio t * fir_delay8 DOWN (t_ratio t) (t_prec t) <= 4 * t_ratio t * i).
    { apply le_IZR. rewrite plus_IZR, !mult_IZR. assert (0 < IZR (t_ratio t))%R by (apply IZR_lt; lia).
      apply (Rmult_lt_compat_l (IZR (t_ratio t))) in HD; [|assumption].
      replace (IZR (t_ratio t) * (2 * (IZR (fir_delay8 UP (t_ratio t) (t_prec t)) / 8 / IZR (t_ratio t) + IZR (fir_delay8 DOWN (t_ratio t) (t_prec t)) / 8)))%R
        with ((IZR (fir_delay8 UP (t_ratio t) (t_prec t)) + IZR (t_ratio t) * IZR (fir_delay8 DOWN (t_ratio t) (t_prec t))) / 4)%R in HD by (field; exact R0). lra. }
    specialize (Q ltac:(lia) ltac:(lia)). rewrite TM, Rmult_1_r, tone_sines in Q. eapply Rle_trans; [right | exact Q]. do 3 f_equal. unfold omega, freq, rate. field. exact R0.
Qed.

Lemma delays_of plat {A : arith} t idu idd (ou od : obj (A := A)) du dd : standard t ->
  o_res ou = built plat idu UP (t_ratio t) (t_prec t) (t_sse t) (t_filter t) -> o_res od = built plat idd DOWN (t_ratio t) (t_prec t) (t_sse t) (t_filter t) ->
  delay_is (o_res ou) du -> delay_is (o_res od) dd -> total_delay t du dd = delay_of t.
Proof.
  intros HS Ru Rd Hu Hd. pose proof (standard_valid t HS) as V. rewrite (standard_filter t HS) in *. rewrite Ru in Hu. rewrite Rd in Hd. unfold delay_of.
  rewrite (delay_unique _ _ _ Hu (fir_delay_is plat idu UP _ _ (t_sse t) V)), (delay_unique _ _ _ Hd (fir_delay_is plat idd DOWN _ _ (t_sse t) V)). reflexivity.
Qed.
Lemma standard_delay_pos t : standard t -> (0 <= delay_of t)%R.
Proof.
  intros (_ & R & P). unfold delay_of, total_delay.
  destruct R as [->|[->| ->]], P as [->|[->| ->]], (t_up t), (t_down t);
  repeat match goal with |- context [fir_delay8 ?a ?b ?c] => let v := eval vm_compute in (fir_delay8 a b c) in change (fir_delay8 a b c) with v end; lra.
Qed.

(** ** Exact arithmetic *)
Lemma exact_err_pos t : standard t -> (0 <= exact_err t <= 4.1e-5)%R.
Proof.
  intros (_ & R & P). unfold exact_err, up_err, over_err, over_step, eg_of, e2_of, e4_of, e8_of.
  destruct R as [->|[->| ->]], P as [->|[->| ->]], (t_up t), (t_down t); cbn [Z.eqb Pos.eqb]; lra.
Qed.

Lemma exact_report plat t r : standard t -> report_of (A := RA) plat (fun v => v) Fin t r ->
  p_rate r = new_rate t /\ p_delay r = delay_of t /\ up_to (exact_err t) (p_error r).
Proof.
  intros HS (st & m & idu & idd & ou & od & y & du & dd & H & Eu & Ed & Ru & Rd & Hu & Hd & Pos & PT & Ly & ->). cbn [p_rate p_delay p_error].
  pose proof (delays_of plat t idu idd ou od du dd HS Ru Rd Hu Hd) as ED. split; [reflexivity|]. split; [exact ED|]. rewrite ED in *.
  pose proof (reach_R plat _ _ _ _ H Eu) as Xu. pose proof (reach_R plat _ _ _ _ H Ed) as Xd. cbn zeta in *. rewrite Ru in Xu. rewrite Rd in Xd.
  rewrite (standard_filter t HS) in *. cbn [built r_filter r_mode r_prec r_ratio] in *.
  set (x := signal (A := RA) (fun v => v)) in *.
  assert (Ey : y = chain_of t x).
  { unfold chain_of, passed_through in *. destruct (t_up t); [|destruct (t_down t)].
    - destruct PT as [<- <-]. exact Xu.
    - destruct PT as [<- <-]. exact Xd.
    - destruct PT as (<- & E & <-). now rewrite Xd, E, Xu. }
  apply measure_up_to; [apply exact_err_pos, HS | exact Pos|]. intros i Hi HD. exists (smp y i). split; [reflexivity|].
  assert (L0 : 0 <= len y) by (unfold size; lia). change (len y) with (size y) in *. rewrite Ly in L0. rewrite Z2Nat.id in Hi by exact L0.
  rewrite Ey in *. apply chain_close; try assumption; [|apply size_signal]. apply sum_signal. intros k Hk. assert (Sx : size x = 1024) by apply size_signal. rewrite Sx in Hk. unfold x. now rewrite signal_at.
Qed.

(** ** Single precision *)
Definition multi_noise (t : test) : R :=
  let p := t_prec t in
  if t_up t then noise_rel UP (t_ratio t) p 1 ulp1
  else if t_down t then noise_rel DOWN (t_ratio t) p 1 ulp1
  else trip_noise UP DOWN (t_ratio t) p.

Lemma noise_rel_of (r : resampler) : (noise r 1 (/ 2 ^ 24 * 1 + / 2 ^ 150) <= noise_rel (r_mode r) (r_ratio r) (r_prec r) 1 ulp1)%R.
Proof.
  pose proof (noise_scale r 1 ulp1 1 (/ 2 ^ 24 * 1 + / 2 ^ 150)) as Q. rewrite !Rmult_1_r in Q. rewrite Rmult_1_r. apply Q; [lra | |].
  - apply Rinv_le_contravar; [apply pow_lt; lra | apply Rle_pow; [lra | lia]].
  - unfold ulp1. apply Rplus_le_compat_l. apply Rinv_le_contravar; [apply pow_lt; lra | apply Rle_pow; [lra | lia]].
Qed.

Lemma float_report plat t r : standard t -> report_of (A := F32) plat (fun v => b32_round v : F32) b32_double t r ->
  p_rate r = new_rate t /\ p_delay r = delay_of t /\ up_to (exact_err t + multi_noise t) (p_error r).
Proof.
  intros HS (st & m & idu & idd & ou & od & y & du & dd & H & Eu & Ed & Ru & Rd & Hu & Hd & Pos & PT & Ly & ->). cbn [p_rate p_delay p_error].
  pose proof (delays_of plat t idu idd ou od du dd HS Ru Rd Hu Hd) as ED. split; [reflexivity|]. split; [exact ED|]. rewrite ED in *. clear Hu Hd ED.
  set (x := signal (A := F32) (fun v => b32_round v : F32)) in *. rewrite (standard_filter t HS) in *.
  set (f := fun i => sin (IZR i * freq / rate * 2 * PI)).
  set (d := (/ 2 ^ 24 * 1 + / 2 ^ 150)%R).
  assert (Hd : (0 <= d <= 1)%R) by (unfold d; split; [assert (0 < / 2 ^ 24)%R by (apply Rinv_0_lt_compat, pow_lt; lra); assert (0 < / 2 ^ 150)%R by (apply Rinv_0_lt_compat, pow_lt; lra); lra|];
    pose proof (rounding_room 1) as Q; apply Q; rewrite <- Rinv_1; apply Rinv_le_contravar; [lra | apply pow_R1_Rle; lra]).
  assert (Sx : size x = 1024) by apply size_signal.
  assert (HF : forall i, 0 <= i < size x -> (Rabs (f i) <= 1)%R).
  { intros i Hi. unfold f. pose proof (SIN_bound (IZR i * freq / rate * 2 * PI)). apply Rabs_le. lra. }
  assert (NX : near_signal x f d).
  { intros i Hi. rewrite Sx in Hi. unfold x. rewrite signal_at by exact Hi. unfold f. split; apply round_sin. }
  assert (R109 : (1 + d <= 2 ^ 109)%R) by (assert (1 + d <= 2)%R by lra; assert (2 <= 2 ^ 109)%R by (rewrite (pow_IZR 2 109); apply IZR_le; lia); lra).
  assert (M100 : (/ 2 ^ 100 <= 1)%R) by (rewrite <- Rinv_1; apply Rinv_le_contravar; [lra | apply pow_R1_Rle; lra]).
  assert (P100 : (1 <= 2 ^ 100)%R) by (apply pow_R1_Rle; lra).
  assert (L0 : 0 <= size y) by (unfold size; lia). change (len y) with (size y) in *.
  assert (FIN : forall (x' y' : list RA), y' = chain_of t x' -> size x' = size x -> size y' = size y -> (forall i, 0 <= i < size x -> smp x' i = f i) ->
     (forall j, 0 <= j < size y -> is_finite (smp y j : b32) = true /\ (Rabs (B2R (smp y j : b32) - smp y' j) <= multi_noise t)%R) ->
     up_to (exact_err t + multi_noise t) (measure b32_double (new_rate t) (delay_of t) y (Z.to_nat (out_samples t)))).
  { intros x' y' -> Sx' Sy' Hx' G. apply measure_up_to; [|exact Pos|].
    - destruct (G 0) as [_ B]; [rewrite Ly; destruct HS as (_ & R & _); unfold out_samples; destruct (t_up t); [lia|]; destruct (t_down t); [|lia]; destruct R as [->|[->| ->]]; vm_compute; split; congruence|].
      pose proof (Rabs_pos (B2R (smp y 0 : b32) - smp (chain_of t x') 0)). pose proof (exact_err_pos t HS). lra.
    - intros i Hi HD. rewrite Z2Nat.id in Hi by (rewrite <- Ly; exact L0). destruct (G i) as [F B]; [rewrite Ly; exact Hi|].
      exists (B2R (smp y i : b32)). split; [now apply b32_double_fin|]. eapply near_trans; [exact B|].
      apply chain_close; [exact HS | | congruence | congruence | exact Hi | exact HD].
      apply sum_signal. intros k Hk. rewrite Sx' in Hk. now apply Hx'. }
  unfold passed_through in PT. unfold chain_of, multi_noise in FIN. unfold multi_noise.
  destruct (t_up t); [|destruct (t_down t)].
  - destruct PT as [Ex Ey]. rewrite <- Ex in HF, NX. rewrite <- Ey in FIN. rewrite <- Ex in FIN. rewrite <- Ey.
    destruct (transfer plat _ _ _ _ f 1 d H Eu ltac:(rewrite Ru; reflexivity) (proj1 Hd) R109 HF NX) as (st' & m' & o' & H' & E' & Er & Si & So & T & G).
    pose proof (reach_R plat _ _ _ _ H' E') as XR. cbn zeta in XR. rewrite Er, Ru in XR. cbn [built r_filter r_mode r_prec r_ratio] in XR.
    apply (FIN (o_in o') (o_out o') XR Si So T). intros j Hj. destruct (G _ Hj) as [F B]. split; [exact F|]. eapply Rle_trans; [exact B|]. rewrite Ru. apply noise_rel_of.
  - destruct PT as [Ex Ey]. rewrite <- Ex in HF, NX. rewrite <- Ey in FIN. rewrite <- Ex in FIN. rewrite <- Ey.
    destruct (transfer plat _ _ _ _ f 1 d H Ed ltac:(rewrite Rd; reflexivity) (proj1 Hd) R109 HF NX) as (st' & m' & o' & H' & E' & Er & Si & So & T & G).
    pose proof (reach_R plat _ _ _ _ H' E') as XR. cbn zeta in XR. rewrite Er, Rd in XR. cbn [built r_filter r_mode r_prec r_ratio] in XR.
    apply (FIN (o_in o') (o_out o') XR Si So T). intros j Hj. destruct (G _ Hj) as [F B]. split; [exact F|]. eapply Rle_trans; [exact B|]. rewrite Rd. apply noise_rel_of.
  - destruct PT as (Ex & Em & Ey). rewrite <- Ex in HF, NX. rewrite <- Ey in FIN. rewrite <- Ex in FIN. rewrite <- Ey.
    destruct (transfer2 plat st m idu ou plat st m idd od f 1 d H Eu H Ed ltac:(rewrite Ru; reflexivity) ltac:(rewrite Rd; reflexivity) Em (proj1 Hd) ltac:(lra) R109
      (noise_small _ _ _ Hd P100) HF NX) as (st1 & m1 & o1 & st2 & m2 & o2 & H1 & E1 & H2 & E2 & Er1 & Er2 & Si & So & Ex' & T & G).
    pose proof (reach_R plat _ _ _ _ H1 E1) as X1. pose proof (reach_R plat _ _ _ _ H2 E2) as X2. cbn zeta in X1, X2. rewrite Er1, Ru in X1. rewrite Er2, Rd in X2.
    cbn [built r_filter r_mode r_prec r_ratio] in X1, X2. rewrite Ex', X1 in X2.
    apply (FIN (o_in o1) (o_out o2) X2 Si So T). intros j Hj. destruct (G _ Hj) as [F B]. split; [exact F|]. eapply Rle_trans; [exact B|]. rewrite Ru, Rd.
    pose proof (trip_scale (built plat idu UP (t_ratio t) (t_prec t) (t_sse t) FILTER_FIR) (built plat idd DOWN (t_ratio t) (t_prec t) (t_sse t) FILTER_FIR) 1 eq_refl eq_refl M100) as Q.
    rewrite (Rmult_1_r (trip_noise _ _ _ _)) in Q. exact Q.
Qed.

(** the numbers *)
Definition float_limit (t : test) : R :=
  (if t_up t then (if t_ratio t =? 8 then (if t_prec t =? 16 then 7.1e-5 else 4.4e-5) else 4e-5)
   else if t_down t then 4e-5
   else if t_ratio t =? 2 then 4e-5 else if t_ratio t =? 4 then 1.1e-4 else 2.8e-4)%R.
Lemma float_numbers_1000 t : standard t -> (exact_err t + multi_noise t <= float_limit t)%R.
Proof.
  intros (_ & R & P). unfold exact_err, multi_noise, float_limit, up_err, over_err, over_step, eg_of, e2_of, e4_of, e8_of, trip_noise, noise_rel, fir_bound, fir_units, pick, ulp1.
  destruct (t_up t); [|destruct (t_down t)]; destruct R as [->|[->| ->]], P as [->|[->| ->]]; cbn [Z.eqb Pos.eqb]; interval with (i_prec 60).
Qed.
