(** * Properties: frequency accuracy, alias rejection and delay() of IIR resamplers *)
From Coq Require Import ZArith Reals List Lia Lra Psatz Bool ZifyNat ZifyBool.
From Flocq Require Import Core.
From Interval Require Import Tactic.
From Verif Require Import Arith ArithR Mem FirModel IirModel Tables ResamplerModel Wp Stage Cascade
  ResamplerProof ResamplerOk Spec SpecOk SpecR Client Feed StreamFacts DelayFacts Twin TablesF TableFacts FirReal IirReal Cases PropsFir PropsIir
  IirPhase IirCert IirLag IirFreq IirDelay IirSine.
Import ListNotations.
Open Scope Z_scope.

(** ** C56 *)
(** The input may be anything (of size at most M) before sample n0; [transient] is what
    may be left of that (see C25). The output is the sinusoid, shifted by an angle that
    only depends on precision, ratio and frequency. *)
Theorem C56_upsampling_accuracy plat st (m : mem RA) id o M amp w ph n0 :
  reach plat st m -> st id = Some o ->
  let r := o_res o in let x := o_in o in let y := o_out o in
  r_filter r = FILTER_IIR -> r_mode r = UP -> 0 <= n0 -> (Rabs amp <= M)%R ->
  (forall k, 0 <= k < size x -> (Rabs (smp x k) <= M)%R) ->
  (forall k, n0 <= k < size x -> smp x k = (amp * sin (w * IZR k + ph))%R) -> (Rabs w <= iband)%R ->
  forall j, 0 <= j < size y ->
  (Rabs (smp y j - amp * sin (w / IZR (r_ratio r) * IZR j + (ph - up_shift (r_prec r) (r_ratio r) w)))
   <= iir_up_factor (r_ratio r) * iir_error (r_prec r) * Rabs amp + transient r M n0 j)%R.
Proof.
  intros H E r x y Hf Hm Hn Ha HM Hx Hw j Hj. destruct (up_output plat st m id o M amp w ph n0 H E Hf Hm Hn Ha HM Hx) as [V G]. fold r y in V, G.
  specialize (G j Hj). pose proof (ups_pure _ _ amp w ph V Hw j) as U.
  set (a := (amp * sin _)%R) in *. set (b := waves _ _) in *. set (yj := smp y j) in *. change (Arith.T RA) with R in yj. clearbody yj.
  replace (yj - a)%R with ((yj - b) + (b - a))%R by ring. eapply Rle_trans; [apply Rabs_triang|]. lra.
Qed.

Theorem C56_downsampling_accuracy plat st (m : mem RA) id o M amp w ph n0 :
  reach plat st m -> st id = Some o ->
  let r := o_res o in let x := o_in o in let y := o_out o in
  r_filter r = FILTER_IIR -> r_mode r = DOWN -> 0 <= n0 -> (Rabs amp <= M)%R ->
  (forall k, 0 <= k < size x -> (Rabs (smp x k) <= M)%R) ->
  (forall k, n0 <= k < size x -> smp x k = (amp * sin (w * IZR k + ph))%R) -> (Rabs (IZR (r_ratio r) * w) <= iband)%R ->
  forall j, 0 <= j < size y ->
  (Rabs (smp y j - amp * sin (IZR (r_ratio r) * w * IZR j + (ph - down_shift (r_prec r) (r_ratio r) w)))
   <= iir_down_factor (r_ratio r) * (iir_error (r_prec r) * iir_error (r_prec r)) * Rabs amp + transient r M n0 j)%R.
Proof.
  intros H E r x y Hf Hm Hn Ha HM Hx Hw j Hj. destruct (down_output plat st m id o M amp w ph n0 H E Hf Hm Hn Ha HM Hx) as [V G]. fold r y in V, G.
  specialize (G j Hj). pose proof (down_pass _ _ w V Hw) as U.
  set (q := sin _) in *. set (g := down_gain_of _ _ _) in *. set (yj := smp y j) in *. change (Arith.T RA) with R in yj. clearbody yj.
  assert (Q : (Rabs q <= 1)%R) by (apply Rabs_le; unfold q; pose proof (SIN_bound (IZR (r_ratio r) * w * IZR j + (ph - down_shift (r_prec r) (r_ratio r) w))); lra).
  replace (yj - amp * q)%R with ((yj - amp * g * q) + - ((1 - g) * (amp * q)))%R by ring. eapply Rle_trans; [apply Rabs_triang|].
  rewrite Rabs_Ropp, (Rabs_mult (1 - g)), (Rabs_pos_eq (1 - g)), (Rabs_mult amp) by lra.
  assert ((1 - g) * (Rabs amp * Rabs q) <= iir_down_factor (r_ratio r) * (iir_error (r_prec r) * iir_error (r_prec r)) * Rabs amp)%R; [|lra].
  pose proof (Rabs_pos amp). pose proof (Rabs_pos q). apply Rmult_le_compat; try lra; nra.
Qed.

(** components that would be aliased to a frequency below 18 kHz are suppressed *)
Theorem C56_alias_rejection plat st (m : mem RA) id o M amp w ph n0 k :
  reach plat st m -> st id = Some o ->
  let r := o_res o in let x := o_in o in let y := o_out o in
  r_filter r = FILTER_IIR -> r_mode r = DOWN -> 0 <= n0 -> (Rabs amp <= M)%R ->
  (forall k, 0 <= k < size x -> (Rabs (smp x k) <= M)%R) ->
  (forall k, n0 <= k < size x -> smp x k = (amp * sin (w * IZR k + ph))%R) ->
  (Rabs (IZR (r_ratio r) * w - 2 * PI * IZR k) <= iband)%R -> k mod r_ratio r <> 0 ->
  forall j, 0 <= j < size y -> (Rabs (smp y j) <= iir_error (r_prec r) * Rabs amp + transient r M n0 j)%R.
Proof.
  intros H E r x y Hf Hm Hn Ha HM Hx Hw Hk j Hj. destruct (down_output plat st m id o M amp w ph n0 H E Hf Hm Hn Ha HM Hx) as [V G]. fold r y in V, G.
  specialize (G j Hj). pose proof (down_stop _ _ w k V Hw Hk) as U.
  set (q := sin _) in *. set (g := down_gain_of _ _ _) in *. set (yj := smp y j) in *. change (Arith.T RA) with R in yj. clearbody yj.
  assert (Q : (Rabs q <= 1)%R) by (apply Rabs_le; unfold q; pose proof (SIN_bound (IZR (r_ratio r) * w * IZR j + (ph - down_shift (r_prec r) (r_ratio r) w))); lra).
  replace yj with ((yj - amp * g * q) + amp * g * q)%R by ring. eapply Rle_trans; [apply Rabs_triang|]. rewrite !Rabs_mult.
  assert (Rabs amp * Rabs g * Rabs q <= Rabs amp * iir_error (r_prec r) * 1)%R; [|lra].
  pose proof (Rabs_pos amp). pose proof (Rabs_pos q). pose proof (Rabs_pos g). apply Rmult_le_compat; try lra; [apply Rmult_le_pos; lra|]. apply Rmult_le_compat_l; lra.
Qed.

(** what is left after long enough is the error of the filter *)
Theorem C56_transient r M n0 eps : valid FILTER_IIR (r_ratio r) (r_prec r) -> (0 <= M)%R -> (0 < eps)%R -> exists J, forall j, J <= j -> (transient r M n0 j < eps)%R.
Proof.
  intros V M0 He.
  destruct (pow_lt_1_zero (994 / 1000) ltac:(rewrite Rabs_pos_eq; lra) (eps / (1728 * M + 1)) ltac:(apply Rdiv_lt_0_compat; lra)) as [N HN].
  exists (8 * (Z.abs n0 + Z.of_nat N) + 8). intros j Hj. destruct V as [V _].
  assert (TN : (N <= settle_time r n0 j)%nat).
  { unfold settle_time. destruct (r_mode r); [|destruct V as [V|[V|[V|V]]]; rewrite V; lia]. assert (n0 + Z.of_nat N <= j / r_ratio r); [|lia].
    apply Z.div_le_lower_bound; destruct V as [V|[V|[V|V]]]; rewrite V in *; lia. }
  specialize (HN _ TN). rewrite Rabs_pos_eq in HN by (apply pow_le; lra). unfold transient.
  assert (G : (0 <= settle_gain (r_ratio r) <= 864)%R) by (unfold settle_gain; destruct (r_ratio r =? 1), (r_ratio r =? 2), (r_ratio r =? 4); lra).
  assert (P : (0 <= settle_rate (r_mode r) ^ settle_time r n0 j <= (994 / 1000) ^ settle_time r n0 j)%R).
  { unfold settle_rate. destruct (r_mode r); (split; [apply pow_le; lra | apply pow_incr; lra]). }
  set (q := ((994 / 1000) ^ settle_time r n0 j)%R) in *. set (q' := (settle_rate (r_mode r) ^ settle_time r n0 j)%R) in *.
  assert (A1 : (settle_gain (r_ratio r) * (2 * M) * q' <= 864 * (2 * M) * q)%R).
  { apply Rmult_le_compat; try lra; [apply Rmult_le_pos; lra|]. apply Rmult_le_compat_r; lra. }
  assert (A2 : (q * (1728 * M + 1) < eps)%R).
  { apply Rmult_lt_reg_r with (/ (1728 * M + 1))%R; [apply Rinv_0_lt_compat; lra|]. rewrite Rmult_assoc, Rinv_r by lra. rewrite Rmult_1_r. exact HN. }
  lra.
Qed.

(** the precision in dB that the name stands for: 48 for PREC_48DB and so on *)
Definition nominal (p : Z) : R := (6 * IZR p)%R.
Theorem C56_nominal p : iir_prec p -> p <> PREC_144DB -> (iir_error p <= Rpower 10 (- nominal p / 20))%R.
Proof.
  unfold iir_prec, iir_error, nominal, PREC_48DB, PREC_72DB, PREC_96DB, PREC_120DB, PREC_144DB, Rpower.
  intros [->|[->|[->|[->| ->]]]] N; cbn [Z.eqb Pos.eqb]; try congruence; interval with (i_prec 60).
Qed.
Theorem C56_almost_nominal_144 : (iir_error PREC_144DB <= Rpower 10 (- 143.3 / 20))%R.
Proof. unfold iir_error, PREC_48DB, PREC_72DB, PREC_96DB, PREC_120DB, PREC_144DB, Rpower. cbn [Z.eqb Pos.eqb]. interval with (i_prec 60). Qed.

Definition sine_in (amp w ph : R) (n : Z) : list RA := tab n (fun k => (amp * sin (w * IZR k + ph))%R : RA).
Lemma sine_in_spec amp w ph n : 0 <= n -> size (sine_in amp w ph n) = n /\ (forall k, 0 <= k < n -> smp (sine_in amp w ph n) k = (amp * sin (w * IZR k + ph))%R) /\
  (forall k, 0 <= k < n -> (Rabs (smp (sine_in amp w ph n) k) <= Rabs amp)%R).
Proof.
  intros Hn. unfold sine_in. split; [now apply size_tab|]. split; intros k Hk; rewrite smp_tab by lia; [reflexivity|].
  rewrite Rabs_mult. pose proof (Rabs_pos amp). pose proof (SIN_bound (w * IZR k + ph)) as B.
  assert (Rabs (sin (w * IZR k + ph)) <= 1)%R by (apply Rabs_le; lra). nra.
Qed.

(** with PREC_144DB there is a sinusoid of amplitude 1 above the Nyquist frequency whose alias
    (below 18 kHz) has an amplitude above -144 dB: the coefficients of the table are
    rounded to single precision *)
Theorem C56_nominal_144_refuted plat (sse : bool) : exists st (m : mem RA) o w ph k j, reach plat st m /\ st 0 = Some o /\
  r_filter (o_res o) = FILTER_IIR /\ r_mode (o_res o) = DOWN /\ r_ratio (o_res o) = 2 /\ r_prec (o_res o) = PREC_144DB /\ r_use_sse (o_res o) = sse /\
  (forall i, 0 <= i < size (o_in o) -> smp (o_in o) i = (1 * sin (w * IZR i + ph))%R) /\
  (Rabs (2 * w - 2 * PI * IZR k) <= iband)%R /\ k mod 2 <> 0 /\
  0 <= j < size (o_out o) /\ (Rpower 10 (- nominal PREC_144DB / 20) < Rabs (smp (o_out o) j))%R.
Proof.
  set (w := (f144 + PI)%R). set (ph := (PI / 2 + down_shift PREC_144DB 2 w - 2 * w * 2400)%R).
  destruct (some_obj (A := RA) plat DOWN 2 PREC_144DB sse FILTER_IIR 0 [(0, sine_in 1 w ph 5000)]) as (st & m & o & H & E & Er & Ei).
  { cbn [forallb snd fst]. unfold sine_in. assert (length (tab 5000 (fun k => (1 * sin (w * IZR k + ph))%R : RA)) = 5000%nat) as -> by (unfold tab; rewrite map_length, seq_length; reflexivity). reflexivity. }
  cbn [map concat snd] in Ei. rewrite app_nil_r in Ei. destruct (sine_in_spec 1 w ph 5000 ltac:(lia)) as (Sz & Sx & SM). rewrite Rabs_R1 in SM.
  pose proof (reach_size plat _ _ _ _ H E) as Oz. rewrite Ei, Er in Oz. cbn [built r_mode r_ratio] in Oz. rewrite Sz in Oz. change (out_size DOWN 2 5000) with 2500 in Oz.
  exists st, m, o, w, ph, 1, 2400. rewrite Oz. 
  do 7 (split; [first [exact H | exact E | rewrite Er; reflexivity]|]). split; [rewrite Ei, Sz; exact Sx|].
  split. { unfold w. replace (2 * (f144 + PI) - 2 * PI * 1)%R with (2 * f144)%R by lra. rewrite Rabs_pos_eq by (unfold f144; lra). exact f144_band. }
  split; [discriminate|]. split; [lia|].
  destruct (down_output plat st m 0 o 1 1 w ph 0 H E) as [V G]; try (rewrite Er; reflexivity); [lia | rewrite Rabs_R1; lra | rewrite Ei, Sz; exact SM | rewrite Ei, Sz; exact Sx|].
  specialize (G 2400 ltac:(lia)). rewrite Er in G. unfold transient in G. cbn [built r_prec r_ratio r_mode] in G.
  unfold ph in G. replace (2 * w * 2400 + (PI / 2 + down_shift PREC_144DB 2 w - 2 * w * 2400 - down_shift PREC_144DB 2 w))%R with (PI / 2)%R in G by lra.
  rewrite sin_PI2 in G. unfold settle_time, settle_gain, settle_rate in G. cbn [built r_prec r_ratio r_mode Z.eqb Pos.eqb] in G.
  set (n := Z.to_nat (2 * 2400 - 0)) in G. pose proof (fade_144 n eq_refl) as F. clearbody n.
  assert (D : (66e-9 <= Rabs (down_gain_of PREC_144DB 2 w))%R).
  { unfold down_gain_of. cbn [Z.eqb Pos.eqb]. assert (Ew : w = (f144 + IZR 1 * PI)%R) by (clear; unfold w; lra). rewrite Ew, half_diff_odd by reflexivity. exact half_diff_144. }
  set (g := down_gain_of PREC_144DB 2 w) in *. set (y := smp (o_out o) 2400) in *. change (Arith.T RA) with R in y. clearbody y.
  assert (Y : (Rabs g - Rabs y <= 48 * (2 * 1) * (994 / 1000) ^ n)%R).
  { eapply Rle_trans; [apply Rabs_triang_inv|]. rewrite Rabs_minus_sym. replace (1 * g * 1)%R with g in G by ring. exact G. }
  assert (P : (Rpower 10 (- nominal PREC_144DB / 20) <= 64e-9)%R) by (unfold nominal, PREC_144DB, Rpower; interval with (i_prec 60)).
  lra.
Qed.

(** ** C57 *)
(** up to 1 kHz, the output is the input delayed by delay() *)
Theorem C57_upsampling_delay plat st (m : mem RA) id o D M amp w ph n0 :
  reach plat st m -> st id = Some o ->
  let r := o_res o in let x := o_in o in let y := o_out o in
  r_filter r = FILTER_IIR -> r_mode r = UP -> delay_is r D -> 0 <= n0 -> (Rabs amp <= M)%R ->
  (forall k, 0 <= k < size x -> (Rabs (smp x k) <= M)%R) ->
  (forall k, n0 <= k < size x -> smp x k = (amp * sin (w * IZR k + ph))%R) -> (Rabs w <= khz)%R ->
  forall j, 0 <= j < size y ->
  (Rabs (smp y j - amp * sin (w * ((IZR j - D) / IZR (r_ratio r)) + ph))
   <= (delay_error * Rabs w + iir_up_factor (r_ratio r) * iir_error (r_prec r)) * Rabs amp + transient r M n0 j)%R.
Proof.
  intros H E r x y Hf Hm HD Hn Ha HM Hx Hw j Hj.
  assert (Hb : (Rabs w <= iband)%R) by (eapply Rle_trans; [exact Hw|]; unfold khz, iband; pose proof PI_RGT_0; lra).
  pose proof (C56_upsampling_accuracy plat st m id o M amp w ph n0 H E Hf Hm Hn Ha HM Hx Hb j Hj) as G. cbn zeta in G. fold r y in G.
  destruct (reach_built plat _ _ _ _ H E) as [Bu V]. fold r in Bu, V. rewrite Hf in V, Bu. rewrite Hm in Bu.
  rewrite Bu in HD. pose proof (up_shift_delay _ _ _ _ _ _ w V HD Hw) as S.
  assert (Rn : IZR (r_ratio r) <> 0%R) by (destruct V as [[->|[->|[->| ->]]] _]; lra).
  set (a := (w / IZR (r_ratio r) * IZR j + (ph - up_shift (r_prec r) (r_ratio r) w))%R) in *.
  set (b := (w * ((IZR j - D) / IZR (r_ratio r)) + ph)%R).
  assert (Eab : (Rabs (a - b) <= delay_error * Rabs w)%R).
  { replace (a - b)%R with (- (up_shift (r_prec r) (r_ratio r) w - w * (D / IZR (r_ratio r))))%R by (unfold a, b; field; exact Rn). rewrite Rabs_Ropp. exact S. }
  pose proof (sin_lip a b) as L. set (yj := smp y j) in *. change (Arith.T RA) with R in yj. clearbody yj.
  replace (yj - amp * sin b)%R with ((yj - amp * sin a) + amp * (sin a - sin b))%R by ring. eapply Rle_trans; [apply Rabs_triang|]. rewrite Rabs_mult.
  assert (Rabs amp * Rabs (sin a - sin b) <= Rabs amp * (delay_error * Rabs w))%R by (apply Rmult_le_compat_l; [apply Rabs_pos | lra]). lra.
Qed.
Theorem C57_downsampling_delay plat st (m : mem RA) id o D M amp w ph n0 :
  reach plat st m -> st id = Some o ->
  let r := o_res o in let x := o_in o in let y := o_out o in
  r_filter r = FILTER_IIR -> r_mode r = DOWN -> delay_is r D -> 0 <= n0 -> (Rabs amp <= M)%R ->
  (forall k, 0 <= k < size x -> (Rabs (smp x k) <= M)%R) ->
  (forall k, n0 <= k < size x -> smp x k = (amp * sin (w * IZR k + ph))%R) -> (Rabs (IZR (r_ratio r) * w) <= khz)%R ->
  forall j, 0 <= j < size y ->
  (Rabs (smp y j - amp * sin (w * ((IZR j - D) * IZR (r_ratio r)) + ph))
   <= (delay_error * Rabs (IZR (r_ratio r) * w) + iir_down_factor (r_ratio r) * (iir_error (r_prec r) * iir_error (r_prec r))) * Rabs amp + transient r M n0 j)%R.
Proof.
  intros H E r x y Hf Hm HD Hn Ha HM Hx Hw j Hj.
  assert (Hb : (Rabs (IZR (r_ratio r) * w) <= iband)%R) by (eapply Rle_trans; [exact Hw|]; unfold khz, iband; pose proof PI_RGT_0; lra).
  pose proof (C56_downsampling_accuracy plat st m id o M amp w ph n0 H E Hf Hm Hn Ha HM Hx Hb j Hj) as G. cbn zeta in G. fold r y in G.
  destruct (reach_built plat _ _ _ _ H E) as [Bu V]. fold r in Bu, V. rewrite Hf in V, Bu. rewrite Hm in Bu.
  rewrite Bu in HD. pose proof (down_shift_delay _ _ _ _ _ _ w V HD Hw) as S.
  set (a := (IZR (r_ratio r) * w * IZR j + (ph - down_shift (r_prec r) (r_ratio r) w))%R) in *.
  set (b := (w * ((IZR j - D) * IZR (r_ratio r)) + ph)%R).
  assert (Eab : (Rabs (a - b) <= delay_error * Rabs (IZR (r_ratio r) * w))%R).
  { replace (a - b)%R with (- (down_shift (r_prec r) (r_ratio r) w - IZR (r_ratio r) * w * D))%R by (unfold a, b; ring). rewrite Rabs_Ropp. exact S. }
  pose proof (sin_lip a b) as L. set (yj := smp y j) in *. change (Arith.T RA) with R in yj. clearbody yj.
  replace (yj - amp * sin b)%R with ((yj - amp * sin a) + amp * (sin a - sin b))%R by ring. eapply Rle_trans; [apply Rabs_triang|]. rewrite (Rabs_mult amp).
  assert (Rabs amp * Rabs (sin a - sin b) <= Rabs amp * (delay_error * Rabs (IZR (r_ratio r) * w)))%R by (apply Rmult_le_compat_l; [apply Rabs_pos | lra]). lra.
Qed.
(** delay() is the group delay at 1 kHz (in samples of the output): the derivative of the lag
    with respect to the frequency, up to [gd_tolerance] samples of the lower rate *)
Theorem C57_group_delay plat st (m : mem RA) id o D :
  reach plat st m -> st id = Some o ->
  let r := o_res o in
  r_filter r = FILTER_IIR -> delay_is r D ->
  exists g, match r_mode r with
  | UP => derivable_pt_lim (up_shift (r_prec r) (r_ratio r)) khz g /\ (Rabs (g - D / IZR (r_ratio r)) <= gd_tolerance (r_prec r))%R
  | DOWN => derivable_pt_lim (fun w => down_shift (r_prec r) (r_ratio r) (w / IZR (r_ratio r))%R) khz g /\ (Rabs (g - D) <= gd_tolerance (r_prec r))%R
  end.
Proof.
  intros H E r Hf HD. destruct (reach_built plat _ _ _ _ H E) as [Bu V]. fold r in Bu, V. rewrite Hf in V, Bu. rewrite Bu in HD.
  pose proof (group_delay_1k _ _ _ _ _ _ _ V HD) as G. destruct (r_mode r).
  - exists (lag_grp (r_prec r) (r_ratio r) khz). split; [now apply up_shift_derive | exact G].
  - exists (lag_grp (r_prec r) (r_ratio r) khz - less_one (r_ratio r))%R. split; [now apply down_shift_derive | exact G].
Qed.

(** the hypotheses can be met *)
Example C56_case plat (sse : bool) md : exists st (m : mem RA) o D, reach plat st m /\ st 0 = Some o /\ r_filter (o_res o) = FILTER_IIR /\
  r_mode (o_res o) = md /\ r_ratio (o_res o) = 8 /\ r_prec (o_res o) = PREC_96DB /\ r_use_sse (o_res o) = sse /\ delay_is (o_res o) D /\ (0 < D)%R /\
  (Rabs (2) <= 2)%R /\ (forall k, 0 <= k < size (o_in o) -> (Rabs (smp (o_in o) k) <= 2)%R) /\
  (forall k, 10 <= k < size (o_in o) -> smp (o_in o) k = (2 * sin (1 / 80 * IZR k + 1 / 3))%R) /\ (Rabs (1 / 80) <= iband)%R /\ (Rabs (8 * (1 / 80)) <= khz)%R /\ size (o_in o) = 400 /\
  smp (o_in o) 0 = 1%R.
Proof.
  set (x := tab 400 (fun k => (if k <? 10 then 1 else 2 * sin (1 / 80 * IZR k + 1 / 3))%R : RA)).
  destruct (some_obj (A := RA) plat md 8 PREC_96DB sse FILTER_IIR 0 [(0, x)]) as (st & m & o & H & E & Er & Ei).
  { unfold x. destruct md; reflexivity. }
  cbn [map concat snd] in Ei. rewrite app_nil_r in Ei. assert (Sz : size x = 400) by (unfold x; apply size_tab; lia).
  destruct (iir_delay_exists plat 0 md 8 PREC_96DB sse ltac:(now apply configb_ok)) as (D & HD & G).
  exists st, m, o, D. rewrite Ei, Sz. split; [exact H|]. split; [exact E|]. do 5 (split; [rewrite Er; reflexivity|]). split; [rewrite Er; exact HD|]. split.
  { apply Rabs_le_inv in G.
    destruct md; [set (n := iir_delay8 _ _ _) in G; vm_compute in n; unfold n in G; clear n | set (n := iir_delay8 _ _ _) in G; vm_compute in n; unfold n in G; clear n]; lra. }
  split; [rewrite Rabs_pos_eq; lra|]. split; [|split].
  - intros k Hk. unfold x. rewrite smp_tab by lia. destruct (k <? 10); [rewrite Rabs_R1; lra|]. rewrite Rabs_mult, (Rabs_pos_eq 2) by lra.
    pose proof (SIN_bound (1 / 80 * IZR k + 1 / 3)) as B. assert (Rabs (sin (1 / 80 * IZR k + 1 / 3)) <= 1)%R by (apply Rabs_le; lra). lra.
  - intros k Hk. unfold x. rewrite smp_tab by lia. replace (k <? 10) with false by lia. reflexivity.
  - rewrite !Rabs_pos_eq by lra. unfold iband, khz. split; [interval with (i_prec 60)|]. split; [interval with (i_prec 60)|]. split; [reflexivity|].
    unfold x. rewrite smp_tab by lia. reflexivity.
Qed.
Example C56_case_alias : (Rabs (8 * (3 * PI / 4 + 1 / 10) - 2 * PI * IZR 3) <= iband)%R /\ 3 mod 8 <> 0.
Proof. split; [|discriminate]. unfold iband. interval with (i_prec 60). Qed.

Print Assumptions C56_upsampling_accuracy.
Print Assumptions C56_downsampling_accuracy.
Print Assumptions C56_alias_rejection.
Print Assumptions C56_transient.
Print Assumptions C56_nominal.
Print Assumptions C56_almost_nominal_144.
Print Assumptions C56_nominal_144_refuted.
Print Assumptions C57_upsampling_delay.
Print Assumptions C57_downsampling_delay.
Print Assumptions C57_group_delay.
