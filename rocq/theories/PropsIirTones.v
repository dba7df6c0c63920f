(** * Properties: sums of sinusoids, and round trips, with IIR resamplers *)
From Coq Require Import ZArith Reals List Lia Lra Psatz Bool ZifyNat ZifyBool.
From Flocq Require Import Core.
From Interval Require Import Tactic.
From Verif Require Import Arith ArithR Mem FirModel IirModel Tables ResamplerModel Wp Stage Cascade
  ResamplerProof ResamplerOk Spec SpecOk SpecR Client Feed StreamFacts DelayFacts Twin TablesF TableFacts FirReal IirReal Cases PropsFir PropsIir
  IirPhase IirCert IirLag IirFreq IirDelay IirSine IirTones.
Import ListNotations.
Open Scope Z_scope.

(** ** C69 *)
(** The input is a sum of sinusoids from sample n0 on; before, it may be anything of size at most M. *)
Definition plays (x : list RA) (l : list wave) (M : R) (n0 : Z) : Prop :=
  0 <= n0 /\ (amps l <= M)%R /\ (forall k, 0 <= k < size x -> (Rabs (smp x k) <= M)%R) /\ (forall k, n0 <= k < size x -> smp x k = waves l k).
Lemma plays_near (x : list RA) rho l M n0 : (0 <= rho <= 1)%R -> plays x l M n0 -> near x l (2 * M) (fun k => (rho ^ Z.to_nat (k - n0))%R).
Proof. intros Hr (Hn & Ha & HM & Hx). now apply inputs_near. Qed.
Lemma apart (y b a e t : R) : (Rabs (y - b) <= t -> Rabs (b - a) <= e -> Rabs (y - a) <= e + t)%R.
Proof. intros H1 H2. replace (y - a)%R with ((y - b) + (b - a))%R by ring. eapply Rle_trans; [apply Rabs_triang|]. lra. Qed.

Theorem C69_upsampling plat st (m : mem RA) id o M l n0 :
  reach plat st m -> st id = Some o ->
  let r := o_res o in let x := o_in o in let y := o_out o in
  r_filter r = FILTER_IIR -> r_mode r = UP -> plays x l M n0 -> Forall in_iband l ->
  forall j, 0 <= j < size y ->
  (Rabs (smp y j - waves (map (up_tone (r_prec r) (r_ratio r)) l) j)
   <= iir_up_factor (r_ratio r) * iir_error (r_prec r) * amps l + transient r M n0 j)%R.
Proof.
  intros H E r x y Hf Hm HX HW j Hj. destruct (reach_iir plat _ _ _ _ H E Hf) as (V & Ey & _). fold r x in V, Ey. fold y in Ey.
  pose proof (ups_sum _ _ l j V HW) as U. refine (apart _ _ _ _ _ _ U).
  unfold transient, settle_time. rewrite <- (K_settle _ _ V). rewrite Ey in Hj |- *. rewrite Hm in *. unfold settle_rate.
  exact (proj2 (resample_up_near _ _ _ _ _ _ V (fading_steady (95 / 100) n0 ltac:(lra)) (plays_near _ (95 / 100) _ _ _ ltac:(lra) HX)) j Hj).
Qed.

(** the sinusoids l1 are kept, l2 are removed *)
Theorem C69_downsampling plat st (m : mem RA) id o M l1 l2 n0 :
  reach plat st m -> st id = Some o ->
  let r := o_res o in let x := o_in o in let y := o_out o in
  r_filter r = FILTER_IIR -> r_mode r = DOWN -> plays x (l1 ++ l2) M n0 -> Forall (ipassed (r_ratio r)) l1 -> Forall (istopped (r_ratio r)) l2 ->
  forall j, 0 <= j < size y ->
  (Rabs (smp y j - waves (map (down_tone (r_prec r) (r_ratio r)) l1) j)
   <= iir_down_factor (r_ratio r) * (iir_error (r_prec r) * iir_error (r_prec r)) * amps l1 + iir_error (r_prec r) * amps l2 + transient r M n0 j)%R.
Proof.
  intros H E r x y Hf Hm HX H1 H2 j Hj. destruct (reach_iir plat _ _ _ _ H E Hf) as (V & Ey & Hmod). fold r x in V, Ey, Hmod. fold y in Ey.
  pose proof (downs_sum _ _ l1 j V H1) as U1. pose proof (amps_stopped _ _ l2 V H2) as U2.
  apply apart with (b := waves (map (downs (r_prec r) (r_ratio r)) (l1 ++ l2)) j).
  - unfold transient, settle_time. rewrite <- (K_settle _ _ V). rewrite Ey in Hj |- *. specialize (Hmod Hm). rewrite Hm in *. unfold settle_rate.
    exact (proj2 (resample_down_near (994 / 1000) _ _ _ _ _ _ V Hmod ltac:(lra) ltac:(cbn; lra) (fading_mono (994 / 1000) n0 ltac:(lra)) (fading_steady (994 / 1000) n0 ltac:(lra))
      (plays_near _ (994 / 1000) _ _ _ ltac:(lra) HX)) j Hj).
  - rewrite map_app, waves_app. pose proof (waves_abs (map (downs (r_prec r) (r_ratio r)) l2) j) as W. set (b2 := waves (map (downs _ _) l2) j) in *. set (b1 := waves (map (downs _ _) l1) j) in *.
    replace (b1 + b2 - waves (map (down_tone (r_prec r) (r_ratio r)) l1) j)%R with ((b1 - waves (map (down_tone (r_prec r) (r_ratio r)) l1) j) + b2)%R by ring.
    eapply Rle_trans; [apply Rabs_triang|]. lra.
Qed.

(** what may be left, after two resamplers, of the input before n0 *)
Definition trip_transient (ratio : Z) (rate M : R) (n : Z) : R := (settle_gain ratio * settle_gain ratio * (2 * M) * rate ^ Z.to_nat n)%R.

(** up and down again: with ratio 2, all frequencies pass with a gain of exactly 1 *)
Theorem C69_oversampling plat1 st1 (m1 : mem RA) id1 o1 plat2 st2 (m2 : mem RA) id2 o2 M l n0 :
  reach plat1 st1 m1 -> st1 id1 = Some o1 -> reach plat2 st2 m2 -> st2 id2 = Some o2 ->
  let r1 := o_res o1 in let r2 := o_res o2 in let x := o_in o1 in let y := o_out o2 in
  r_filter r1 = FILTER_IIR -> r_mode r1 = UP -> r_filter r2 = FILTER_IIR -> r_mode r2 = DOWN -> r_ratio r2 = r_ratio r1 -> r_prec r2 = r_prec r1 -> o_in o2 = o_out o1 ->
  plays x l M n0 -> (4 <= r_ratio r1 -> Forall in_iband l) ->
  forall j, 0 <= j < size y ->
  (Rabs (smp y j - waves (map (over_tone (r_prec r1) (r_ratio r1)) l) j)
   <= iir_over_factor (r_ratio r1) * (iir_error (r_prec r1) * iir_error (r_prec r1)) * amps l + trip_transient (r_ratio r1) (95 / 100) M (j - n0))%R.
Proof.
  intros H1 E1 H2 E2 r1 r2 x y Hf1 Hm1 Hf2 Hm2 Hr Hp Ex HX HW j Hj.
  destruct (reach_iir plat1 _ _ _ _ H1 E1 Hf1) as (V & Ey1 & _). fold r1 x in V, Ey1. destruct (reach_iir plat2 _ _ _ _ H2 E2 Hf2) as (_ & Ey2 & _). fold r2 in Ey2. fold y in Ey2.
  rewrite Hm1 in Ey1. rewrite Hm2, Hr, Hp, Ex, Ey1 in Ey2. pose proof (trips_sum _ _ l j V HW) as U. refine (apart _ _ _ _ _ _ U).
  unfold trip_transient. rewrite Ey2 in Hj |- *.
  exact (proj2 (trip_near _ _ _ _ _ _ V (fading_steady (95 / 100) n0 ltac:(lra)) (fading_mono (95 / 100) n0 ltac:(lra)) (plays_near _ (95 / 100) _ _ _ ltac:(lra) HX)) j Hj).
Qed.

(** down and up again *)
Theorem C69_subsampling plat1 st1 (m1 : mem RA) id1 o1 plat2 st2 (m2 : mem RA) id2 o2 M l1 l2 n0 :
  reach plat1 st1 m1 -> st1 id1 = Some o1 -> reach plat2 st2 m2 -> st2 id2 = Some o2 ->
  let r1 := o_res o1 in let r2 := o_res o2 in let x := o_in o1 in let y := o_out o2 in
  r_filter r1 = FILTER_IIR -> r_mode r1 = DOWN -> r_filter r2 = FILTER_IIR -> r_mode r2 = UP -> r_ratio r2 = r_ratio r1 -> r_prec r2 = r_prec r1 -> o_in o2 = o_out o1 ->
  plays x (l1 ++ l2) M n0 -> Forall (ipassed (r_ratio r1)) l1 -> Forall (istopped (r_ratio r1)) l2 ->
  let e := iir_error (r_prec r1) in
  forall j, 0 <= j < size y ->
  (Rabs (smp y j - waves (map (sub_tone (r_prec r1) (r_ratio r1)) l1) j)
   <= (iir_up_factor (r_ratio r1) * e + iir_down_factor (r_ratio r1) * (e * e)) * amps l1 + 1.012 * e * amps l2 +
      trip_transient (r_ratio r1) (994 / 1000) M (r_ratio r1 * (j / r_ratio r1) - n0))%R.
Proof.
  intros H1 E1 H2 E2 r1 r2 x y Hf1 Hm1 Hf2 Hm2 Hr Hp Ex HX HP HS e j Hj.
  destruct (reach_iir plat1 _ _ _ _ H1 E1 Hf1) as (V & Ey1 & Hmod). fold r1 x in V, Ey1, Hmod. destruct (reach_iir plat2 _ _ _ _ H2 E2 Hf2) as (_ & Ey2 & _). fold r2 in Ey2. fold y in Ey2.
  specialize (Hmod Hm1). rewrite Hm1 in Ey1. rewrite Hm2, Hr, Hp, Ex, Ey1 in Ey2. set (ratio := r_ratio r1) in *. set (p := r_prec r1) in *.
  destruct (aliased p ratio l2 V HS) as (l2' & F2 & W2 & A2). pose proof (amps_stopped p ratio l2 V HS) as B2. fold e in B2. rewrite <- A2 in B2.
  pose proof (resample_down_near (994 / 1000) _ _ _ _ _ _ V Hmod ltac:(lra) ltac:(cbn; lra) (fading_mono (994 / 1000) n0 ltac:(lra)) (fading_steady (994 / 1000) n0 ltac:(lra))
    (plays_near _ (994 / 1000) _ _ _ ltac:(lra) HX)) as N1.
  assert (R1 : 1 <= ratio <= 8) by (destruct V as [[->|[->|[->| ->]]] _]; lia).
  assert (N2 : near (resample (A := RA) FILTER_IIR DOWN p false ratio x) (map (downs p ratio) l1 ++ l2') (IZR (resample_K 95 ratio) * (2 * M)) (fun k => ((994 / 1000) ^ Z.to_nat (ratio * k - n0))%R)).
  { eapply near_list; [| |exact N1]; [intros k; rewrite map_app, !waves_app, W2; reflexivity | rewrite map_app, !amps_app, A2; reflexivity]. }
  assert (St : steady (95 / 100) (fun k => ((994 / 1000) ^ Z.to_nat (ratio * k - n0))%R)).
  { intros k Hk. split; [apply pow_le; lra|].
    apply Rle_trans with ((994 / 1000) ^ 8 * (994 / 1000) ^ Z.to_nat (ratio * k - n0))%R; [apply Rmult_le_compat_r; [apply pow_le; lra | cbn; lra]|].
    rewrite <- pow_add. replace (8 + Z.to_nat (ratio * k - n0))%nat with (Z.to_nat (ratio * (k + 1) - n0) + (8 + Z.to_nat (ratio * k - n0) - Z.to_nat (ratio * (k + 1) - n0)))%nat by lia.
    rewrite pow_add. rewrite <- Rmult_1_r. apply Rmult_le_compat_l; [apply pow_le; lra|].
    set (q := (8 + _ - _)%nat). rewrite <- (pow1 q). apply pow_incr. lra. }
  pose proof (resample_up_near _ _ _ _ _ _ V St N2) as N3. rewrite Ey2 in Hj |- *.
  apply apart with (b := waves (ups p ratio (map (downs p ratio) l1 ++ l2')) j).
  - unfold trip_transient. rewrite <- (K_settle _ _ V). rewrite (Rmult_assoc (IZR (resample_K 95 ratio)) (IZR (resample_K 95 ratio)) (2 * M)). exact (proj2 N3 j Hj).
  - assert (F1 : Forall in_iband (map (downs p ratio) l1)).
    { apply Forall_map. eapply Forall_impl; [|exact HP]. intros s Hs. unfold in_iband. rewrite (down_gain_wave p ratio s (proj1 V)). exact Hs. }
    pose proof (ups_sum p ratio _ j V (proj2 (Forall_app _ _ _) (conj F1 F2))) as U. fold e in U. rewrite map_app, waves_app, amps_app in U.
    pose proof (up_tones_sum p ratio l1 j V HP) as T. fold e in T. pose proof (amps_downs p ratio l1) as D1. pose proof (waves_abs (map (up_tone p ratio) l2') j) as Q.
    rewrite (amps_map (up_tone p ratio)) in Q by reflexivity.
    set (a := waves (ups p ratio _) j) in *. set (b := waves (map (up_tone p ratio) (map (downs p ratio) l1)) j) in *. set (c := waves (map (up_tone p ratio) l2') j) in *. set (t := waves (map (sub_tone p ratio) l1) j) in *.
    replace (a - t)%R with ((a - (b + c)) + ((b - t) + c))%R by ring.
    eapply Rle_trans; [apply Rabs_triang|]. pose proof (Rabs_triang (b - t) c) as Tr.
    assert (UF : (0 <= iir_up_factor ratio <= 4.06)%R) by (unfold iir_up_factor; destruct (ratio =? 1), (ratio =? 2), (ratio =? 4); lra).
    assert (Ee : (0 <= e <= 0.00279)%R \/ ratio = 1).
    { destruct (Z.eq_dec ratio 1) as [->|N]; [now right|]. left. destruct (iir_error_eps p) as [_ Q1]; [apply V; lia|]. fold e in Q1. lra. }
    pose proof (amps_pos l1) as P1. pose proof (amps_pos l2) as P2. pose proof (amps_pos l2') as P2'. pose proof (amps_pos (map (downs p ratio) l1)) as P1'.
    destruct Ee as [Ee|R]; [|].
    + assert (X1 : (iir_up_factor ratio * e * amps (map (downs p ratio) l1) <= iir_up_factor ratio * e * amps l1)%R) by (apply Rmult_le_compat_l; [apply Rmult_le_pos; lra | exact D1]).
      assert (X2 : (iir_up_factor ratio * e <= 0.012)%R) by (apply Rle_trans with (4.06 * 0.00279)%R; [apply Rmult_le_compat; lra | lra]).
      assert (X3 : (iir_up_factor ratio * e * amps l2' <= 0.012 * amps l2')%R) by (apply Rmult_le_compat_r; assumption). lra.
    + assert (L2 : l2 = []). { destruct HS as [|s l2 (q & _ & Nq) _]; [reflexivity|]. exfalso. apply Nq. rewrite R. apply Z.mod_1_r. }
      rewrite L2 in *. cbn [map amps] in *. assert (UZ : iir_up_factor ratio = 0%R) by (unfold iir_up_factor; rewrite R; reflexivity). rewrite UZ in *. lra.
Qed.

(** the transient fades out *)
Theorem C69_transient ratio rate M eps : ratio = 1 \/ ratio = 2 \/ ratio = 4 \/ ratio = 8 -> (0 <= rate < 1)%R -> (0 <= M)%R -> (0 < eps)%R ->
  exists N, forall n, N <= n -> (trip_transient ratio rate M n < eps)%R.
Proof.
  intros Hr Hrate M0 He. set (K := (settle_gain ratio * settle_gain ratio * (2 * M))%R).
  assert (G : (0 <= settle_gain ratio)%R) by (unfold settle_gain; destruct (ratio =? 1), (ratio =? 2), (ratio =? 4); lra).
  assert (K0 : (0 <= K)%R) by (unfold K; apply Rmult_le_pos; [now apply Rmult_le_pos | lra]).
  destruct (pow_lt_1_zero rate ltac:(rewrite Rabs_pos_eq; lra) (eps / (K + 1)) ltac:(apply Rdiv_lt_0_compat; lra)) as [N HN].
  exists (Z.of_nat N). intros n Hn. specialize (HN (Z.to_nat n) ltac:(lia)). assert (P : (0 <= rate ^ Z.to_nat n)%R) by (apply pow_le; lra). rewrite Rabs_pos_eq in HN by exact P.
  unfold trip_transient. fold K. set (q := (rate ^ Z.to_nat n)%R) in *.
  assert (A2 : (q * (K + 1) < eps)%R).
  { apply Rmult_lt_reg_r with (/ (K + 1))%R; [apply Rinv_0_lt_compat; lra|]. rewrite Rmult_assoc, Rinv_r by lra. rewrite Rmult_1_r. exact HN. }
  lra.
Qed.

(** delay(): up to 1 kHz, oversampling delays by the sum of both delays, in samples of the lower rate *)
Theorem C69_oversampling_delay plat1 st1 (m1 : mem RA) id1 o1 plat2 st2 (m2 : mem RA) id2 o2 D1 D2 M l n0 :
  reach plat1 st1 m1 -> st1 id1 = Some o1 -> reach plat2 st2 m2 -> st2 id2 = Some o2 ->
  let r1 := o_res o1 in let r2 := o_res o2 in let x := o_in o1 in let y := o_out o2 in
  r_filter r1 = FILTER_IIR -> r_mode r1 = UP -> r_filter r2 = FILTER_IIR -> r_mode r2 = DOWN -> r_ratio r2 = r_ratio r1 -> r_prec r2 = r_prec r1 -> o_in o2 = o_out o1 ->
  delay_is r1 D1 -> delay_is r2 D2 -> plays x l M n0 -> Forall (fun s => (Rabs (w_freq s) <= khz)%R) l ->
  let D := (D1 / IZR (r_ratio r1) + D2)%R in
  forall j, 0 <= j < size y ->
  (Rabs (smp y j - waves (map (delayed (fun w => w * D)%R) l) j)
   <= (iir_over_factor (r_ratio r1) * (iir_error (r_prec r1) * iir_error (r_prec r1)) + 2 * delay_error * khz) * amps l + trip_transient (r_ratio r1) (95 / 100) M (j - n0))%R.
Proof.
  intros H1 E1 H2 E2 r1 r2 x y Hf1 Hm1 Hf2 Hm2 Hr Hp Ex HD1 HD2 HX HW D j Hj.
  assert (HB : Forall in_iband l).
  { eapply Forall_impl; [|exact HW]. intros s Hs. eapply Rle_trans; [exact Hs|]. unfold khz, iband; pose proof PI_RGT_0; lra. }
  pose proof (C69_oversampling plat1 _ _ _ _ plat2 _ _ _ _ M l n0 H1 E1 H2 E2 Hf1 Hm1 Hf2 Hm2 Hr Hp Ex HX (fun _ => HB) j Hj) as G. cbn zeta in G. fold r1 y in G.
  destruct (reach_built plat1 _ _ _ _ H1 E1) as [Bu1 V]. fold r1 in Bu1, V. rewrite Hf1 in V, Bu1. rewrite Hm1 in Bu1. rewrite Bu1 in HD1.
  destruct (reach_built plat2 _ _ _ _ H2 E2) as [Bu2 V2]. fold r2 in Bu2, V2. rewrite Hf2 in V2, Bu2. rewrite Hm2, Hr, Hp in Bu2. rewrite Bu2 in HD2.
  set (ratio := r_ratio r1) in *. set (p := r_prec r1) in *. assert (Nr : IZR ratio <> 0%R) by (destruct V as [[->|[->|[->| ->]]] _]; lra).
  assert (C : (Rabs (waves (map (over_tone p ratio) l) j - waves (map (delayed (fun w => w * D)%R) l) j) <= 2 * delay_error * khz * amps l)%R).
  { apply (additive_close (map (over_tone p ratio)) _ _ (fun s => (Rabs (w_freq s) <= khz)%R)); [apply additive_map | | exact HW].
    intros [a w ph] Hs. cbn [w_freq] in Hs. cbn [map waves]. rewrite Rplus_0_r. unfold over_tone, delayed, wval. cbn [w_amp w_freq w_phase].
    pose proof (up_shift_delay _ _ _ _ _ _ w V HD1 Hs) as S1. pose proof (down_shift_delay _ _ _ _ _ _ (w / IZR ratio)%R V HD2) as S2.
    replace (IZR ratio * (w / IZR ratio))%R with w in S2 by (field; exact Nr). specialize (S2 Hs).
    rewrite <- Rmult_minus_distr_l, Rabs_mult, Rmult_comm. apply Rmult_le_compat_r; [apply Rabs_pos|]. eapply Rle_trans; [apply sin_lip|].
    match goal with |- (Rabs ?u <= _)%R => replace u with (- ((up_shift p ratio w - w * (D1 / IZR ratio)) + (down_shift p ratio (w / IZR ratio) - w * D2)))%R by (unfold over_shift, D; ring) end.
    rewrite Rabs_Ropp. eapply Rle_trans; [apply Rabs_triang|].
    assert (DE : (delay_error * Rabs w <= delay_error * khz)%R) by (apply Rmult_le_compat_l; [unfold delay_error; lra | exact Hs]). lra. }
  rewrite Rmult_plus_distr_r. set (u := (iir_over_factor ratio * _ * amps l)%R) in *. set (v := (2 * delay_error * khz * amps l)%R) in *. set (t := trip_transient _ _ _ _) in *.
  set (yj := smp y j) in *. change (Arith.T RA) with R in yj. clearbody yj. pose proof (apart _ _ _ _ _ G C). lra.
Qed.

(** round trips never add energy *)
Theorem C69_energy plat1 st1 (m1 : mem RA) id1 o1 plat2 st2 (m2 : mem RA) id2 o2 :
  reach plat1 st1 m1 -> st1 id1 = Some o1 -> reach plat2 st2 m2 -> st2 id2 = Some o2 ->
  let r1 := o_res o1 in let r2 := o_res o2 in
  r_filter r1 = FILTER_IIR -> r_filter r2 = FILTER_IIR -> r_mode r1 <> r_mode r2 -> r_ratio r2 = r_ratio r1 -> o_in o2 = o_out o1 ->
  (energy (o_out o2) <= energy (o_in o1))%R.
Proof.
  intros H1 E1 H2 E2 r1 r2 Hf1 Hf2 Hm Hr Ex. pose proof (C35_energy plat1 _ _ _ _ H1 E1 Hf1) as G1. pose proof (C35_energy plat2 _ _ _ _ H2 E2 Hf2) as G2. cbn zeta in G1, G2.
  fold r1 in G1. fold r2 in G2. rewrite Ex, Hr in G2. destruct (reach_iir plat1 _ _ _ _ H1 E1 Hf1) as (V & _). fold r1 in V.
  assert (P : (0 < IZR (r_ratio r1))%R) by (destruct V as [[->|[->|[->| ->]]] _]; lra). set (k := IZR (r_ratio r1)) in *.
  set (a := energy (o_in o1)) in *. set (b := energy (o_out o1)) in *. set (c := energy (o_out o2)) in *.
  assert (I : (0 < / k)%R) by now apply Rinv_0_lt_compat.
  destruct (r_mode r1), (r_mode r2); try congruence.
  - apply (Rmult_le_compat_l (/ k)) in G1; [|lra]. rewrite <- Rmult_assoc, Rinv_l, Rmult_1_l in G1 by lra. lra.
  - apply (Rmult_le_compat_l k) in G1; [|lra]. rewrite <- Rmult_assoc, Rinv_r, Rmult_1_l in G1 by lra. lra.
Qed.

(** with ratio 2 the round trip is a chain of all-pass sections: the energy that has not left
    yet is stored in the sections *)
Theorem C69_all_pass plat1 st1 (m1 : mem RA) id1 o1 plat2 st2 (m2 : mem RA) id2 o2 :
  reach plat1 st1 m1 -> st1 id1 = Some o1 -> reach plat2 st2 m2 -> st2 id2 = Some o2 ->
  let r1 := o_res o1 in let r2 := o_res o2 in
  r_filter r1 = FILTER_IIR -> r_mode r1 = UP -> r_filter r2 = FILTER_IIR -> r_mode r2 = DOWN -> r_ratio r1 = 2 -> r_ratio r2 = 2 -> r_prec r2 = r_prec r1 -> o_in o2 = o_out o1 ->
  let cs := coeffs (A := RA) FILTER_IIR UP (r_prec r1) 2 in
  o_out o2 = chain (A := RA) cs (o_in o1) /\ (energy (o_out o2) + chain_stored cs (o_in o1) = energy (o_in o1))%R.
Proof.
  intros H1 E1 H2 E2 r1 r2 Hf1 Hm1 Hf2 Hm2 Hr1 Hr2 Hp Ex cs.
  destruct (reach_iir plat1 _ _ _ _ H1 E1 Hf1) as (V & Ey1 & _). fold r1 in V, Ey1. destruct (reach_iir plat2 _ _ _ _ H2 E2 Hf2) as (_ & Ey2 & _). fold r2 in Ey2.
  rewrite Hm1, Hr1 in Ey1. rewrite Hm2, Hr2, Hp, Ex, Ey1 in Ey2. rewrite (resample_trip 2) in Ey2 by auto. cbn [Z.eqb Pos.eqb] in Ey2.
  split; [exact Ey2|]. rewrite Ey2. apply chain_energy. apply iir_stage_unit; [left; reflexivity | apply V; lia].
Qed.

(** the hypotheses can be met *)
Definition chord : list wave := [Wave 2 1 (1 / 3); Wave (-1) (5 / 2) 0].
(** silence for ten samples, then the chord *)
Definition late_chord (n : Z) : list RA := tab (A := RA) n (fun k => (if k <? 10 then 0%R else waves chord k) : RA).
Lemma late_chord_plays n : 0 <= n -> plays (late_chord n) chord 3 10.
Proof.
  intros Hn. unfold plays, late_chord. rewrite size_tab by exact Hn. assert (A : amps chord = 3%R) by (cbn [chord amps w_amp]; rewrite (Rabs_pos_eq 2), (Rabs_left (-1)) by lra; lra).
  split; [lia|]. split; [rewrite A; lra|]. split; intros k Hk; rewrite smp_tab by lia.
  - destruct (k <? 10); [rewrite Rabs_R0; lra|]. rewrite <- A. apply waves_abs.
  - replace (k <? 10) with false by lia. reflexivity.
Qed.
Example C69_case plat (sse : bool) : exists st1 (m1 : mem RA) o1 st2 (m2 : mem RA) o2 D1 D2,
  reach plat st1 m1 /\ st1 0 = Some o1 /\ reach plat st2 m2 /\ st2 1 = Some o2 /\
  r_filter (o_res o1) = FILTER_IIR /\ r_mode (o_res o1) = UP /\ r_filter (o_res o2) = FILTER_IIR /\ r_mode (o_res o2) = DOWN /\
  r_ratio (o_res o1) = 8 /\ r_ratio (o_res o2) = 8 /\ r_prec (o_res o1) = PREC_120DB /\ r_prec (o_res o2) = PREC_120DB /\
  delay_is (o_res o1) D1 /\ delay_is (o_res o2) D2 /\ o_in o2 = o_out o1 /\
  o_in o1 = late_chord 400 /\ plays (o_in o1) chord 3 10 /\ Forall in_iband chord /\ size (o_out o2) = 400.
Proof.
  destruct (some_obj (A := RA) plat UP 8 PREC_120DB sse FILTER_IIR 0 [(0, late_chord 400)] eq_refl) as (st1 & m1 & o1 & H1 & E1 & Er1 & Ei1).
  cbn [map concat snd] in Ei1. rewrite app_nil_r in Ei1.
  assert (L : length (o_out o1) = 3200%nat).
  { pose proof (reach_size plat _ _ _ _ H1 E1) as S. rewrite Er1, Ei1 in S. unfold late_chord in S. rewrite size_tab in S by lia. cbn [out_size built r_mode r_ratio] in S. unfold size in S. lia. }
  destruct (some_obj (A := RA) plat DOWN 8 PREC_120DB sse FILTER_IIR 1 [(0, o_out o1)]) as (st2 & m2 & o2 & H2 & E2 & Er2 & Ei2).
  { cbn [forallb snd fst]. rewrite L. reflexivity. }
  cbn [map concat snd] in Ei2. rewrite app_nil_r in Ei2.
  destruct (iir_delay_exists plat 0 UP 8 PREC_120DB sse ltac:(now apply configb_ok)) as (D1 & HD1 & _).
  destruct (iir_delay_exists plat 1 DOWN 8 PREC_120DB sse ltac:(now apply configb_ok)) as (D2 & HD2 & _).
  exists st1, m1, o1, st2, m2, o2, D1, D2.
  rewrite (reach_size plat _ _ _ _ H2 E2), Er1, Er2, Ei1, Ei2.
  do 16 (split; [first [assumption | reflexivity]|]). split; [apply late_chord_plays; lia|]. split.
  - assert (P : (0 < PI)%R) by apply PI_RGT_0. repeat constructor; unfold in_iband, iband; cbn [w_freq]; rewrite Rabs_pos_eq by lra; interval with (i_prec 60).
  - unfold size. rewrite L. reflexivity.
Qed.
(** a kept and a removed sinusoid for downsampling by 8 *)
Example C69_case_tones : ipassed 8 (Wave 1 (1 / 4) 0) /\ istopped 8 (Wave 1 (PI / 4 + 1 / 4) 0).
Proof.
  split.
  - unfold ipassed, iband. cbn [w_freq]. interval with (i_prec 60).
  - exists 1. split; [|discriminate]. unfold iband. cbn [w_freq]. interval with (i_prec 60).
Qed.

Print Assumptions C69_upsampling.
Print Assumptions C69_downsampling.
Print Assumptions C69_oversampling.
Print Assumptions C69_subsampling.
Print Assumptions C69_transient.
Print Assumptions C69_oversampling_delay.
Print Assumptions C69_energy.
Print Assumptions C69_all_pass.
