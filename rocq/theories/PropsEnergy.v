(** * Properties: FIR resamplers do not amplify any signal *)
From Coq Require Import ZArith Reals List Lia Lra Psatz Bool ZifyNat ZifyBool.
From Flocq Require Import Core.
From Verif Require Import Arith ArithR Mem FirModel IirModel Tables ResamplerModel Wp Stage Cascade
  ResamplerProof ResamplerOk Spec SpecOk SpecR Client Feed StreamFacts DelayFacts LinFacts TablesF TableFacts FirReal FreqFir IirReal Cases PropsFir FirEnergy.
Import ListNotations.
Open Scope Z_scope.

(** ** C70 *)
(** [energy x]: sum of the squares.  A perfect resampler multiplies it by the ratio (UP), or divides
    it (DOWN).  The factor by which the mean square may grow beyond that: 1.00602 per stage. *)
Definition excess (ratio : Z) : R := (if ratio =? 1 then 1 else if ratio =? 2 then 1.00602 else if ratio =? 4 then 1.0121 else 1.0182)%R.
Definition length_factor (md : rmode) (ratio : Z) : R := match md with UP => IZR ratio | DOWN => (/ IZR ratio)%R end.
Lemma excess_ok ratio : (rms_gain ratio <= excess ratio)%R.
Proof. unfold rms_gain, excess, stage_power. destruct (ratio =? 1), (ratio =? 2), (ratio =? 4); lra. Qed.
Lemma factor_pos md ratio : ratio_no ratio -> (0 < length_factor md ratio)%R.
Proof. intros H. assert (0 < IZR ratio)%R by (apply IZR_lt; destruct H as [?|[?|[?|?]]]; lia). destruct md; cbn [length_factor]; [assumption | now apply Rinv_0_lt_compat]. Qed.
Lemma reach_fir_any plat st (m : mem RA) id o : reach plat st m -> st id = Some o -> let r := o_res o in
  r_filter r = FILTER_FIR -> valid FILTER_FIR (r_ratio r) (r_prec r) /\ o_out o = resample FILTER_FIR (r_mode r) (r_prec r) false (r_ratio r) (o_in o).
Proof.
  intros H E r Hf. destruct (reach_built plat _ _ _ _ H E) as [Bu V]. fold r in Bu, V. rewrite Hf in V. split; [exact V|].
  pose proof (reach_R plat _ _ _ _ H E) as R. cbn zeta in R. fold r in R. rewrite Hf in R. exact R.
Qed.
Lemma fir_excess md ratio p (x : list RA) : valid FILTER_FIR ratio p ->
  (energy (resample (A := RA) FILTER_FIR md p false ratio x) <= excess ratio * length_factor md ratio * energy x)%R.
Proof.
  intros V. eapply Rle_trans; [exact (fir_energy md ratio p x V)|]. apply Rmult_le_compat_r; [apply energy_pos|].
  apply Rmult_le_compat_r; [left; apply factor_pos, V | apply excess_ok].
Qed.

Theorem C70_energy plat st (m : mem RA) id o :
  reach plat st m -> st id = Some o ->
  let r := o_res o in
  r_filter r = FILTER_FIR ->
  (energy (o_out o) <= excess (r_ratio r) * length_factor (r_mode r) (r_ratio r) * energy (o_in o))%R.
Proof. intros H E r Hf. destruct (reach_fir_any plat _ _ _ _ H E Hf) as [V Ey]. fold r in V, Ey. rewrite Ey. now apply fir_excess. Qed.

(** noise added to the input is not amplified either: two objects of the same kind *)
Definition difference (a b : list RA) : list RA := zip (A := RA) (fun u v => (u - v)%R) a b.
Theorem C70_difference plat1 st1 (m1 : mem RA) id1 o1 plat2 st2 (m2 : mem RA) id2 o2 :
  reach plat1 st1 m1 -> st1 id1 = Some o1 -> reach plat2 st2 m2 -> st2 id2 = Some o2 ->
  let r1 := o_res o1 in let r2 := o_res o2 in
  r_filter r1 = FILTER_FIR -> r_filter r2 = FILTER_FIR -> r_mode r2 = r_mode r1 -> r_ratio r2 = r_ratio r1 -> r_prec r2 = r_prec r1 -> size (o_in o1) = size (o_in o2) ->
  (energy (difference (o_out o1) (o_out o2)) <= excess (r_ratio r1) * length_factor (r_mode r1) (r_ratio r1) * energy (difference (o_in o1) (o_in o2)))%R.
Proof.
  intros H1 E1 H2 E2 r1 r2 Hf1 Hf2 Hm Hr Hp Sz.
  destruct (reach_fir_any plat1 _ _ _ _ H1 E1 Hf1) as [V Ey1]. fold r1 in V, Ey1. destruct (reach_fir_any plat2 _ _ _ _ H2 E2 Hf2) as [_ Ey2]. fold r2 in Ey2.
  assert (D : forall a b, difference a b = lin 1 (-1) a b) by (intros a b; unfold difference, lin; apply zip_ext; intros u v; lra).
  rewrite !D, Ey1, Ey2, Hm, Hr, Hp, <- resample_lin by exact Sz. now apply fir_excess.
Qed.

(** up and down again, or down and up again *)
Theorem C70_round_trip plat1 st1 (m1 : mem RA) id1 o1 plat2 st2 (m2 : mem RA) id2 o2 :
  reach plat1 st1 m1 -> st1 id1 = Some o1 -> reach plat2 st2 m2 -> st2 id2 = Some o2 ->
  let r1 := o_res o1 in let r2 := o_res o2 in
  r_filter r1 = FILTER_FIR -> r_filter r2 = FILTER_FIR -> r_mode r1 <> r_mode r2 -> r_ratio r2 = r_ratio r1 -> o_in o2 = o_out o1 ->
  (energy (o_out o2) <= excess (r_ratio r1) ^ 2 * energy (o_in o1))%R.
Proof.
  intros H1 E1 H2 E2 r1 r2 Hf1 Hf2 Hm Hr Ex. pose proof (C70_energy plat1 _ _ _ _ H1 E1 Hf1) as G1. pose proof (C70_energy plat2 _ _ _ _ H2 E2 Hf2) as G2. cbn zeta in G1, G2.
  fold r1 in G1. fold r2 in G2. rewrite Ex, Hr in G2. destruct (reach_fir_any plat1 _ _ _ _ H1 E1 Hf1) as (V & _). fold r1 in V.
  assert (P : (0 < IZR (r_ratio r1))%R) by (destruct V as [[->|[->|[->| ->]]] _]; lra).
  assert (C0 : (0 <= excess (r_ratio r1))%R) by (unfold excess; destruct (r_ratio r1 =? 1), (r_ratio r1 =? 2), (r_ratio r1 =? 4); lra).
  assert (F : (length_factor (r_mode r2) (r_ratio r1) * length_factor (r_mode r1) (r_ratio r1) = 1)%R) by (destruct (r_mode r1), (r_mode r2); try congruence; cbn [length_factor]; field; lra).
  pose proof (factor_pos (r_mode r2) (r_ratio r1) (proj1 V)) as P2.
  set (a := energy (o_in o1)) in *. set (b := energy (o_out o1)) in *. set (c := energy (o_out o2)) in *. set (e := excess (r_ratio r1)) in *.
  set (f := length_factor (r_mode r2) (r_ratio r1)) in *. set (g := length_factor (r_mode r1) (r_ratio r1)) in *.
  apply (Rmult_le_compat_l (e * f)) in G1; [|apply Rmult_le_pos; lra]. eapply Rle_trans; [exact G2|]. eapply Rle_trans; [exact G1|]. right.
  replace (e * f * (e * g * a))%R with (e ^ 2 * a * (f * g))%R by ring. rewrite F. ring.
Qed.

(** up and down again with ratio 2: of any signal, followed by silence, at least a quarter of the energy comes back *)
Theorem C70_nothing_lost plat1 st1 (m1 : mem RA) id1 o1 plat2 st2 (m2 : mem RA) id2 o2 D1 x n :
  reach plat1 st1 m1 -> st1 id1 = Some o1 -> reach plat2 st2 m2 -> st2 id2 = Some o2 ->
  let r1 := o_res o1 in let r2 := o_res o2 in
  r_filter r1 = FILTER_FIR -> r_mode r1 = UP -> r_filter r2 = FILTER_FIR -> r_mode r2 = DOWN -> r_ratio r1 = 2 -> r_ratio r2 = 2 -> r_prec r2 = r_prec r1 -> o_in o2 = o_out o1 ->
  delay_is r1 D1 -> o_in o1 = x ++ repeat (0%R : RA) (Z.to_nat n) -> (2 * (D1 + 1) <= IZR n)%R ->
  (energy x / 4 <= energy (o_out o2) <= 1.0121 * energy x)%R.
Proof.
  intros H1 E1 H2 E2 r1 r2 Hf1 Hm1 Hf2 Hm2 Hr1 Hr2 Hp Ex HD Ei Hn.
  pose proof (C70_round_trip plat1 _ _ _ _ plat2 _ _ _ _ H1 E1 H2 E2 Hf1 Hf2) as U. cbn zeta in U. fold r1 r2 in U.
  specialize (U ltac:(rewrite Hm1, Hm2; discriminate) ltac:(congruence) Ex). rewrite Hr1, Ei in U. change (excess 2) with 1.00602%R in U.
  destruct (reach_fir plat1 _ _ _ _ _ H1 E1 Hf1 HD) as (V & Ey1 & ED). fold r1 in V, Ey1, ED. destruct (reach_fir_any plat2 _ _ _ _ H2 E2 Hf2) as [_ Ey2]. fold r2 in Ey2.
  rewrite Hm1, Hr1 in ED, Ey1. unfold fir_delay8 in ED. cbn [Z.eqb Pos.eqb] in ED.
  assert (FP : fir_prec (r_prec r1)) by (apply V; lia).
  assert (N : 2 * fir_len 2 (r_prec r1) <= n).
  { apply le_IZR. rewrite ED, mult_IZR, minus_IZR in Hn. rewrite mult_IZR. lra. }
  pose proof (trip_energy (r_prec r1) x n FP N) as L. cbn zeta in L.
  rewrite Ey2, Hm2, Hr2, Hp, Ex, Ey1, Ei in *. unfold resample, stage in *. cbn [Z.eqb Pos.eqb] in *.
  assert (Ez : energy (x ++ repeat (0%R : RA) (Z.to_nat n)) = energy x).
  { clear. induction x as [|a x IH]; [|cbn [app energy]; rewrite IH; reflexivity]. cbn [app energy]. induction (Z.to_nat n) as [|k IH]; [reflexivity|]. cbn [repeat energy]. rewrite IH. ring. }
  rewrite Ez in U. pose proof (energy_pos x). split; [lra|]. eapply Rle_trans; [exact U|]. apply Rmult_le_compat_r; lra.
Qed.

(** the hypotheses can be met: three samples followed by silence, up and down again *)
Definition clicks : list RA := [3%R; 0%R; (-4)%R].
Example C70_case plat (sse : bool) : exists st1 (m1 : mem RA) o1 st2 (m2 : mem RA) o2 D1,
  reach plat st1 m1 /\ st1 0 = Some o1 /\ reach plat st2 m2 /\ st2 1 = Some o2 /\
  r_filter (o_res o1) = FILTER_FIR /\ r_mode (o_res o1) = UP /\ r_filter (o_res o2) = FILTER_FIR /\ r_mode (o_res o2) = DOWN /\
  r_ratio (o_res o1) = 2 /\ r_ratio (o_res o2) = 2 /\ r_prec (o_res o1) = PREC_144DB /\ r_prec (o_res o2) = PREC_144DB /\
  o_in o2 = o_out o1 /\ delay_is (o_res o1) D1 /\ o_in o1 = clicks ++ repeat (0%R : RA) (Z.to_nat 104) /\ (2 * (D1 + 1) <= IZR 104)%R /\ energy clicks = 25%R.
Proof.
  destruct (some_obj (A := RA) plat UP 2 PREC_144DB sse FILTER_FIR 0 [(0, clicks ++ repeat (0%R : RA) (Z.to_nat 104))] eq_refl) as (st1 & m1 & o1 & H1 & E1 & Er1 & Ei1).
  cbn [map concat snd] in Ei1. rewrite app_nil_r in Ei1.
  assert (L : length (o_out o1) = 214%nat).
  { pose proof (reach_size plat _ _ _ _ H1 E1) as S. rewrite Er1, Ei1 in S. cbn [out_size built r_mode r_ratio] in S. unfold size in S. rewrite app_length, repeat_length in S. cbn [length clicks] in S. lia. }
  destruct (some_obj (A := RA) plat DOWN 2 PREC_144DB sse FILTER_FIR 1 [(0, o_out o1)]) as (st2 & m2 & o2 & H2 & E2 & Er2 & Ei2).
  { cbn [forallb snd fst]. rewrite L. reflexivity. }
  cbn [map concat snd] in Ei2. rewrite app_nil_r in Ei2.
  pose proof (fir_delay_is plat 0 UP 2 PREC_144DB sse ltac:(now apply configb_ok)) as HD.
  exists st1, m1, o1, st2, m2, o2, (IZR (fir_delay8 UP 2 PREC_144DB) / 8)%R. rewrite Er1, Er2, Ei1, Ei2.
  do 15 (split; [first [assumption | reflexivity]|]). split.
  - replace (fir_delay8 UP 2 PREC_144DB) with 408 by reflexivity. lra.
  - cbn. lra.
Qed.
(** two inputs that differ *)
Example C70_case_difference plat (sse : bool) : exists st1 (m1 : mem RA) o1 st2 (m2 : mem RA) o2,
  reach plat st1 m1 /\ st1 0 = Some o1 /\ reach plat st2 m2 /\ st2 1 = Some o2 /\
  r_filter (o_res o1) = FILTER_FIR /\ r_filter (o_res o2) = FILTER_FIR /\ r_mode (o_res o1) = DOWN /\ r_mode (o_res o2) = DOWN /\
  r_ratio (o_res o1) = 4 /\ r_ratio (o_res o2) = 4 /\ r_prec (o_res o1) = PREC_LINEAR /\ r_prec (o_res o2) = PREC_LINEAR /\
  size (o_in o1) = size (o_in o2) /\ energy (difference (o_in o1) (o_in o2)) = 13%R.
Proof.
  destruct (some_obj (A := RA) plat DOWN 4 PREC_LINEAR sse FILTER_FIR 0 [(0, [1%R : RA; 2%R; 3%R; 4%R])] eq_refl) as (st1 & m1 & o1 & H1 & E1 & Er1 & Ei1).
  destruct (some_obj (A := RA) plat DOWN 4 PREC_LINEAR sse FILTER_FIR 1 [(0, [1%R : RA; 4%R; 3%R; 1%R])] eq_refl) as (st2 & m2 & o2 & H2 & E2 & Er2 & Ei2).
  cbn [map concat snd app] in Ei1, Ei2. exists st1, m1, o1, st2, m2, o2. rewrite Er1, Er2, Ei1, Ei2.
  do 13 (split; [first [assumption | reflexivity]|]). cbn. lra.
Qed.

Print Assumptions C70_energy.
Print Assumptions C70_difference.
Print Assumptions C70_round_trip.
Print Assumptions C70_nothing_lost.
