(** * What testsimple.cc prints *)
From Coq Require Import String ZArith Reals List Lia Lra Bool ZifyNat ZifyBool.
From Flocq Require Import Core BinarySingleNaN.
From Interval Require Import Tactic.
From Verif Require Import Arith ArithR ArithF Mem FirModel IirModel Tables ResamplerModel Wp Stage Cascade
  ResamplerProof ResamplerOk Spec SpecOk SpecR Client Feed StreamFacts DelayFacts ConfigFacts IirCalls TablesF TableFacts FirReal TrigPoly FreqFir Tones
  FloatComm FloatSum FloatFir FloatErr Cases PropsStream PropsFir PropsFreq TonesProof PropsTones PropsFloat FloatFreq PropsFloatFreq PropsFloatTones
  AccuracyModel AccuracyProof AccuracySine ToneAt MultiModel MultiProof MultiSine ToolsModel ToolsProof ToolsArrays.
Import ListNotations.
Open Scope list_scope.
Open Scope Z_scope.

Definition w440 : R := (440 / 48000 * 2 * PI)%R.
Definition sine440 : wav := Wav 1 w440 0.
Lemma errors_440 : stage_errors 16 w440 2e-5 1 1.
Proof.
  assert (S2 : stage_no 2) by (unfold stage_no; auto). assert (S4 : stage_no 4) by (unfold stage_no; auto). assert (S8 : stage_no 8) by (unfold stage_no; auto).
  unfold stage_errors, w440.
  rewrite !response_odd by (try assumption; unfold fir_prec; auto 7); cbn [Z.eqb Pos.eqb];
  match goal with |- context [odd_sum _ _ (half_table 2 ?p)] => let a := eval vm_compute in (half_table 2 p) in let b := eval vm_compute in (half_table 4 p) in let c := eval vm_compute in (half_table 8 p) in
    replace (half_table 2 p) with a by (vm_compute; reflexivity); replace (half_table 4 p) with b by (vm_compute; reflexivity); replace (half_table 8 p) with c by (vm_compute; reflexivity) end;
  unfold unit_of; cbn [odd_sum INR]; repeat split; interval with (i_prec 80).
Qed.

Lemma w440_at t : (440 * t / 48000 * 2 * PI = w440 * t)%R.
Proof. unfold w440. field. Qed.

Lemma simple_exact (x : list RA) j : (forall i, 0 <= i < size x -> smp x i = sin (440 * IZR i / 48000 * 2 * PI)) ->
  let y := resample FILTER_FIR UP 16 false 2 x in
  62 <= j < size y -> (Rabs (smp y j - sin (w440 * ((IZR j - 31) / 2))) <= 2e-5)%R.
Proof.
  intros Hx y Hj.
  assert (HS : is_sum x 0 [sine440]).
  { split; [lia|]. intros i Hi. rewrite Hx by exact Hi. cbn [total sine440]. unfold at_. cbn [w_amp w_frq w_ph]. rewrite Rmult_1_l, Rplus_0_r, Rplus_0_r. now rewrite w440_at. }
  pose proof (sum_up_at 16 2 x 0 [sine440] j 2e-5 1 1 ltac:(auto) ltac:(unfold hq_prec; auto) HS) as Q. cbn zeta in Q.
  replace (fir_delay8 UP 2 16) with 248 in Q by (vm_compute; reflexivity).
  specialize (Q ltac:(constructor; [exact errors_440 | constructor]) ltac:(lia) ltac:(apply Hj)).
  cbn [sines sine440 w_amp w_frq w_ph mass up_err Z.eqb Pos.eqb] in Q. rewrite Rmult_1_l, !Rplus_0_r, Rabs_R1, Rmult_1_r in Q.
  replace ((IZR j - 31) / 2)%R with ((IZR j - 248 / 8) / 2)%R by (f_equal; lra). exact Q.
Qed.

Lemma simple_float plat st (m : mem F32) id o : reach plat st m -> st id = Some o -> o_res o = built plat id UP 2 16 true FILTER_FIR ->
  o_in o = tab 256 (simple_value (A := F32) (fun v => b32_round v : F32)) ->
  forall j, 62 <= j < size (o_out o) -> is_finite (smp (o_out o) j : b32) = true /\
    (Rabs (B2R (smp (o_out o) j : b32) - sin (w440 * ((IZR j - 31) / 2))) <= 2.6e-5)%R.
Proof.
  intros H E Ro Ei.
  set (f := fun i => sin (440 * IZR i / 48000 * 2 * PI)).
  set (d := (/ 2 ^ 24 * 1 + / 2 ^ 150)%R).
  assert (Hd : (0 <= d <= 1)%R) by (unfold d; split; [assert (0 < / 2 ^ 24)%R by (apply Rinv_0_lt_compat, pow_lt; lra); assert (0 < / 2 ^ 150)%R by (apply Rinv_0_lt_compat, pow_lt; lra); lra|];
    pose proof (rounding_room 1) as Q; apply Q; rewrite <- Rinv_1; apply Rinv_le_contravar; [lra | apply pow_R1_Rle; lra]).
  assert (Sx : size (o_in o) = 256) by (rewrite Ei; apply size_tab; lia).
  assert (HF : forall i, 0 <= i < size (o_in o) -> (Rabs (f i) <= 1)%R).
  { intros i Hi. unfold f. pose proof (SIN_bound (440 * IZR i / 48000 * 2 * PI)). apply Rabs_le. lra. }
  assert (NX : near_signal (o_in o) f d).
  { intros i Hi. rewrite Sx in Hi. rewrite Ei, smp_tab by exact Hi. unfold f, simple_value. split; apply round_sin. }
  assert (R109 : (1 + d <= 2 ^ 109)%R) by (assert (1 + d <= 2)%R by lra; assert (2 <= 2 ^ 109)%R by (rewrite (pow_IZR 2 109); apply IZR_le; lia); lra).
  destruct (transfer plat _ _ _ _ f 1 d H E ltac:(rewrite Ro; reflexivity) (proj1 Hd) R109 HF NX) as (st' & m' & o' & H' & E' & Er & Si & So & T & G).
  pose proof (reach_R plat _ _ _ _ H' E') as XR. cbn zeta in XR. rewrite Er, Ro in XR. cbn [built r_filter r_mode r_prec r_ratio] in XR.
  intros j Hj. destruct (G j ltac:(lia)) as [F B]. split; [exact F|].
  pose proof (simple_exact (o_in o') j) as Q. cbn zeta in Q. rewrite <- XR in Q. specialize (Q ltac:(intros i Hi; rewrite Si in Hi; now apply T) ltac:(rewrite So; exact Hj)).
  assert (N : (noise (o_res o) 1 d <= 6e-6)%R).
  { eapply Rle_trans; [apply noise_rel_of|]. rewrite Ro. cbn [built r_mode r_prec r_ratio]. unfold noise_rel, fir_bound, fir_units, pick, ulp1. cbn [Z.eqb Pos.eqb]. interval with (i_prec 60). }
  replace 2.6e-5%R with (6e-6 + 2e-5)%R by lra.
  replace (B2R (smp (o_out o) j : b32) - sin (w440 * ((IZR j - 31) / 2)))%R with ((B2R (smp (o_out o) j : b32) - smp (o_out o') j) + (smp (o_out o') j - sin (w440 * ((IZR j - 31) / 2))))%R by ring.
  eapply Rle_trans; [apply Rabs_triang|]. apply Rplus_le_compat; [eapply Rle_trans; [exact B | exact N] | exact Q].
Qed.

Theorem simple_prints plat addr garbage ndebug (m : mem F32) : far_io addr in_a out_a 256 512 ->
  exists y m', simple_main (A := F32) plat addr garbage ndebug (fun v => b32_round v : F32) m =
      Ok ((tab 256 (simple_value (A := F32) (fun v => b32_round v : F32)), y), m') /\ size y = 512 /\
    forall j, 62 <= j < 512 -> is_finite (smp y j : b32) = true /\
      (Rabs (B2R (smp y j : b32) - sin (440 * ((IZR j - 31) / 2) / 48000 * 2 * PI)) <= 2.6e-5)%R.
Proof.
  intros HF. destruct (once_ok (A := F32) plat addr garbage ndebug 0 UP 2 PREC_96DB true FILTER_FIR 256 512 (simple_value (A := F32) (fun v => b32_round v : F32)) (fun _ => None) m)
    as (m' & st' & o & y & E & L & R & I & O & H & S & _); try assumption; try reflexivity; try apply reach_init; [lia| |].
  - apply configb_ok. reflexivity.
  - exists y, m'. split; [exact E|]. split; [exact L|]. intros j Hj.
    pose proof (simple_float plat st' m' 0 o H S R I j) as Q. rewrite O in Q. change (len y) with (size y) in L. rewrite L in Q. specialize (Q Hj).
    rewrite w440_at. exact Q.
Qed.
