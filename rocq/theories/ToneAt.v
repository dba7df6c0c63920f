(** * One frequency through cascades of FIR stages: the gain of the stages at this frequency decides *)
From Coq Require Import ZArith Reals List Lia Lra Bool ZifyNat ZifyBool.
From Flocq Require Import Core.
From Interval Require Import Tactic.
From Verif Require Import Arith ArithR ArithF Mem FirModel IirModel Tables ResamplerModel Wp Stage Cascade
  ResamplerProof ResamplerOk Spec SpecOk SpecR Client Feed StreamFacts DelayFacts TablesF TableFacts FirReal TrigPoly FreqFir Tones Cases PropsFir PropsFreq TonesProof.
Import ListNotations.
Open Scope Z_scope.

Notation gain_at p s w := (response (coeffs (A := RA) FILTER_FIR UP p s) w).
(** errors of the gain of the stages for the frequency w *)
Definition stage_errors (p : Z) (w e2 e4 e8 : R) : Prop :=
  (Rabs (gain_at p 2 w - 1) <= e2 /\ Rabs (gain_at p 4 (w / 2) - 1) <= e4 /\ Rabs (gain_at p 8 (w / 2 / 2) - 1) <= e8)%R.
Definition up_err (ratio : Z) (e2 e4 e8 : R) : R :=
  (if ratio =? 2 then e2 else if ratio =? 4 then 1.006 * e2 + e4 else 1.006 * (1.006 * e2 + e4) + e8)%R.
Definition over_step (eps e kap : R) : R := (eps * 1.0015 + 1.0058 * e + kap * (0.0015 * eps))%R.
Definition over_err (ratio : Z) (e2 e4 e8 : R) : R :=
  (if ratio =? 2 then over_step e2 0 1 else if ratio =? 4 then over_step e2 (over_step e4 0 1) 1.0061
   else over_step e2 (over_step e4 (over_step e8 0 1) 1.0061) (1.0061 * 1.0061))%R.

Lemma sum_up_at p ratio (x : list RA) lo ws j e2 e4 e8 : (ratio = 2 \/ ratio = 4 \/ ratio = 8) -> hq_prec p ->
  is_sum x lo ws -> Forall (fun u => stage_errors p (w_frq u) e2 e4 e8) ws ->
  let y := resample FILTER_FIR UP p false ratio x in let D := (IZR (fir_delay8 UP ratio p) / 8)%R in
  4 * ratio * lo + fir_delay8 UP ratio p <= 4 * j -> j < size y ->
  (Rabs (smp y j - sines ws ((IZR j - D) / IZR ratio)) <= up_err ratio e2 e4 e8 * mass ws)%R.
Proof.
  intros Vr HQ HX HW y D J Hjy.
  assert (N0 : is_sum x lo (ws ++ [])) by (now rewrite app_nil_r).
  assert (N : exists vs rest, is_sum y j (vs ++ rest) /\ total vs j = sines ws ((IZR j - D) / IZR ratio) /\ (mass rest <= up_err ratio e2 e4 e8 * mass ws)%R).
  { unfold y.
    assert (S2 : stage_no 2) by (unfold stage_no; auto). assert (S4 : stage_no 4) by (unfold stage_no; auto).
    assert (S8 : stage_no 8) by (unfold stage_no; auto). rewrite Forall_forall in HW.
    assert (MH : forall n vs, mass (map (half_wav n) vs) = mass vs) by (intros n vs; induction vs as [|u vs IH]; cbn [map mass]; [reflexivity | now rewrite IH]).
    destruct (up_near_sum_gen 2 p S2 HQ e2 x lo ws [] 0 N0 ltac:(cbn; lra)) as (r2 & N2 & M2).
    { apply Forall_forall. intros u Hu. now apply HW. }
    destruct (up_near_sum_gen 4 p S4 HQ e4 _ _ _ _ _ N2 M2) as (r4 & N4 & M4).
    { apply Forall_map, Forall_forall. intros u Hu. apply HW, Hu. }
    destruct (up_near_sum_gen 8 p S8 HQ e8 _ _ _ _ _ N4 M4) as (r8 & N8 & M8).
    { apply Forall_map, Forall_map, Forall_forall. intros u Hu. apply HW, Hu. }
    rewrite !MH in M4. rewrite !MH in M8. rewrite (size_len UP 2) in *. rewrite (size_len UP 4) in *. rewrite (size_len UP 8) in *.
    assert (W : forall (z : list RA) lo vs, is_sum z lo vs -> lo <= j -> is_sum z j vs).
    { intros z l vs [Z0 Z1] HL. split; [lia|]. intros k Hk. apply Z1. lia. }
    unfold D. destruct Vr as [->|[->| ->]]; unfold resample, up_err, fir_delay8 in *; cbn [Z.eqb Pos.eqb] in *.
    + eexists; exists r2. split; [eapply W; [exact N2 | lia]|]. split; [|lra]. apply sines_map. intros u. unfold at_, half_wav. cbn [w_amp w_frq w_ph].
      do 2 f_equal. rewrite mult_IZR. lra.
    + eexists; exists r4. split; [eapply W; [exact N4 | lia]|]. split; [|lra]. rewrite map_map. apply sines_map. intros u. unfold at_, half_wav. cbn [w_amp w_frq w_ph].
      do 2 f_equal. rewrite mult_IZR, plus_IZR, mult_IZR. lra.
    + eexists; exists r8. split; [eapply W; [exact N8 | lia]|]. split; [|lra]. rewrite !map_map. apply sines_map. intros u. unfold at_, half_wav. cbn [w_amp w_frq w_ph].
      do 2 f_equal. rewrite mult_IZR, !plus_IZR, !mult_IZR, plus_IZR, mult_IZR. lra. }
  destruct N as (vs & rest & [_ N] & E & M). rewrite (N j) by lia. rewrite total_app, E.
  replace (sines ws ((IZR j - D) / IZR ratio) + total rest j - sines ws ((IZR j - D) / IZR ratio))%R with (total rest j) by ring.
  eapply Rle_trans; [apply total_bound | exact M].
Qed.

Lemma trip_at p ratio (x : list RA) lo ws j e2 e4 e8 : (ratio = 2 \/ ratio = 4 \/ ratio = 8) -> hq_prec p ->
  (0 <= e2 <= 0.00576)%R -> (0 <= e4 <= 0.00576)%R -> (0 <= e8 <= 0.00576)%R ->
  is_sum x lo ws -> Forall (fun u => stage_errors p (w_frq u) e2 e4 e8) ws ->
  let D := (IZR (fir_delay8 UP ratio p) / 8 / IZR ratio + IZR (fir_delay8 DOWN ratio p) / 8)%R in
  4 * ratio * lo + fir_delay8 UP ratio p + ratio * fir_delay8 DOWN ratio p <= 4 * ratio * j -> j < size x ->
  (Rabs (smp (resample FILTER_FIR DOWN p false ratio (resample FILTER_FIR UP p false ratio x)) j - sines ws (IZR j - D)) <= over_err ratio e2 e4 e8 * mass ws)%R.
Proof.
  intros Vr HQ B2 B4 B8 HX HW D J Hj.
  assert (S2 : stage_no 2) by (unfold stage_no; auto). assert (S4 : stage_no 4) by (unfold stage_no; auto). assert (S8 : stage_no 8) by (unfold stage_no; auto).
  pose proof (hq_fir p HQ) as HF.
  assert (N2 := size_len UP 2 p). assert (N4 := size_len UP 4 p). assert (N8 := size_len UP 8 p).
  destruct (ft_facts UP 2 p S2 HF) as (_ & V2 & G2 & _). destruct (ft_facts UP 4 p S4 HF) as (_ & V4 & G4 & _). destruct (ft_facts UP 8 p S8 HF) as (_ & V8 & G8 & _).
  rewrite N2 in G2, V2. rewrite N4 in G4, V4. rewrite N8 in G8, V8. apply Z.even_spec in V2, V4, V8. destruct V2 as [h2 V2]. destruct V4 as [h4 V4]. destruct V8 as [h8 V8].
  pose proof (mass_pos ws) as PM.
  assert (Z1 : (0 <= 1)%R) by lra. assert (Z0 : (0 <= 0)%R) by lra.
  destruct Vr as [->|[->| ->]]; unfold D, resample, fir_delay8, over_err, over_step in *; cbn [Z.eqb Pos.eqb] in *; unfold stage.
  + pose proof (keeps_around_gen 2 p S2 HQ _ _ _ _ _ _ _ (keeps_id (fun _ => True)) Z1 Z0 e2 B2) as K. rewrite N2 in K. unfold around in K.
    pose proof (fun HB => keeps_sum _ _ _ _ _ _ _ x lo ws j K HX HB ltac:(change ((0 + 1) / 2) with 0; lia)) as KS.
    match type of KS with (_ -> (Rabs (_ - sines ws (IZR j - ?d)) <= _)%R) => replace d with (IZR (8 * (fir_len 2 p - 1)) / 8 / 2 + IZR (4 * (fir_len 2 p - 1)) / 8)%R in KS by (rewrite !mult_IZR; lra) end.
    eapply Rle_trans; [apply KS|]; [|apply Rmult_le_compat_r; lra]. eapply Forall_impl; [|exact HW]. intros u Hu. cbn beta. split; [apply Hu | exact I].
  + pose proof (keeps_around_gen 4 p S4 HQ _ _ _ _ _ _ _ (keeps_id (fun _ => True)) Z1 Z0 e4 B4) as K4.
    pose proof (keeps_around_gen 2 p S2 HQ _ _ _ _ _ _ _ K4 ltac:(lra) ltac:(lra) e2 B2) as K. rewrite N2, N4 in K. unfold around in K.
    change ((0 + 1) / 2) with 0 in K.
    pose proof (fun HB => keeps_sum _ _ _ _ _ _ _ x lo ws j K HX HB ltac:(lia)) as KS.
    match type of KS with (_ -> (Rabs (_ - sines ws (IZR j - ?d)) <= _)%R) => replace d with (IZR (8 * (2 * (fir_len 2 p - 1) + (fir_len 4 p - 1))) / 8 / 4 + IZR (4 * (fir_len 2 p - 1) + 2 * (fir_len 4 p - 1)) / 8)%R in KS by (rewrite ?mult_IZR, ?plus_IZR, ?mult_IZR; lra) end.
    eapply Rle_trans; [apply KS|]; [|apply Rmult_le_compat_r; lra]. eapply Forall_impl; [|exact HW]. intros u Hu. cbn beta. destruct Hu as (? & ? & ?). auto.
  + pose proof (keeps_around_gen 8 p S8 HQ _ _ _ _ _ _ _ (keeps_id (fun _ => True)) Z1 Z0 e8 B8) as K8.
    pose proof (keeps_around_gen 4 p S4 HQ _ _ _ _ _ _ _ K8 ltac:(lra) ltac:(lra) e4 B4) as K4.
    pose proof (keeps_around_gen 2 p S2 HQ _ _ _ _ _ _ _ K4 ltac:(lra) ltac:(lra) e2 B2) as K. rewrite N2, N4, N8 in K. unfold around in K.
    change ((0 + 1) / 2) with 0 in K.
    pose proof (fun HB => keeps_sum _ _ _ _ _ _ _ x lo ws j K HX HB ltac:(lia)) as KS.
    match type of KS with (_ -> (Rabs (_ - sines ws (IZR j - ?d)) <= _)%R) => replace d with (IZR (8 * (2 * (2 * (fir_len 2 p - 1) + (fir_len 4 p - 1)) + (fir_len 8 p - 1))) / 8 / 8 + IZR (4 * (fir_len 2 p - 1) + 2 * (fir_len 4 p - 1) + (fir_len 8 p - 1)) / 8)%R in KS by (rewrite ?mult_IZR, ?plus_IZR, ?mult_IZR, ?plus_IZR, ?mult_IZR; lra) end.
    eapply Rle_trans; [apply KS|]; [|apply Rmult_le_compat_r; lra]. eapply Forall_impl; [|exact HW]. intros u Hu. cbn beta. destruct Hu as (? & ? & ?). auto.
Qed.

(** the gain of the cascade of a downsampler for the frequency decides *)
Lemma down_at p ratio (x : list RA) lo u j g : (ratio = 2 \/ ratio = 4 \/ ratio = 8) -> hq_prec p ->
  is_sum x lo [u] -> (Rabs (total_gain p ratio (w_frq u) - 1) <= g)%R ->
  4 * lo + ratio * fir_delay8 DOWN ratio p <= 4 * ratio * j -> j < size (resample FILTER_FIR DOWN p false ratio x) ->
  (Rabs (smp (resample FILTER_FIR DOWN p false ratio x) j - sines [u] ((IZR j - IZR (fir_delay8 DOWN ratio p) / 8) * IZR ratio)) <= g * mass [u])%R.
Proof.
  intros Vr HQ HX HG J Hj.
  pose proof (sum_down p ratio x lo [u] j ltac:(tauto) (fun _ => hq_fir _ HQ) HX J) as [_ S].
  rewrite S by lia. cbn [map total sines mass]. unfold down_tot, at_. cbn [w_amp w_frq w_ph]. set (D := (IZR (fir_delay8 DOWN ratio p) / 8)%R).
  replace (IZR ratio * w_frq u * IZR j + (w_ph u - w_frq u * (IZR ratio * D)))%R with (w_frq u * ((IZR j - D) * IZR ratio) + w_ph u)%R by ring.
  set (q := (w_frq u * ((IZR j - D) * IZR ratio) + w_ph u)%R). set (gg := total_gain p ratio (w_frq u)) in *.
  replace (w_amp u * gg * sin q + 0 - (w_amp u * sin q + 0))%R with ((gg - 1) * (w_amp u * sin q))%R by ring. rewrite Rplus_0_r.
  pose proof (SIN_bound q) as SB. assert (Q : (Rabs (sin q) <= 1)%R) by (apply Rabs_le; lra).
  rewrite !Rabs_mult. apply Rmult_le_compat; [apply Rabs_pos | apply Rmult_le_pos; apply Rabs_pos | exact HG|].
  pose proof (Rabs_pos (w_amp u)). rewrite <- (Rmult_1_r (Rabs (w_amp u))) at 2. now apply Rmult_le_compat_l.
Qed.

(** ** 1000 Hz at 44100 Hz *)
Definition w1000 : R := (1000 / 44100 * 2 * PI)%R.
Definition e2_of (p : Z) : R := (if p =? 16 then 1.70e-5 else if p =? 20 then 1.22e-6 else 1e-7)%R.
Definition e4_of (p : Z) : R := (if p =? 16 then 4.68e-6 else if p =? 20 then 6.21e-7 else 9.6e-8)%R.
Definition e8_of (p : Z) : R := (if p =? 16 then 1.85e-5 else if p =? 20 then 3e-7 else 3e-9)%R.
Definition eg_of (p : Z) : R := (if p =? 16 then 1.31e-5 else if p =? 20 then 8.8e-7 else 1e-7)%R.

Lemma errors_1000 p : p = 16 \/ p = 20 \/ p = 24 -> stage_errors p w1000 (e2_of p) (e4_of p) (e8_of p).
Proof.
  assert (S2 : stage_no 2) by (unfold stage_no; auto). assert (S4 : stage_no 4) by (unfold stage_no; auto). assert (S8 : stage_no 8) by (unfold stage_no; auto).
  unfold stage_errors, w1000, e2_of, e4_of, e8_of.
  intros [->|[->| ->]]; rewrite !response_odd by (try assumption; unfold fir_prec; auto 7); cbn [Z.eqb Pos.eqb];
  match goal with |- context [odd_sum _ _ (half_table 2 ?p)] => let a := eval vm_compute in (half_table 2 p) in let b := eval vm_compute in (half_table 4 p) in let c := eval vm_compute in (half_table 8 p) in
    replace (half_table 2 p) with a by (vm_compute; reflexivity); replace (half_table 4 p) with b by (vm_compute; reflexivity); replace (half_table 8 p) with c by (vm_compute; reflexivity) end;
  unfold unit_of; cbn [odd_sum INR]; repeat split; interval with (i_prec 80).
Qed.
Lemma gains_1000 p ratio : p = 16 \/ p = 20 \/ p = 24 -> ratio = 2 \/ ratio = 4 \/ ratio = 8 -> (Rabs (total_gain p ratio w1000 - 1) <= eg_of p)%R.
Proof.
  assert (S2 : stage_no 2) by (unfold stage_no; auto). assert (S4 : stage_no 4) by (unfold stage_no; auto). assert (S8 : stage_no 8) by (unfold stage_no; auto).
  unfold w1000, eg_of, total_gain, down_gain.
  intros [->|[->| ->]] [->|[->| ->]]; cbn [Z.eqb Pos.eqb]; rewrite !response_odd by (try assumption; unfold fir_prec; auto 7);
  repeat match goal with |- context [half_table ?s ?p] => let a := eval vm_compute in (half_table s p) in replace (half_table s p) with a by (vm_compute; reflexivity) end;
  unfold unit_of; cbn [odd_sum INR]; interval with (i_prec 80).
Qed.
(** the smallest precision *)
Lemma gain_48dB : (gain_at 8 2 w1000 <= 1 - 1.17e-3)%R.
Proof.
  rewrite response_odd by (unfold stage_no, fir_prec; auto 7). unfold w1000.
  match goal with |- context [half_table ?s ?p] => let a := eval vm_compute in (half_table s p) in replace (half_table s p) with a by (vm_compute; reflexivity) end.
  unfold unit_of; cbn [odd_sum INR]; interval with (i_prec 80).
Qed.
