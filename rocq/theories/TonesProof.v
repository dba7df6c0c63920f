(** * Sums of sinusoids through cascades of FIR stages *)
From Coq Require Import ZArith Reals List Lia Lra Bool ZifyNat ZifyBool.
From Flocq Require Import Core.
From Verif Require Import Arith ArithR ArithF Mem FirModel IirModel Tables ResamplerModel Wp Stage Cascade
  ResamplerProof ResamplerOk Spec SpecOk SpecR Client Feed StreamFacts DelayFacts TablesF TableFacts FirReal FreqFir Tones Cases PropsFir PropsFreq.
Import ListNotations.
Open Scope Z_scope.

Lemma sines_app a b t : sines (a ++ b) t = (sines a t + sines b t)%R.
Proof. induction a as [|u a IH]; cbn [sines app]; [lra|]. rewrite IH. lra. Qed.
Lemma sines_bound ws t : (Rabs (sines ws t) <= mass ws)%R.
Proof.
  induction ws as [|u ws IH]; cbn [sines mass]; [rewrite Rabs_R0; lra|].
  eapply Rle_trans; [apply Rabs_triang|]. apply Rplus_le_compat; [|exact IH]. rewrite Rabs_mult.
  pose proof (SIN_bound (w_frq u * t + w_ph u)). assert (Rabs (sin (w_frq u * t + w_ph u)) <= 1)%R by (apply Rabs_le; lra).
  pose proof (Rabs_pos (w_amp u)). rewrite <- (Rmult_1_r (Rabs (w_amp u))) at 2. apply Rmult_le_compat_l; assumption.
Qed.

(** ** Down *)
Definition down_tot (p ratio : Z) (u : wav) : wav :=
  Wav (w_amp u * total_gain p ratio (w_frq u))%R (IZR ratio * w_frq u)%R
    (w_ph u - w_frq u * (IZR ratio * (IZR (fir_delay8 DOWN ratio p) / 8)))%R.

Lemma total_same (F G : wav -> wav) ws k : (forall u, at_ (F u) k = at_ (G u) k) -> total (map F ws) k = total (map G ws) k.
Proof. intros H. induction ws as [|u ws IH]; cbn [map total]; [reflexivity|]. now rewrite IH, H. Qed.

Lemma sum_down p ratio (x : list RA) lo ws j : (ratio = 1 \/ ratio = 2 \/ ratio = 4 \/ ratio = 8) -> (ratio <> 1 -> fir_prec p) ->
  is_sum x lo ws -> 4 * lo + ratio * fir_delay8 DOWN ratio p <= 4 * ratio * j ->
  is_sum (resample FILTER_FIR DOWN p false ratio x) j (map (down_tot p ratio) ws).
Proof.
  intros Vr HQ HX J. pose proof HX as [HL _].
  assert (C : forall z l F, is_sum z l (map F ws) -> l <= j -> (forall u k, at_ (F u) k = at_ (down_tot p ratio u) k) -> is_sum z j (map (down_tot p ratio) ws)).
  { intros z l F [H0 H] Hl HF. split; [lia|]. intros k Hk. rewrite H by lia. now apply total_same. }
  destruct Vr as [->|Vr].
  - unfold resample, fir_delay8 in *. cbn [Z.eqb Pos.eqb] in *. apply (C x lo (fun u => u)); [now rewrite map_id | lia|].
    intros [a w q] k. unfold down_tot, at_, total_gain, fir_delay8. cbn [w_amp w_frq w_ph Z.eqb Pos.eqb]. f_equal; [lra|]. f_equal. lra.
  - specialize (HQ ltac:(lia)).
    assert (S2 : stage_no 2) by (unfold stage_no; auto). assert (S4 : stage_no 4) by (unfold stage_no; auto). assert (S8 : stage_no 8) by (unfold stage_no; auto).
    assert (N2 := size_len DOWN 2 p). assert (N4 := size_len DOWN 4 p). assert (N8 := size_len DOWN 8 p).
    destruct (ft_facts DOWN 2 p S2 HQ) as (_ & _ & G2 & _). destruct (ft_facts DOWN 4 p S4 HQ) as (_ & _ & G4 & _). destruct (ft_facts DOWN 8 p S8 HQ) as (_ & _ & G8 & _).
    rewrite N2 in G2. rewrite N4 in G4. rewrite N8 in G8.
    assert (St : forall s z l us, stage_no s -> size (coeffs (A := RA) FILTER_FIR DOWN p s) = fir_len s p -> is_sum z l us ->
      is_sum (fir_down2 (coeffs (A := RA) FILTER_FIR DOWN p s) z) ((l + 1) / 2 + fir_len s p - 1) (map (down_wav (coeffs (A := RA) FILTER_FIR DOWN p s)) us)).
    { intros s z l us Hs N H. apply (down_sum s p z l); auto. rewrite N. pose proof (Z.div_mod (l + 1) 2 ltac:(lia)). pose proof (Z.mod_pos_bound (l + 1) 2 ltac:(lia)). lia. }
    destruct Vr as [->|[->| ->]]; unfold resample, fir_delay8 in J |- *; cbn [Z.eqb Pos.eqb] in *; unfold stage.
    + eapply C; [apply (St 2 x lo ws S2 N2 HX) | lia|]. intros [a w q] k. unfold down_tot, down_wav, at_, total_gain, fir_delay8. rewrite N2.
      cbn [w_amp w_frq w_ph Z.eqb Pos.eqb]. f_equal. f_equal. rewrite mult_IZR. lra.
    + pose proof (St 4 x lo ws S4 N4 HX) as H4. pose proof (St 2 _ _ _ S2 N2 H4) as H2. rewrite map_map in H2.
      eapply C; [exact H2 | lia|]. intros [a w q] k. unfold down_tot, down_wav, at_, total_gain, fir_delay8, down_gain. rewrite N2, N4.
      cbn [w_amp w_frq w_ph Z.eqb Pos.eqb]. f_equal; [lra|]. f_equal. rewrite plus_IZR, !mult_IZR. lra.
    + pose proof (St 8 x lo ws S8 N8 HX) as H8. pose proof (St 4 _ _ _ S4 N4 H8) as H4. pose proof (St 2 _ _ _ S2 N2 H4) as H2. rewrite !map_map in H2.
      eapply C; [exact H2 | lia|]. intros [a w q] k. unfold down_tot, down_wav, at_, total_gain, fir_delay8, down_gain. rewrite N2, N4, N8.
      cbn [w_amp w_frq w_ph Z.eqb Pos.eqb]. replace (2 * (2 * w))%R with (4 * w)%R by lra. f_equal; [lra|]. f_equal. rewrite !plus_IZR, !mult_IZR. lra.
Qed.

(** the wanted tones *)
Definition passed (ratio : Z) (u : wav) : Prop := (Rabs (IZR ratio * w_frq u) <= band)%R.
(** tones that alias into the band *)
Definition stopped (ratio : Z) (u : wav) : Prop := exists k, (Rabs (IZR ratio * w_frq u - 2 * PI * IZR k) <= band)%R /\ k mod ratio <> 0.

Lemma pass_sum p ratio ws t : (ratio = 1 \/ ratio = 2 \/ ratio = 4 \/ ratio = 8) -> (ratio <> 1 -> hq_prec p) -> Forall (passed ratio) ws ->
  (Rabs (sines (map (down_tot p ratio) ws) t - sines ws ((t - IZR (fir_delay8 DOWN ratio p) / 8) * IZR ratio)) <= down_factor ratio * error_of p * mass ws)%R /\
  (mass (map (down_tot p ratio) ws) <= mass ws + down_factor ratio * error_of p * mass ws)%R.
Proof.
  intros Vr HQ H. set (D := (IZR (fir_delay8 DOWN ratio p) / 8)%R). induction H as [|u ws Hu H [IH IM]]; cbn [map sines mass].
  - rewrite Rminus_0_r, Rabs_R0. lra.
  - assert (G : (Rabs (total_gain p ratio (w_frq u) - 1) <= down_factor ratio * error_of p)%R).
    { destruct (Z.eq_dec ratio 1) as [->|N1]; [unfold total_gain, down_factor; cbn [Z.eqb Pos.eqb]; rewrite Rminus_diag_eq, Rabs_R0 by reflexivity; lra|].
      apply band_pass; auto. }
    set (fw := map (down_tot p ratio) ws) in *. unfold down_tot. cbn [w_amp w_frq w_ph]. fold D.
    replace (IZR ratio * w_frq u * t + (w_ph u - w_frq u * (IZR ratio * D)))%R with (w_frq u * ((t - D) * IZR ratio) + w_ph u)%R by ring.
    set (g := total_gain p ratio (w_frq u)) in *. set (c := (down_factor ratio * error_of p)%R) in *. set (q := (w_frq u * ((t - D) * IZR ratio) + w_ph u)%R).
    pose proof (SIN_bound q) as SB. assert (Q : (Rabs (sin q) <= 1)%R) by (apply Rabs_le; lra). set (sq := sin q) in *. pose proof (Rabs_pos (w_amp u)) as A0.
    split.
    + replace (w_amp u * g * sq + sines fw t - (w_amp u * sq + sines ws ((t - D) * IZR ratio)))%R
        with ((g - 1) * (w_amp u * sq) + (sines fw t - sines ws ((t - D) * IZR ratio)))%R by ring.
      eapply Rle_trans; [apply Rabs_triang|]. rewrite Rmult_plus_distr_l. apply Rplus_le_compat; [|exact IH].
      rewrite !Rabs_mult. apply Rmult_le_compat; [apply Rabs_pos | apply Rmult_le_pos; apply Rabs_pos | exact G|].
      rewrite <- (Rmult_1_r (Rabs (w_amp u))) at 2. apply Rmult_le_compat_l; assumption.
    + rewrite Rabs_mult. assert (Rabs g <= 1 + c)%R by (apply Rabs_le; apply Rabs_le_inv in G; lra).
      assert (Rabs (w_amp u) * Rabs g <= Rabs (w_amp u) * (1 + c))%R by (apply Rmult_le_compat_l; assumption). lra.
Qed.

Lemma at_shift a w q k n : at_ (Wav a (w - 2 * PI * IZR n) q) k = at_ (Wav a w q) k.
Proof.
  unfold at_. cbn [w_amp w_frq w_ph]. f_equal. replace ((w - 2 * PI * IZR n) * IZR k + q)%R with (w * IZR k + q + 2 * IZR (- (n * k)) * PI)%R by (rewrite opp_IZR, mult_IZR; ring).
  apply sin_2kpi.
Qed.
Lemma stop_sum p ratio vs : (ratio = 1 \/ ratio = 2 \/ ratio = 4 \/ ratio = 8) -> (ratio <> 1 -> hq_prec p) -> Forall (stopped ratio) vs ->
  exists vs', (forall k, total vs' k = total (map (down_tot p ratio) vs) k) /\ Forall (fun u => Rabs (w_frq u) <= band)%R vs' /\ (mass vs' <= error_of p * mass vs)%R.
Proof.
  intros Vr HQ H. induction H as [|u vs (k & Hu & Hk) H (vs' & ET & EF & EM)]; [exists []; cbn; repeat split; [constructor | lra]|].
  assert (N1 : ratio <> 1) by (intros ->; rewrite Z.mod_1_r in Hk; congruence).
  pose proof (band_stop p (HQ N1) ratio (w_frq u) k Vr Hu Hk) as G.
  exists (Wav (w_amp u * total_gain p ratio (w_frq u)) (IZR ratio * w_frq u - 2 * PI * IZR k) (w_ph u - w_frq u * (IZR ratio * (IZR (fir_delay8 DOWN ratio p) / 8))) :: vs')%R.
  cbn [map total mass]. repeat split.
  - intros i. rewrite ET. f_equal. apply at_shift.
  - constructor; [exact Hu | exact EF].
  - cbn [w_amp]. rewrite Rabs_mult. pose proof (Rabs_pos (w_amp u)).
    assert (Rabs (w_amp u) * Rabs (total_gain p ratio (w_frq u)) <= Rabs (w_amp u) * error_of p)%R by (apply Rmult_le_compat_l; assumption). lra.
Qed.

Lemma is_sum_same x lo ws ws' : is_sum x lo ws -> (forall k, total ws k = total ws' k) -> is_sum x lo ws'.
Proof. intros [H0 H] E. split; [exact H0|]. intros k Hk. rewrite <- E. now apply H. Qed.

(** ** Up and down again *)
Definition over_factor (ratio : Z) : R := (if ratio =? 1 then 0 else if ratio =? 2 then 1.003 else if ratio =? 4 then 1.86 else 2.52)%R.

Lemma keeps_sum T L d B e kap F x lo ws j : keeps T L d B e kap F -> is_sum x lo ws -> Forall (fun u => B (w_frq u)) ws -> lo + L <= j < size x ->
  (Rabs (smp (T x) j - sines ws (IZR j - d)) <= e * mass ws)%R.
Proof.
  intros K H HB Hj. destruct (k_sum _ _ _ _ _ _ _ K x lo ws H) as [_ S]. rewrite S by (rewrite (k_size _ _ _ _ _ _ _ K); lia). clear S H.
  induction HB as [|u ws Hu HB IH]; cbn [flat_map total sines mass]; [rewrite Rminus_0_r, Rabs_R0; lra|].
  destruct (k_head _ _ _ _ _ _ _ K u) as (g & R & E & HE). specialize (HE Hu). rewrite E, total_app. cbn [total]. unfold at_ at 1. cbn [w_amp w_frq w_ph].
  replace (w_frq u * IZR j + (w_ph u - w_frq u * d))%R with (w_frq u * (IZR j - d) + w_ph u)%R by ring.
  set (q := (w_frq u * (IZR j - d) + w_ph u)%R). pose proof (SIN_bound q) as SB. assert (Q : (Rabs (sin q) <= 1)%R) by (apply Rabs_le; lra). set (sq := sin q) in *.
  replace (g * w_amp u * sq + total R j + total (flat_map F ws) j - (w_amp u * sq + sines ws (IZR j - d)))%R
    with ((g - 1) * w_amp u * sq + total R j + (total (flat_map F ws) j - sines ws (IZR j - d)))%R by ring.
  eapply Rle_trans; [apply Rabs_triang|]. rewrite Rmult_plus_distr_l. apply Rplus_le_compat; [|exact IH].
  eapply Rle_trans; [apply Rabs_triang|]. eapply Rle_trans; [|exact HE]. apply Rplus_le_compat; [|apply total_bound].
  rewrite !Rabs_mult. rewrite <- (Rmult_1_r (Rabs (g - 1) * Rabs (w_amp u))) at 2. apply Rmult_le_compat_l; [|exact Q]. apply Rmult_le_pos; apply Rabs_pos.
Qed.

Lemma trip p ratio (x : list RA) lo ws j : (ratio = 1 \/ ratio = 2 \/ ratio = 4 \/ ratio = 8) -> (ratio <> 1 -> hq_prec p) ->
  is_sum x lo ws -> Forall (fun u => Rabs (w_frq u) <= band)%R ws ->
  let D := (IZR (fir_delay8 UP ratio p) / 8 / IZR ratio + IZR (fir_delay8 DOWN ratio p) / 8)%R in
  4 * ratio * lo + fir_delay8 UP ratio p + ratio * fir_delay8 DOWN ratio p <= 4 * ratio * j -> j < size x ->
  (Rabs (smp (resample FILTER_FIR DOWN p false ratio (resample FILTER_FIR UP p false ratio x)) j - sines ws (IZR j - D)) <= over_factor ratio * error_of p * mass ws)%R.
Proof.
  intros Vr HQ HX HW D J Hj. destruct Vr as [->|Vr].
  - unfold D, resample, fir_delay8, over_factor in *. cbn [Z.eqb Pos.eqb] in *. destruct HX as [_ HX]. rewrite HX, <- sines_total by lia.
    replace (IZR j - (IZR (8 * 0) / 8 / 1 + 0 / 8))%R with (IZR j) by (change (IZR (8 * 0)) with 0%R; lra). rewrite Rminus_diag_eq, Rabs_R0 by reflexivity. lra.
  - specialize (HQ ltac:(lia)). destruct (error_eps p HQ) as (E2 & (E4 & E8) & E0 & _).
    assert (S2 : stage_no 2) by (unfold stage_no; auto). assert (S4 : stage_no 4) by (unfold stage_no; auto). assert (S8 : stage_no 8) by (unfold stage_no; auto).
    pose proof (hq_fir p HQ) as HF.
    assert (N2 := size_len UP 2 p). assert (N4 := size_len UP 4 p). assert (N8 := size_len UP 8 p).
    destruct (ft_facts UP 2 p S2 HF) as (_ & V2 & G2 & _). destruct (ft_facts UP 4 p S4 HF) as (_ & V4 & G4 & _). destruct (ft_facts UP 8 p S8 HF) as (_ & V8 & G8 & _).
    rewrite N2 in G2, V2. rewrite N4 in G4, V4. rewrite N8 in G8, V8. apply Z.even_spec in V2, V4, V8. destruct V2 as [h2 V2]. destruct V4 as [h4 V4]. destruct V8 as [h8 V8].
    pose proof (eps_pos 4 p) as P4. pose proof (eps_pos 8 p) as P8. pose proof (mass_pos ws) as PM.
    assert (B : forall u, (Rabs u <= band -> edge 2 <= cos (u / 2) /\ edge 4 <= cos (u / 2 / 2) /\ edge 8 <= cos (u / 2 / 2 / 2))%R).
    { intros u Hu. destruct (edge_band (u / 2)) as (B2 & B4 & B8).
      { unfold Rdiv at 1. rewrite Rabs_mult, (Rabs_pos_eq (/ 2)) by lra. lra. }
      replace (u / 2 / 2 / 2)%R with (u / 2 / 4)%R by lra. auto. }
    assert (Z1 : (0 <= 1)%R) by lra. assert (Z0 : (0 <= 0)%R) by lra.
    destruct Vr as [->|[->| ->]]; unfold D, resample, fir_delay8, over_factor in *; cbn [Z.eqb Pos.eqb] in *; unfold stage.
    + pose proof (keeps_around 2 p S2 HQ _ _ _ _ _ _ _ (keeps_id (fun _ => True)) Z1 Z0) as K. cbn zeta in K. rewrite N2, E2 in K. unfold around in K.
      pose proof (fun HB => keeps_sum _ _ _ _ _ _ _ x lo ws j K HX HB ltac:(change ((0 + 1) / 2) with 0; lia)) as KS.
      match type of KS with (_ -> (Rabs (_ - sines ws (IZR j - ?d)) <= _)%R) => replace d with (IZR (8 * (fir_len 2 p - 1)) / 8 / 2 + IZR (4 * (fir_len 2 p - 1)) / 8)%R in KS by (rewrite !mult_IZR; lra) end.
      eapply Rle_trans; [apply KS|]; [|apply Rmult_le_compat_r; lra]. eapply Forall_impl; [|exact HW]. intros u Hu. cbn beta. split; [now apply B | exact I].
    + pose proof (keeps_around 4 p S4 HQ _ _ _ _ _ _ _ (keeps_id (fun _ => True)) Z1 Z0) as K4. cbn zeta in K4.
      pose proof (keeps_around 2 p S2 HQ _ _ _ _ _ _ _ K4 ltac:(lra) ltac:(lra)) as K. cbn zeta in K. rewrite N2, N4, E2 in K. unfold around in K.
      change ((0 + 1) / 2) with 0 in K.
      pose proof (fun HB => keeps_sum _ _ _ _ _ _ _ x lo ws j K HX HB ltac:(lia)) as KS.
      match type of KS with (_ -> (Rabs (_ - sines ws (IZR j - ?d)) <= _)%R) => replace d with (IZR (8 * (2 * (fir_len 2 p - 1) + (fir_len 4 p - 1))) / 8 / 4 + IZR (4 * (fir_len 2 p - 1) + 2 * (fir_len 4 p - 1)) / 8)%R in KS by (rewrite ?mult_IZR, ?plus_IZR, ?mult_IZR; lra) end.
      eapply Rle_trans; [apply KS|]; [|apply Rmult_le_compat_r; lra]. eapply Forall_impl; [|exact HW]. intros u Hu. cbn beta. destruct (B _ Hu) as (? & ? & ?). auto.
    + pose proof (keeps_around 8 p S8 HQ _ _ _ _ _ _ _ (keeps_id (fun _ => True)) Z1 Z0) as K8. cbn zeta in K8.
      pose proof (keeps_around 4 p S4 HQ _ _ _ _ _ _ _ K8 ltac:(lra) ltac:(lra)) as K4. cbn zeta in K4.
      pose proof (keeps_around 2 p S2 HQ _ _ _ _ _ _ _ K4 ltac:(lra) ltac:(lra)) as K. cbn zeta in K. rewrite N2, N4, N8, E2 in K. unfold around in K.
      change ((0 + 1) / 2) with 0 in K.
      pose proof (fun HB => keeps_sum _ _ _ _ _ _ _ x lo ws j K HX HB ltac:(lia)) as KS.
      match type of KS with (_ -> (Rabs (_ - sines ws (IZR j - ?d)) <= _)%R) => replace d with (IZR (8 * (2 * (2 * (fir_len 2 p - 1) + (fir_len 4 p - 1)) + (fir_len 8 p - 1))) / 8 / 8 + IZR (4 * (fir_len 2 p - 1) + 2 * (fir_len 4 p - 1) + (fir_len 8 p - 1)) / 8)%R in KS by (rewrite ?mult_IZR, ?plus_IZR, ?mult_IZR, ?plus_IZR, ?mult_IZR; lra) end.
      eapply Rle_trans; [apply KS|]; [|apply Rmult_le_compat_r; lra]. eapply Forall_impl; [|exact HW]. intros u Hu. cbn beta. destruct (B _ Hu) as (? & ? & ?). auto.
Qed.

Lemma error_ge0 p : (0 <= error_of p)%R.
Proof. unfold error_of. repeat match goal with |- context [if ?c then _ else _] => destruct c end; lra. Qed.

(** ** Down: the tones vs are removed, the tones ws kept *)
Lemma down_kept p ratio (x : list RA) lo ws vs j : (ratio = 1 \/ ratio = 2 \/ ratio = 4 \/ ratio = 8) -> (ratio <> 1 -> hq_prec p) ->
  is_sum x lo (ws ++ vs) -> Forall (passed ratio) ws -> Forall (stopped ratio) vs ->
  4 * lo + ratio * fir_delay8 DOWN ratio p <= 4 * ratio * j -> j < size (resample FILTER_FIR DOWN p false ratio x) ->
  (Rabs (smp (resample FILTER_FIR DOWN p false ratio x) j - sines ws ((IZR j - IZR (fir_delay8 DOWN ratio p) / 8) * IZR ratio)) <= error_of p * (down_factor ratio * mass ws + mass vs))%R.
Proof.
  intros Vr HQ HX HP HS J Hjy.
  pose proof (sum_down p ratio x lo (ws ++ vs) j Vr (fun N => hq_fir _ (HQ N)) HX J) as [_ S].
  rewrite S by lia. rewrite map_app, total_app, <- sines_total.
  destruct (pass_sum p ratio ws (IZR j) Vr HQ HP) as [Q _].
  destruct (stop_sum p ratio vs Vr HQ HS) as (vs' & T & _ & M). rewrite <- T. pose proof (total_bound vs' j) as TB.
  set (a := sines (map _ ws) _) in *. set (b := sines ws _) in *. set (c := total vs' j) in *.
  replace (a + c - b)%R with ((a - b) + c)%R by ring. eapply Rle_trans; [apply Rabs_triang|]. lra.
Qed.

(** ** Down and up again *)
Definition sub_factor (ratio : Z) : R := (if ratio =? 1 then 0 else if ratio =? 2 then 1.503 else if ratio =? 4 then 2.8 else 3.81)%R.
Lemma down_up p ratio (x : list RA) lo ws vs q j : (ratio = 1 \/ ratio = 2 \/ ratio = 4 \/ ratio = 8) -> (ratio <> 1 -> hq_prec p) ->
  is_sum x lo (ws ++ vs) -> Forall (passed ratio) ws -> Forall (stopped ratio) vs ->
  let y := resample FILTER_FIR UP p false ratio (resample FILTER_FIR DOWN p false ratio x) in
  let D1 := (IZR (fir_delay8 DOWN ratio p) / 8)%R in let D2 := (IZR (fir_delay8 UP ratio p) / 8)%R in
  4 * lo + ratio * fir_delay8 DOWN ratio p <= 4 * ratio * q -> 4 * ratio * q + fir_delay8 UP ratio p <= 4 * j -> j < size y ->
  (Rabs (smp y j - sines ws (IZR j - (D1 * IZR ratio + D2))) <= error_of p * (sub_factor ratio * mass ws + 1.015 * mass vs))%R.
Proof.
  intros Vr HQ HX HP HS y D1 D2 JQ JJ Hjy. set (D := (D1 * IZR ratio + D2)%R). set (z := resample FILTER_FIR DOWN p false ratio x) in *.
  assert (RP : (1 <= IZR ratio)%R) by (destruct Vr as [->|[->|[->| ->]]]; lra).
  pose proof (sum_down p ratio x lo (ws ++ vs) q Vr (fun N => hq_fir _ (HQ N)) HX JQ) as S. fold z in S.
  destruct (stop_sum p ratio vs Vr HQ HS) as (vs' & T & B & M).
  apply (is_sum_same _ _ _ (map (down_tot p ratio) ws ++ vs')) in S; [|intros k; now rewrite map_app, !total_app, T].
  pose proof (sum_up p ratio z q _ j Vr HQ S) as U. cbn zeta in U. fold y in U. fold D2 in U.
  assert (BB : Forall (fun u => Rabs (w_frq u) <= band)%R (map (down_tot p ratio) ws ++ vs')).
  { apply Forall_app. split; [|exact B]. apply Forall_map. eapply Forall_impl; [|exact HP]. intros u Hu. exact Hu. }
  specialize (U BB JJ Hjy). rewrite sines_app, mass_app in U.
  destruct (pass_sum p ratio ws ((IZR j - D2) / IZR ratio) Vr HQ HP) as [PS PM]. fold D1 in PS.
  replace (((IZR j - D2) / IZR ratio - D1) * IZR ratio)%R with (IZR j - D)%R in PS by (unfold D; field; lra).
  pose proof (sines_bound vs' ((IZR j - D2) / IZR ratio)) as SB.
  pose proof (mass_pos ws) as M1. pose proof (mass_pos vs) as M2. pose proof (mass_pos vs') as M3. pose proof (error_ge0 p) as E0.
  assert (E3 : ratio = 1 \/ (error_of p <= 0.00576)%R) by (destruct (Z.eq_dec ratio 1) as [?|N]; [left; assumption | right; apply (error_eps p (HQ N))]).
  set (a := sines (map _ ws) _) in *. set (b := sines ws _) in *. set (c := sines vs' _) in *. set (w1 := mass ws) in *. set (w2 := mass vs) in *. set (w3 := mass vs') in *.
  set (mm := mass (map _ ws)) in *. set (ee := error_of p) in *. set (yj := smp y j) in *.
  assert (G : (Rabs (yj - b) <= Rabs (yj - (a + c)) + Rabs (a - b) + Rabs c)%R).
  { replace (yj - b)%R with ((yj - (a + c)) + (a - b) + c)%R by ring. eapply Rle_trans; [apply Rabs_triang|]. apply Rplus_le_compat_r. apply Rabs_triang. }
  eapply Rle_trans; [exact G|]. clear G. clearbody a b c w1 w2 w3 mm ee yj. clear - Vr U PS PM SB M M1 M2 M3 E0 E3.
  assert (F : (0 <= up_factor ratio <= 2.52)%R) by (unfold up_factor; destruct Vr as [->|[->|[->| ->]]]; cbn [Z.eqb Pos.eqb]; lra).
  assert (F2 : (0 <= down_factor ratio)%R) by (unfold down_factor; destruct Vr as [->|[->|[->| ->]]]; cbn [Z.eqb Pos.eqb]; lra).
  assert (U' : (Rabs (yj - (a + c)) <= up_factor ratio * ee * ((w1 + down_factor ratio * ee * w1) + ee * w2))%R).
  { eapply Rle_trans; [exact U|]. apply Rmult_le_compat_l; [apply Rmult_le_pos; lra | lra]. }
  clear U.
  assert (A1 : (up_factor ratio * (1 + down_factor ratio * ee) + down_factor ratio <= sub_factor ratio)%R).
  { unfold up_factor, down_factor, sub_factor. destruct E3 as [E3|E3]; destruct Vr as [Vr|[Vr|[Vr|Vr]]]; rewrite Vr in *; cbn [Z.eqb Pos.eqb] in *; try lra; try discriminate. }
  assert (A2 : (1 + up_factor ratio * ee <= 1.015)%R).
  { destruct E3 as [E3|E3]; [rewrite E3 in *; unfold up_factor; cbn; lra|]. assert (up_factor ratio * ee <= 2.52 * 0.00576)%R by (apply Rmult_le_compat; lra). lra. }
  apply (Rmult_le_compat_r w1) in A1; [|exact M1]. apply (Rmult_le_compat_r w2) in A2; [|exact M2].
  assert (Hh : ((up_factor ratio * (1 + down_factor ratio * ee) + down_factor ratio) * w1 + (1 + up_factor ratio * ee) * w2 <= sub_factor ratio * w1 + 1.015 * w2)%R) by lra.
  apply (Rmult_le_compat_l ee) in Hh; [|exact E0]. lra.
Qed.
