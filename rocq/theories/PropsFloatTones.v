(** * Properties: accuracy of single precision FIR resamplers for sums of sinusoids and round trips *)
From Coq Require Import ZArith Reals List Lia Lra Bool ZifyNat ZifyBool.
From Flocq Require Import Core BinarySingleNaN Relative.
From Interval Require Import Tactic.
From Verif Require Import Arith ArithR ArithF Mem FirModel IirModel Tables ResamplerModel Wp Stage Cascade
  ResamplerProof ResamplerOk Spec SpecOk SpecR Client Feed StreamFacts DelayFacts TablesF TableFacts FirReal FreqFir Tones FloatComm FloatSum FloatFir FloatErr
  Cases PropsStream PropsFir PropsFreq TonesProof PropsTones PropsFloat FloatFreq PropsFloatFreq.
Import ListNotations.
Open Scope Z_scope.

(** the samples are finite and, up to d, those of f *)
Definition near_signal (x : list F32) (f : Z -> R) (d : R) : Prop :=
  forall k, 0 <= k < size x -> is_finite (smp x k : b32) = true /\ (Rabs (B2R (smp x k : b32) - f k) <= d)%R.

(** error of the input and rounding, for a signal below M *)
Definition noise (r : resampler) (M d : R) : R :=
  (fir_bound (r_mode r) (r_ratio r) * d + (IZR (fir_units (r_mode r) (r_ratio r) (r_prec r)) * / 2 ^ 24 * (M + d) + / 2 ^ 140))%R.

Lemma transfer plat st (m : mem F32) id o (f : Z -> R) M d :
  reach plat st m -> st id = Some o ->
  let r := o_res o in let x := o_in o in let y := o_out o in
  r_filter r = FILTER_FIR -> (0 <= d)%R -> (M + d <= 2 ^ 109)%R -> (forall k, 0 <= k < size x -> (Rabs (f k) <= M)%R) -> near_signal x f d ->
  exists st' (m' : mem RA) o', reach plat st' m' /\ st' id = Some o' /\ o_res o' = r /\ size (o_in o') = size x /\ size (o_out o') = size y /\
    (forall k, 0 <= k < size x -> smp (o_in o') k = f k) /\ near_signal y (fun j => smp (o_out o') j) (noise r M d).
Proof.
  intros H E r x y Hf Hd HM HF Hx. set (z := tab (A := RA) (size x) (fun k => f k : RA)).
  assert (Sz : size z = size x) by (unfold z; rewrite size_tab; [reflexivity | unfold size; lia]).
  assert (Tz : forall k, 0 <= k < size x -> smp z k = f k) by (intros k Hk; unfold z; now rewrite smp_tab).
  destruct (exact_twin plat _ _ _ _ z d H E Sz Hd) as (st' & m' & o' & H' & E' & Er & Ei & So & Q).
  { intros k Hk. rewrite Sz in Hk. rewrite Tz by exact Hk. now apply Hx. }
  exists st', m', o'. split; [exact H'|]. split; [exact E'|]. split; [exact Er|]. rewrite Ei. split; [exact Sz|]. split; [exact So|]. split; [exact Tz|].
  intros j Hj. cbn zeta in Q. fold r in Q. rewrite Hf in Q. specialize (Q j Hj).
  destruct (C07_accuracy plat _ _ _ _ (M + d) H E Hf HM) with (j := j) as [F Q1]; [|exact Hj|].
  - intros k Hk. destruct (Hx k Hk) as [F D]. split; [exact F|]. specialize (HF k Hk).
    replace (B2R (smp (o_in o) k : b32)) with ((B2R (smp (o_in o) k : b32) - f k) + f k)%R by ring. eapply Rle_trans; [apply Rabs_triang|]. fold x. lra.
  - split; [exact F|]. unfold noise. cbn [filter_bound] in Q. fold r x in Q1. unfold exact_fir in Q1.
    assert (Z0 : (Rabs (smp (o_out o') j - smp (o_out o') j) <= 0)%R) by (rewrite Rminus_diag_eq, Rabs_R0 by reflexivity; lra).
    pose proof (close3 _ _ _ _ _ _ _ Q1 Q Z0) as C. fold y in C. lra.
Qed.

Lemma sines_near (x : list F32) ws d : near_signal x (fun k => sines ws (IZR k)) d -> forall k, 0 <= k < size x -> (Rabs (sines ws (IZR k)) <= mass ws)%R.
Proof. intros _ k _. apply sines_bound. Qed.
Lemma near_trans (v a b d e : R) : (Rabs (v - a) <= d -> Rabs (a - b) <= e -> Rabs (v - b) <= e + d)%R.
Proof. intros H1 H2. apply Rabs_le_inv in H1, H2. apply Rabs_le. lra. Qed.

(** ** C67 *)
Theorem C67_upsampling plat st (m : mem F32) id o D ws d :
  reach plat st m -> st id = Some o ->
  let r := o_res o in let x := o_in o in let y := o_out o in
  r_filter r = FILTER_FIR -> r_mode r = UP -> r_prec r <> PREC_LINEAR -> delay_is r D ->
  (0 <= d)%R -> (mass ws + d <= 2 ^ 109)%R -> near_signal x (fun k => sines ws (IZR k)) d -> Forall in_band ws ->
  forall j, (2 * D <= IZR j)%R -> 0 <= j < size y ->
  is_finite (smp y j : b32) = true /\
  (Rabs (B2R (smp y j : b32) - sines ws ((IZR j - D) / IZR (r_ratio r))) <= up_factor (r_ratio r) * error_of (r_prec r) * mass ws + noise r (mass ws) d)%R.
Proof.
  intros H E r x y Hf Hm HL HD Hd HM Hx Hw j Hj Hjy.
  destruct (transfer plat _ _ _ _ (fun k => sines ws (IZR k)) (mass ws) d H E Hf Hd HM) as (st' & m' & o' & H' & E' & Er & Si & So & Tz & G); [intros k _; apply sines_bound | exact Hx|].
  pose proof (C66_upsampling plat _ _ _ _ D ws H' E') as Q. cbn zeta in Q. rewrite Er, Si, So in Q.
  destruct (G j Hjy) as [F B]. split; [exact F|]. eapply near_trans; [exact B|]. apply Q; assumption || apply Hjy.
Qed.

Theorem C67_downsampling plat st (m : mem F32) id o D ws vs d :
  reach plat st m -> st id = Some o ->
  let r := o_res o in let x := o_in o in let y := o_out o in
  r_filter r = FILTER_FIR -> r_mode r = DOWN -> r_prec r <> PREC_LINEAR -> delay_is r D ->
  (0 <= d)%R -> (mass (ws ++ vs) + d <= 2 ^ 109)%R -> near_signal x (fun k => sines (ws ++ vs) (IZR k)) d ->
  Forall (passed (r_ratio r)) ws -> Forall (stopped (r_ratio r)) vs ->
  forall j, (2 * D <= IZR j)%R -> 0 <= j < size y ->
  is_finite (smp y j : b32) = true /\
  (Rabs (B2R (smp y j : b32) - sines ws ((IZR j - D) * IZR (r_ratio r))) <= error_of (r_prec r) * (down_factor (r_ratio r) * mass ws + mass vs) + noise r (mass (ws ++ vs)) d)%R.
Proof.
  intros H E r x y Hf Hm HL HD Hd HM Hx Hw Hv j Hj Hjy.
  destruct (transfer plat _ _ _ _ (fun k => sines (ws ++ vs) (IZR k)) (mass (ws ++ vs)) d H E Hf Hd HM) as (st' & m' & o' & H' & E' & Er & Si & So & Tz & G); [intros k _; apply sines_bound | exact Hx|].
  pose proof (C66_downsampling plat _ _ _ _ D ws vs H' E') as Q. cbn zeta in Q. rewrite Er, Si, So in Q.
  destruct (G j Hjy) as [F B]. split; [exact F|]. eapply near_trans; [exact B|]. apply Q; assumption || apply Hjy.
Qed.

(** the noise of two resamplers, one after the other *)
Definition noise2 (r1 r2 : resampler) (M d : R) : R := noise r2 (fir_bound (r_mode r1) (r_ratio r1) * M) (noise r1 M d).

Lemma noise_pos r M d : (0 <= M)%R -> (0 <= d)%R -> (0 <= noise r M d)%R.
Proof.
  intros HM Hd. unfold noise. assert (P : forall n, (0 < / 2 ^ n)%R) by (intros; apply Rinv_0_lt_compat, pow_lt; lra). pose proof (P 24%nat). pose proof (P 140%nat).
  assert (B0 : (0 <= fir_bound (r_mode r) (r_ratio r))%R) by (unfold fir_bound; destruct (r_mode r), (r_ratio r =? 1), (r_ratio r =? 2), (r_ratio r =? 4); lra).
  assert (U0 : (0 <= IZR (fir_units (r_mode r) (r_ratio r) (r_prec r)))%R).
  { apply IZR_le. unfold fir_units, pick.
    destruct (r_ratio r =? 1), (r_mode r), (r_ratio r =? 2), (r_ratio r =? 4), (r_prec r =? 1), (r_prec r =? 8), (r_prec r =? 12), (r_prec r =? 16), (r_prec r =? 20); lia. }
  assert (0 <= fir_bound (r_mode r) (r_ratio r) * d)%R by (apply Rmult_le_pos; lra).
  assert (0 <= IZR (fir_units (r_mode r) (r_ratio r) (r_prec r)) * / 2 ^ 24 * (M + d))%R by (repeat apply Rmult_le_pos; lra). lra.
Qed.
Lemma noise_small r M d : (0 <= d <= M)%R -> (M <= 2 ^ 100)%R -> (fir_bound (r_mode r) (r_ratio r) * M + noise r M d <= 2 ^ 109)%R.
Proof.
  intros Hd HM. unfold noise.
  assert (B0 : (0 <= fir_bound (r_mode r) (r_ratio r) <= 7.2)%R) by (unfold fir_bound; destruct (r_mode r), (r_ratio r =? 1), (r_ratio r =? 2), (r_ratio r =? 4); lra).
  assert (U0 : (0 <= IZR (fir_units (r_mode r) (r_ratio r) (r_prec r)) <= 705)%R).
  { split; apply IZR_le; unfold fir_units, pick;
    destruct (r_ratio r =? 1), (r_mode r), (r_ratio r =? 2), (r_ratio r =? 4), (r_prec r =? 1), (r_prec r =? 8), (r_prec r =? 12), (r_prec r =? 16), (r_prec r =? 20); lia. }
  set (b := fir_bound _ _) in *. set (u := IZR (fir_units _ _ _)) in *.
  assert (P24 : (0 < / 2 ^ 24 <= / 1000)%R) by (split; [apply Rinv_0_lt_compat, pow_lt; lra | apply Rinv_le_contravar; lra]).
  assert (P140 : (/ 2 ^ 140 <= 1)%R) by (rewrite <- Rinv_1; apply Rinv_le_contravar; [lra | apply pow_R1_Rle; lra]).
  assert (b * M <= 7.2 * M)%R by (apply Rmult_le_compat_r; lra). assert (b * d <= 7.2 * M)%R by (apply Rmult_le_compat; lra).
  assert (u * / 2 ^ 24 <= 1)%R by (assert (u * / 2 ^ 24 <= 705 * / 1000)%R by (apply Rmult_le_compat; lra); lra).
  assert (0 <= u * / 2 ^ 24)%R by (apply Rmult_le_pos; lra).
  assert (u * / 2 ^ 24 * (M + d) <= 1 * (2 * M))%R by (apply Rmult_le_compat; lra).
  assert (1 <= 2 ^ 100)%R by (apply pow_R1_Rle; lra).
  replace (2 ^ 109)%R with (512 * 2 ^ 100)%R by (change 109%nat with (9 + 100)%nat; rewrite pow_add; lra). lra.
Qed.

Lemma room M d : (0 <= d <= M)%R -> (M <= 2 ^ 100)%R -> (M + d <= 2 ^ 109)%R.
Proof.
  intros Hd HM. assert (2 * 2 ^ 100 <= 2 ^ 109)%R by (rewrite (pow_IZR 2 100), (pow_IZR 2 109), <- mult_IZR; apply IZR_le; lia). lra.
Qed.

Lemma transfer2 plat1 st1 (m1 : mem F32) id1 o1 plat2 st2 (m2 : mem F32) id2 o2 (f : Z -> R) M d :
  reach plat1 st1 m1 -> st1 id1 = Some o1 -> reach plat2 st2 m2 -> st2 id2 = Some o2 ->
  let r1 := o_res o1 in let r2 := o_res o2 in let x := o_in o1 in let y := o_out o2 in
  r_filter r1 = FILTER_FIR -> r_filter r2 = FILTER_FIR -> o_in o2 = o_out o1 ->
  (0 <= d)%R -> (0 <= M)%R -> (M + d <= 2 ^ 109)%R -> (fir_bound (r_mode r1) (r_ratio r1) * M + noise r1 M d <= 2 ^ 109)%R ->
  (forall k, 0 <= k < size x -> (Rabs (f k) <= M)%R) -> near_signal x f d ->
  exists st1' (m1' : mem RA) o1' st2' (m2' : mem RA) o2', reach plat1 st1' m1' /\ st1' id1 = Some o1' /\ reach plat2 st2' m2' /\ st2' id2 = Some o2' /\
    o_res o1' = r1 /\ o_res o2' = r2 /\ size (o_in o1') = size x /\ size (o_out o2') = size y /\ o_in o2' = o_out o1' /\
    (forall k, 0 <= k < size x -> smp (o_in o1') k = f k) /\ near_signal y (fun j => smp (o_out o2') j) (noise2 r1 r2 M d).
Proof.
  intros H1 E1 H2 E2 r1 r2 x y Hf1 Hf2 Ex Hd HM HM1 HM2 HF Hx.
  destruct (transfer plat1 _ _ _ _ f M d H1 E1 Hf1 Hd HM1 HF Hx) as (st1' & m1' & o1' & H1' & E1' & Er1 & Si1 & So1 & T1 & G1).
  fold r1 in Er1, G1. fold x in Si1, T1.
  destruct (reach_built plat1 _ _ _ _ H1 E1) as [_ V]. fold r1 in V.
  assert (B1 : forall k, (Rabs (smp (o_out o1') k) <= fir_bound (r_mode r1) (r_ratio r1) * M)%R).
  { intros k. pose proof (C27_bounded plat1 _ _ _ _ M H1' E1') as B. cbn zeta in B. rewrite Er1 in B. apply (B Hf1 HM).
    intros i Hi. rewrite Si1 in Hi. rewrite T1 by exact Hi. now apply HF. }
  pose proof (noise_pos r1 M d HM Hd) as N0.
  destruct (transfer plat2 _ _ _ _ (fun j => smp (o_out o1') j) (fir_bound (r_mode r1) (r_ratio r1) * M) (noise r1 M d) H2 E2 Hf2 N0 HM2) as (st2' & m2' & o2' & H2' & E2' & Er2 & Si2 & So2 & T2 & G2).
  { intros k _. apply B1. }
  { rewrite Ex. exact G1. }
  exists st1', m1', o1', st2', m2', o2'. repeat split; try assumption.
  - assert (Sz : size (o_in o2') = size (o_out o1')) by (rewrite Si2, Ex; now rewrite So1).
    apply smp_ext; [exact Sz|]. intros k Hk. apply T2. rewrite Si2 in Hk. exact Hk.
  - now apply G2.
  - now apply G2.
Qed.

Theorem C67_oversampling plat1 st1 (m1 : mem F32) id1 o1 plat2 st2 (m2 : mem F32) id2 o2 D1 D2 ws d :
  reach plat1 st1 m1 -> st1 id1 = Some o1 -> reach plat2 st2 m2 -> st2 id2 = Some o2 ->
  let r1 := o_res o1 in let r2 := o_res o2 in let x := o_in o1 in let y := o_out o2 in
  r_filter r1 = FILTER_FIR -> r_mode r1 = UP -> r_filter r2 = FILTER_FIR -> r_mode r2 = DOWN -> r_ratio r2 = r_ratio r1 -> r_prec r2 = r_prec r1 ->
  r_prec r1 <> PREC_LINEAR -> delay_is r1 D1 -> delay_is r2 D2 -> o_in o2 = o_out o1 ->
  (0 <= d <= mass ws)%R -> (mass ws <= 2 ^ 100)%R -> near_signal x (fun k => sines ws (IZR k)) d -> Forall in_band ws ->
  let D := (D1 / IZR (r_ratio r1) + D2)%R in
  forall j, (2 * D <= IZR j)%R -> 0 <= j < size y ->
  is_finite (smp y j : b32) = true /\
  (Rabs (B2R (smp y j : b32) - sines ws (IZR j - D)) <= over_factor (r_ratio r1) * error_of (r_prec r1) * mass ws + noise2 r1 r2 (mass ws) d)%R.
Proof.
  intros H1 E1 H2 E2 r1 r2 x y Hf1 Hm1 Hf2 Hm2 Hr Hp HL HD1 HD2 Ex Hd HM Hx Hw D j Hj Hjy.
  assert (M0 : (0 <= mass ws)%R) by lra. pose proof (noise_small r1 _ _ Hd HM) as NS.
  destruct (transfer2 plat1 st1 m1 id1 o1 plat2 st2 m2 id2 o2 (fun k => sines ws (IZR k)) (mass ws) d H1 E1 H2 E2 Hf1 Hf2 Ex (proj1 Hd) M0 (room _ _ Hd HM) NS) as
    (st1' & m1' & o1' & st2' & m2' & o2' & H1' & E1' & H2' & E2' & Er1 & Er2 & Si & So & Ex' & T & G); [intros k _; apply sines_bound | exact Hx|].
  pose proof (C66_oversampling plat1 _ _ _ _ plat2 _ _ _ _ D1 D2 ws H1' E1' H2' E2') as Q. cbn zeta in Q. rewrite Er1, Er2, Si, So in Q.
  destruct (G j Hjy) as [F B]. split; [exact F|]. eapply near_trans; [exact B|]. apply Q; assumption || apply Hjy.
Qed.

Theorem C67_subsampling plat1 st1 (m1 : mem F32) id1 o1 plat2 st2 (m2 : mem F32) id2 o2 D1 D2 ws vs d :
  reach plat1 st1 m1 -> st1 id1 = Some o1 -> reach plat2 st2 m2 -> st2 id2 = Some o2 ->
  let r1 := o_res o1 in let r2 := o_res o2 in let x := o_in o1 in let y := o_out o2 in
  r_filter r1 = FILTER_FIR -> r_mode r1 = DOWN -> r_filter r2 = FILTER_FIR -> r_mode r2 = UP -> r_ratio r2 = r_ratio r1 -> r_prec r2 = r_prec r1 ->
  r_prec r1 <> PREC_LINEAR -> delay_is r1 D1 -> delay_is r2 D2 -> o_in o2 = o_out o1 ->
  let M := mass (ws ++ vs) in
  (0 <= d <= M)%R -> (M <= 2 ^ 100)%R -> near_signal x (fun k => sines (ws ++ vs) (IZR k)) d ->
  Forall (passed (r_ratio r1)) ws -> Forall (stopped (r_ratio r1)) vs ->
  let D := (D1 * IZR (r_ratio r1) + D2)%R in
  forall j, (2 * D + IZR (r_ratio r1) <= IZR j)%R -> 0 <= j < size y ->
  is_finite (smp y j : b32) = true /\
  (Rabs (B2R (smp y j : b32) - sines ws (IZR j - D)) <= error_of (r_prec r1) * (sub_factor (r_ratio r1) * mass ws + 1.015 * mass vs) + noise2 r1 r2 M d)%R.
Proof.
  intros H1 E1 H2 E2 r1 r2 x y Hf1 Hm1 Hf2 Hm2 Hr Hp HL HD1 HD2 Ex M Hd HM Hx Hw Hv D j Hj Hjy.
  assert (M0 : (0 <= mass (ws ++ vs))%R) by (fold M; lra). pose proof (noise_small r1 _ _ Hd HM) as NS.
  destruct (transfer2 plat1 st1 m1 id1 o1 plat2 st2 m2 id2 o2 (fun k => sines (ws ++ vs) (IZR k)) (mass (ws ++ vs)) d H1 E1 H2 E2 Hf1 Hf2 Ex (proj1 Hd) M0 (room _ _ Hd HM) NS) as
    (st1' & m1' & o1' & st2' & m2' & o2' & H1' & E1' & H2' & E2' & Er1 & Er2 & Si & So & Ex' & T & G); [intros k _; apply sines_bound | exact Hx|].
  pose proof (C66_subsampling plat1 _ _ _ _ plat2 _ _ _ _ D1 D2 ws vs H1' E1' H2' E2') as Q. cbn zeta in Q. rewrite Er1, Er2, Si, So in Q.
  destruct (G j Hjy) as [F B]. split; [exact F|]. eapply near_trans; [exact B|]. apply Q; assumption || apply Hjy.
Qed.

(** ** Guaranteed dB for input that is rounded to nearest *)
Definition rounded (x : list F32) (f : Z -> R) : Prop :=
  forall k, 0 <= k < size x -> is_finite (smp x k : b32) = true /\ B2R (smp x k : b32) = round radix2 (FLT_exp (-149) 24) ZnearestE (f k).
Lemma rounded_near x f M : (forall k, 0 <= k < size x -> (Rabs (f k) <= M)%R) -> rounded x f -> near_signal x f (/ 2 ^ 24 * M + / 2 ^ 150).
Proof.
  intros HM H k Hk. destruct (H k Hk) as [F E]. split; [exact F|]. rewrite E. specialize (HM k Hk). set (v := f k) in *.
  destruct (error_N_FLT radix2 (-149) 24 ltac:(lia) (fun t => negb (Z.even t)) v) as (eps & eta & He & Ht & _ & Ev).
  rewrite Ev. replace (v * (1 + eps) + eta - v)%R with (v * eps + eta)%R by ring.
  eapply Rle_trans; [apply Rabs_triang|]. rewrite Rabs_mult.
  apply Rplus_le_compat.
  - rewrite Rmult_comm. apply Rmult_le_compat; try apply Rabs_pos; [|exact HM]. eapply Rle_trans; [exact He|]. right.
    rewrite (pow_IZR 2 24). change (-24 + 1) with (-23). cbn. lra.
  - eapply Rle_trans; [exact Ht|]. right. rewrite (pow_IZR 2 150). cbn. lra.
Qed.

(** dB for upsampling and downsampling again, and for downsampling and upsampling again *)
Definition over_snr (ratio p : Z) : R :=
  (if ratio =? 2 then pick_dB p 44.7 66.2 85.1 91.1 90.1 else if ratio =? 4 then pick_dB p 39.3 60.5 77.3 80.6 79.5 else pick_dB p 36.6 57.4 71.2 72.5 71.3)%R.
Definition sub_snr (ratio p : Z) : R :=
  (if ratio =? 2 then pick_dB p 41.2 62.8 82.8 90.8 90.1 else if ratio =? 4 then pick_dB p 35.8 57.2 75.5 80.4 79.5 else pick_dB p 33.1 54.2 69.9 72.4 71.3)%R.

(** noise relative to M *)
Definition noise_rel (md : rmode) (ratio p : Z) (c e : R) : R :=
  (fir_bound md ratio * e + (IZR (fir_units md ratio p) * / 2 ^ 24 * (c + e) + / 2 ^ 40))%R.
Lemma noise_scale r c e M d : (0 <= M)%R -> (/ 2 ^ 140 <= / 2 ^ 40 * M)%R -> (d <= e * M)%R ->
  (noise r (c * M) d <= noise_rel (r_mode r) (r_ratio r) (r_prec r) c e * M)%R.
Proof.
  intros HM H1 Hd. unfold noise, noise_rel. assert (P24 : (0 < / 2 ^ 24)%R) by (apply Rinv_0_lt_compat, pow_lt; lra).
  assert (B0 : (0 <= fir_bound (r_mode r) (r_ratio r))%R) by (unfold fir_bound; destruct (r_mode r), (r_ratio r =? 1), (r_ratio r =? 2), (r_ratio r =? 4); lra).
  assert (U0 : (0 <= IZR (fir_units (r_mode r) (r_ratio r) (r_prec r)))%R).
  { apply IZR_le. unfold fir_units, pick.
    destruct (r_ratio r =? 1), (r_mode r), (r_ratio r =? 2), (r_ratio r =? 4), (r_prec r =? 1), (r_prec r =? 8), (r_prec r =? 12), (r_prec r =? 16), (r_prec r =? 20); lia. }
  set (b := fir_bound _ _) in *. set (u := IZR (fir_units _ _ _)) in *.
  assert (b * d <= b * (e * M))%R by (apply Rmult_le_compat_l; assumption).
  assert (0 <= u * / 2 ^ 24)%R by (apply Rmult_le_pos; lra).
  assert (u * / 2 ^ 24 * (c * M + d) <= u * / 2 ^ 24 * (c * M + e * M))%R by (apply Rmult_le_compat_l; lra). lra.
Qed.
Definition trip_noise (md1 md2 : rmode) (ratio p : Z) : R :=
  noise_rel md2 ratio p (fir_bound md1 ratio) (noise_rel md1 ratio p 1 (/ 2 ^ 24 + / 2 ^ 50)).
Lemma trip_scale r1 r2 M : r_ratio r2 = r_ratio r1 -> r_prec r2 = r_prec r1 -> (/ 2 ^ 100 <= M)%R ->
  (noise2 r1 r2 M (/ 2 ^ 24 * M + / 2 ^ 150) <= trip_noise (r_mode r1) (r_mode r2) (r_ratio r1) (r_prec r1) * M)%R.
Proof.
  intros Hr Hp HM. unfold noise2, trip_noise.
  assert (P : forall n, (0 < / 2 ^ n)%R) by (intros; apply Rinv_0_lt_compat, pow_lt; lra).
  assert (S : forall n k l, l = (n + k)%nat -> (/ 2 ^ l = / 2 ^ n * / 2 ^ k)%R) by (intros n k l ->; rewrite pow_add, Rinv_mult; reflexivity).
  assert (E150 : (/ 2 ^ 150 <= / 2 ^ 50 * M)%R).
  { rewrite (S 50%nat 100%nat 150%nat eq_refl). apply Rmult_le_compat_l; [apply Rlt_le, P | exact HM]. }
  assert (E140 : (/ 2 ^ 140 <= / 2 ^ 40 * M)%R).
  { rewrite (S 40%nat 100%nat 140%nat eq_refl). apply Rmult_le_compat_l; [apply Rlt_le, P | exact HM]. }
  assert (M0 : (0 <= M)%R) by (eapply Rle_trans; [apply Rlt_le, (P 100%nat) | exact HM]).
  rewrite <- Hr, <- Hp at 1. rewrite <- Hp at 1. eapply Rle_trans; [apply noise_scale; [exact M0 | exact E140|]|].
  - rewrite <- (Rmult_1_l M) at 1. apply noise_scale; [exact M0 | exact E140|]. rewrite Rmult_plus_distr_r. apply Rplus_le_compat_l. exact E150.
  - rewrite Hr, Hp. apply Rle_refl.
Qed.
Lemma trip_numbers ratio p : 2 <= ratio -> ratio_no ratio -> hq_prec p ->
  (over_factor ratio * error_of p + trip_noise UP DOWN ratio p <= Rpower 10 (- over_snr ratio p / 20))%R /\
  (sub_factor ratio * error_of p + trip_noise DOWN UP ratio p <= Rpower 10 (- sub_snr ratio p / 20))%R.
Proof.
  unfold ratio_no, hq_prec. intros H2 Hr Hp. destruct Hr as [->|Hr]; [lia|].
  unfold over_factor, sub_factor, error_of, trip_noise, noise_rel, fir_bound, fir_units, over_snr, sub_snr, pick, pick_dB, Rpower, PREC_48DB, PREC_72DB, PREC_96DB, PREC_120DB.
  destruct Hr as [->|[->| ->]], Hp as [->|[->|[->|[->| ->]]]]; cbn [Z.eqb Pos.eqb]; split; interval with (i_prec 60).
Qed.

Lemma rounding_room M : (/ 2 ^ 100 <= M)%R -> (0 <= / 2 ^ 24 * M + / 2 ^ 150 <= M)%R.
Proof.
  intros HM. assert (P : forall n, (0 < / 2 ^ n)%R) by (intros; apply Rinv_0_lt_compat, pow_lt; lra).
  pose proof (P 24%nat) as P24. pose proof (P 150%nat). pose proof (P 100%nat).
  assert (0 <= / 2 ^ 24 * M)%R by (apply Rmult_le_pos; lra).
  assert (/ 2 ^ 24 * M <= / 2 * M)%R by (apply Rmult_le_compat_r; [lra | apply Rinv_le_contravar; lra]).
  assert (/ 2 ^ 150 <= / 2 * / 2 ^ 100)%R by (rewrite <- Rinv_mult; apply Rinv_le_contravar; [apply Rmult_lt_0_compat; [lra | apply pow_lt; lra]|];
    change 150%nat with (1 + 49 + 100)%nat; rewrite !pow_add, pow_1; assert (1 <= 2 ^ 49)%R by (apply pow_R1_Rle; lra); apply Rmult_le_compat_r; [apply pow_le; lra | lra]).
  lra.
Qed.

Theorem C67_oversampling_snr plat1 st1 (m1 : mem F32) id1 o1 plat2 st2 (m2 : mem F32) id2 o2 D1 D2 ws :
  reach plat1 st1 m1 -> st1 id1 = Some o1 -> reach plat2 st2 m2 -> st2 id2 = Some o2 ->
  let r1 := o_res o1 in let r2 := o_res o2 in let x := o_in o1 in let y := o_out o2 in
  r_filter r1 = FILTER_FIR -> r_mode r1 = UP -> r_filter r2 = FILTER_FIR -> r_mode r2 = DOWN -> r_ratio r2 = r_ratio r1 -> r_prec r2 = r_prec r1 ->
  2 <= r_ratio r1 -> r_prec r1 <> PREC_LINEAR -> delay_is r1 D1 -> delay_is r2 D2 -> o_in o2 = o_out o1 ->
  (/ 2 ^ 100 <= mass ws <= 2 ^ 100)%R -> rounded x (fun k => sines ws (IZR k)) -> Forall in_band ws ->
  let D := (D1 / IZR (r_ratio r1) + D2)%R in
  forall j, (2 * D <= IZR j)%R -> 0 <= j < size y ->
  is_finite (smp y j : b32) = true /\
  (Rabs (B2R (smp y j : b32) - sines ws (IZR j - D)) <= Rpower 10 (- over_snr (r_ratio r1) (r_prec r1) / 20) * mass ws)%R.
Proof.
  intros H1 E1 H2 E2 r1 r2 x y Hf1 Hm1 Hf2 Hm2 Hr Hp R2 HL HD1 HD2 Ex HM Hx Hw D j Hj Hjy.
  destruct (C67_oversampling plat1 _ _ _ _ plat2 _ _ _ _ D1 D2 ws (/ 2 ^ 24 * mass ws + / 2 ^ 150) H1 E1 H2 E2 Hf1 Hm1 Hf2 Hm2 Hr Hp HL HD1 HD2 Ex (rounding_room _ (proj1 HM)) (proj2 HM)) with (j := j) as [F B]; try assumption.
  { apply rounded_near; [|exact Hx]. intros k _. apply sines_bound. }
  split; [exact F|]. eapply Rle_trans; [exact B|]. fold r1 r2.
  destruct (reach_built plat1 _ _ _ _ H1 E1) as [_ V]. fold r1 in V. rewrite Hf1 in V.
  pose proof (trip_scale r1 r2 (mass ws) Hr Hp (proj1 HM)) as N. rewrite Hm1, Hm2 in N.
  destruct (trip_numbers (r_ratio r1) (r_prec r1) R2 (proj1 V) (prec_hq r1 V ltac:(lia) HL)) as [Q _].
  apply (Rmult_le_compat_r (mass ws)) in Q; [|pose proof (rounding_room _ (proj1 HM)); lra]. rewrite Rmult_plus_distr_r in Q. lra.
Qed.

Theorem C67_subsampling_snr plat1 st1 (m1 : mem F32) id1 o1 plat2 st2 (m2 : mem F32) id2 o2 D1 D2 ws :
  reach plat1 st1 m1 -> st1 id1 = Some o1 -> reach plat2 st2 m2 -> st2 id2 = Some o2 ->
  let r1 := o_res o1 in let r2 := o_res o2 in let x := o_in o1 in let y := o_out o2 in
  r_filter r1 = FILTER_FIR -> r_mode r1 = DOWN -> r_filter r2 = FILTER_FIR -> r_mode r2 = UP -> r_ratio r2 = r_ratio r1 -> r_prec r2 = r_prec r1 ->
  2 <= r_ratio r1 -> r_prec r1 <> PREC_LINEAR -> delay_is r1 D1 -> delay_is r2 D2 -> o_in o2 = o_out o1 ->
  (/ 2 ^ 100 <= mass ws <= 2 ^ 100)%R -> rounded x (fun k => sines ws (IZR k)) -> Forall (passed (r_ratio r1)) ws ->
  let D := (D1 * IZR (r_ratio r1) + D2)%R in
  forall j, (2 * D + IZR (r_ratio r1) <= IZR j)%R -> 0 <= j < size y ->
  is_finite (smp y j : b32) = true /\
  (Rabs (B2R (smp y j : b32) - sines ws (IZR j - D)) <= Rpower 10 (- sub_snr (r_ratio r1) (r_prec r1) / 20) * mass ws)%R.
Proof.
  intros H1 E1 H2 E2 r1 r2 x y Hf1 Hm1 Hf2 Hm2 Hr Hp R2 HL HD1 HD2 Ex HM Hx Hw D j Hj Hjy.
  pose proof (C67_subsampling plat1 _ _ _ _ plat2 _ _ _ _ D1 D2 ws [] (/ 2 ^ 24 * mass ws + / 2 ^ 150) H1 E1 H2 E2 Hf1 Hm1 Hf2 Hm2 Hr Hp HL HD1 HD2 Ex) as G.
  cbn zeta in G. rewrite app_nil_r in G.
  destruct (G (rounding_room _ (proj1 HM)) (proj2 HM)) with (j := j) as [F B]; try assumption; [|constructor|].
  { apply rounded_near; [|exact Hx]. intros k _. apply sines_bound. }
  split; [exact F|]. eapply Rle_trans; [exact B|]. fold r1 r2. cbn [mass].
  destruct (reach_built plat1 _ _ _ _ H1 E1) as [_ V]. fold r1 in V. rewrite Hf1 in V.
  pose proof (trip_scale r1 r2 (mass ws) Hr Hp (proj1 HM)) as N. rewrite Hm1, Hm2 in N.
  destruct (trip_numbers (r_ratio r1) (r_prec r1) R2 (proj1 V) (prec_hq r1 V ltac:(lia) HL)) as [_ Q].
  apply (Rmult_le_compat_r (mass ws)) in Q; [|pose proof (rounding_room _ (proj1 HM)); lra]. rewrite Rmult_plus_distr_r in Q. lra.
Qed.

(** the hypotheses can be met: eight times oversampling of two tones, rounded to single precision *)
Example C67_case plat (sse : bool) : exists st1 (m1 : mem F32) o1 st2 (m2 : mem F32) o2 D1 D2,
  reach plat st1 m1 /\ st1 0 = Some o1 /\ reach plat st2 m2 /\ st2 1 = Some o2 /\
  r_filter (o_res o1) = FILTER_FIR /\ r_mode (o_res o1) = UP /\ r_filter (o_res o2) = FILTER_FIR /\ r_mode (o_res o2) = DOWN /\
  r_ratio (o_res o1) = 8 /\ r_ratio (o_res o2) = 8 /\ r_prec (o_res o1) = PREC_96DB /\ r_prec (o_res o2) = PREC_96DB /\
  delay_is (o_res o1) D1 /\ delay_is (o_res o2) D2 /\ o_in o2 = o_out o1 /\ size (o_in o1) = 400 /\
  rounded (o_in o1) (fun k => sines two_tones (IZR k)) /\ (/ 2 ^ 100 <= mass two_tones <= 2 ^ 100)%R /\
  Forall in_band two_tones /\ (2 * (D1 / 8 + D2) <= 120)%R /\ 120 < size (o_out o2).
Proof.
  set (x := tab (A := F32) 400 (fun k => b32_round (sines two_tones (IZR k)) : F32)).
  assert (Lx : length x = 400%nat) by (unfold x, tab; rewrite map_length, seq_length; reflexivity).
  assert (Sx : size x = 400) by (unfold size; rewrite Lx; reflexivity).
  assert (MM : mass two_tones = 3%R) by (unfold two_tones; cbn [mass w_amp]; rewrite (Rabs_pos_eq 2), (Rabs_left (-1)) by lra; lra).
  assert (M2 : (3 <= 2 ^ 100)%R) by (apply Rle_trans with (2 ^ 2)%R; [lra | apply Rle_pow; [lra | lia]]).
  destruct (some_obj (A := F32) plat UP 8 PREC_96DB sse FILTER_FIR 0 [(0, x)]) as (st1 & m1 & o1 & H1 & E1 & Er1 & Ei1).
  { cbn [forallb snd fst]. rewrite Lx. reflexivity. }
  cbn [map concat snd] in Ei1. rewrite app_nil_r in Ei1.
  assert (L : length (o_out o1) = 3200%nat).
  { pose proof (reach_size plat _ _ _ _ H1 E1) as S. rewrite Er1, Ei1, Sx in S. cbn [out_size built r_mode r_ratio] in S. unfold size in S. lia. }
  destruct (some_obj (A := F32) plat DOWN 8 PREC_96DB sse FILTER_FIR 1 [(0, o_out o1)]) as (st2 & m2 & o2 & H2 & E2 & Er2 & Ei2).
  { cbn [forallb snd fst]. rewrite L. reflexivity. }
  cbn [map concat snd] in Ei2. rewrite app_nil_r in Ei2.
  exists st1, m1, o1, st2, m2, o2, (IZR (fir_delay8 UP 8 PREC_96DB) / 8)%R, (IZR (fir_delay8 DOWN 8 PREC_96DB) / 8)%R.
  rewrite (reach_size plat _ _ _ _ H2 E2), Er1, Er2, Ei1, Ei2, MM. do 4 (split; [assumption|]). do 8 (split; [reflexivity|]).
  split; [apply fir_delay_is; now apply configb_ok|]. split; [apply fir_delay_is; now apply configb_ok|]. split; [reflexivity|]. split; [exact Sx|].
  split; [|split; [|split; [|split]]].
  - intros k Hk. rewrite Sx in Hk. unfold x. rewrite smp_tab by exact Hk. apply b32_round_ok. eapply Rle_trans; [apply sines_bound|]. rewrite MM. exact M2.
  - split; [|exact M2]. apply Rle_trans with (/ 1)%R; [apply Rinv_le_contravar; [lra | apply pow_R1_Rle; lra] | lra].
  - assert (P : (0 < PI)%R) by apply PI_RGT_0. repeat constructor; unfold in_band, band; cbn [w_frq]; rewrite Rabs_pos_eq by lra; interval with (i_prec 60).
  - replace (fir_delay8 UP 8 PREC_96DB) with 1192 by reflexivity. replace (fir_delay8 DOWN 8 PREC_96DB) with 149 by reflexivity. lra.
  - unfold size. rewrite L. reflexivity.
Qed.

Print Assumptions C67_upsampling.
Print Assumptions C67_downsampling.
Print Assumptions C67_oversampling.
Print Assumptions C67_subsampling.
Print Assumptions C67_oversampling_snr.
Print Assumptions C67_subsampling_snr.
