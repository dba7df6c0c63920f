(** * IIR resamplers and sinusoids: whole resamplers *)
From Coq Require Import ZArith Reals List Lia Lra Psatz Bool ZifyNat ZifyBool.
From Flocq Require Import Core.
From Interval Require Import Tactic.
From Verif Require Import Arith ArithR Tables ResamplerModel ResamplerProof ResamplerOk Spec SpecOk SpecR Client Feed Twin TablesF IirReal IirPhase IirCert IirLag.
Import ListNotations.
Open Scope Z_scope.

Definition cs_of (p s : Z) : list R := coeffs (A := RA) FILTER_IIR UP p s.

(** ** Upsampling *)
Definition ups (p ratio : Z) (l : list wave) : list wave :=
  if ratio =? 1 then l else if ratio =? 2 then up_waves (cs_of p 2) l
  else if ratio =? 4 then up_waves (cs_of p 4) (up_waves (cs_of p 2) l)
  else up_waves (cs_of p 8) (up_waves (cs_of p 4) (up_waves (cs_of p 2) l)).
Theorem resample_up_near ratio p (x : list RA) l M w : valid FILTER_IIR ratio p ->
  steady (95 / 100) w -> near x l M w ->
  near (resample (A := RA) FILTER_IIR UP p false ratio x) (ups p ratio l) (IZR (resample_K 95 ratio) * M) (fun j => w (j / ratio)).
Proof.
  intros [Hra HT] Hw H.
  assert (S2 : stage_no 2) by (unfold stage_no; auto). assert (S4 : stage_no 4) by (unfold stage_no; auto).
  assert (S8 : stage_no 8) by (unfold stage_no; auto).
  destruct Hra as [->|Hra].
  - unfold resample, resample_K, ups. cbn [Z.eqb Pos.eqb]. rewrite Rmult_1_l. eapply near_ext; [|reflexivity|exact H]. intros k _. now rewrite Z.div_1_r.
  - assert (HP : iir_prec p) by (apply HT; lia). clear HT.
    assert (St : forall s x l M w, stage_no s -> steady (95 / 100) w -> near x l M w ->
      near (stage (A := RA) FILTER_IIR UP p false s x) (up_waves (cs_of p s) l) (IZR (stage_K 95 s) * M) (fun j => w (j / 2)) /\ steady (95 / 100) (fun j => w (j / 2))).
    { intros s x' l' M' w' Hs Hw' H'. destruct (iir_stage_ok 95 s p ltac:(auto) Hs HP) as (F & G1 & G2). split; [|apply steady_half; [lra | exact Hw']].
      apply (up_near _ (95 / 100)); try assumption; [lra|]. unfold stage_K, stage_no in *. destruct Hs as [->|[->| ->]]; cbn; lra. }
    destruct Hra as [->|[->| ->]]; unfold resample, resample_K, ups; cbn [Z.eqb Pos.eqb]; rewrite ?mult_IZR, ?Rmult_assoc.
    + apply St; assumption.
    + destruct (St 2 x l M w S2 Hw H) as [T2 W2]. destruct (St 4 _ _ _ _ S4 W2 T2) as [T4 _]. eapply near_ext; [|reflexivity|exact T4].
      intros k Hk. cbn. f_equal. now rewrite Z.div_div by lia.
    + destruct (St 2 x l M w S2 Hw H) as [T2 W2]. destruct (St 4 _ _ _ _ S4 W2 T2) as [T4 W4]. destruct (St 8 _ _ _ _ S8 W4 T4) as [T8 _].
      eapply near_ext; [|reflexivity|exact T8]. intros k Hk. cbn. f_equal. now rewrite !Z.div_div by lia.
Qed.

(** a sinusoid with a gain between 1 - e and 1, and other components of total amplitude b *)
Definition pure (l : list wave) (amp f ph e b : R) : Prop :=
  exists g rest, l = Wave (amp * g) f ph :: rest /\ (0 <= g <= 1)%R /\ (1 - g <= e)%R /\ (amps rest <= b)%R.
Lemma amps_app l1 l2 : amps (l1 ++ l2) = (amps l1 + amps l2)%R.
Proof. induction l1 as [|s l IH]; cbn; [lra | rewrite IH; lra]. Qed.
Lemma up_pure cs l amp f ph e b eps : pure l amp f ph e b ->
  (Rabs (sin (half_diff cs (f / 2))) <= eps)%R -> (0 <= 1 - cos (half_diff cs (f / 2)) <= eps * eps)%R -> (eps * eps <= 1)%R ->
  pure (up_waves cs l) amp (f / 2) (ph - mean_lag cs (f / 2)) (e + eps * eps) (3 / 2 * b + eps * Rabs amp).
Proof.
  intros (g & rest & -> & Hg & He & Hb) Hs Hc H1. set (d := half_diff cs (f / 2)) in *.
  exists (g * cos d)%R, (map (up_main cs) rest ++ up_image cs (Wave (amp * g) f ph) :: map (up_image cs) rest). split; [|split; [|split]].
  - unfold up_waves. cbn [map app]. f_equal. unfold up_main. cbn [w_amp w_freq w_phase]. fold d. f_equal. ring.
  - nra.
  - nra.
  - pose proof (amps_up cs rest) as A. unfold up_waves in A. rewrite amps_app in *. cbn [amps]. unfold up_image at 1. cbn [w_amp w_freq]. fold d.
    rewrite !Rabs_mult, (Rabs_pos_eq g) by lra. pose proof (Rabs_pos amp). pose proof (Rabs_pos (sin d)).
    assert (Rabs amp * g * Rabs (sin d) <= Rabs amp * 1 * eps)%R; [|lra].
    apply Rmult_le_compat; try nra. 
Qed.
Lemma pure_value l amp f ph e b k : pure l amp f ph e b -> (Rabs (waves l k - amp * sin (f * IZR k + ph)) <= e * Rabs amp + b)%R.
Proof.
  intros (g & rest & -> & Hg & He & Hb). cbn [waves]. unfold wval. cbn [w_amp w_freq w_phase]. set (q := sin (f * IZR k + ph)).
  replace (amp * g * q + waves rest k - amp * q)%R with (- ((1 - g) * amp * q) + waves rest k)%R by ring.
  eapply Rle_trans; [apply Rabs_triang|]. rewrite Rabs_Ropp, !Rabs_mult, (Rabs_pos_eq (1 - g)) by lra. pose proof (waves_abs rest k) as W.
  assert (Q : (Rabs q <= 1)%R) by (pose proof (SIN_bound (f * IZR k + ph)); apply Rabs_le; fold q in H; lra).
  pose proof (Rabs_pos amp). pose proof (Rabs_pos q).
  assert ((1 - g) * Rabs amp * Rabs q <= e * Rabs amp * 1)%R by (apply Rmult_le_compat; try nra; apply Rmult_le_compat_r; lra). lra.
Qed.

(** ** The band *)
(** 18 kHz at a sample rate of 44.1 kHz *)
Definition iband : R := (2 * PI * 18000 / 44100)%R.
Lemma iedge_band u : (Rabs u <= iband / 2)%R -> ((iedge 2 <= cos u)%R /\ (iedge 4 <= cos (u / 2))%R /\ (iedge 8 <= cos (u / 4))%R) /\
  (Rabs u <= PI /\ Rabs (u / 2) <= PI /\ Rabs (u / 4) <= PI)%R.
Proof.
  intros H. pose proof PI_RGT_0. unfold iband in H.
  assert (A : forall k, (0 < k)%R -> Rabs (u / k) = (Rabs u / k)%R).
  { intros k Hk. unfold Rdiv. rewrite Rabs_mult. f_equal. apply Rabs_pos_eq. left. now apply Rinv_0_lt_compat. }
  assert (C : forall v b, (Rabs v <= b)%R -> (b <= PI)%R -> (cos b <= cos v)%R).
  { intros v b Hv Hb. pose proof (Rabs_pos v). apply cos_between; rewrite (Rabs_pos_eq b) by lra; lra. }
  split; [|rewrite !A; lra].
  repeat split.
  - eapply Rle_trans; [|apply (C u (20 * PI / 49)%R); lra]. change (iedge 2) with (2330 / 8192)%R. interval with (i_prec 60).
  - eapply Rle_trans; [|apply (C (u / 2) (10 * PI / 49))%R; [rewrite A; lra | lra]]. change (iedge 4) with (3282 / 4096)%R. interval with (i_prec 60).
  - eapply Rle_trans; [|apply (C (u / 4) (5 * PI / 49))%R; [rewrite A; lra | lra]]. change (iedge 8) with (3886 / 4096)%R. interval with (i_prec 60).
Qed.

(** size of the unwanted components (relative to the input) of a stage, for each precision *)
Definition iir_error (p : Z) : R :=
  (if p =? PREC_48DB then 2.79e-3 else if p =? PREC_72DB then 6.53e-5 else if p =? PREC_96DB then 1.02e-5
   else if p =? PREC_120DB then 2.57e-7 else 6.78e-8)%R.
Lemma iir_error_eps p : iir_prec p ->
  (iir_eps 2 p <= iir_error p /\ iir_eps 4 p <= 0.783 * iir_error p /\ iir_eps 8 p <= 0.768 * iir_error p /\ 1.5 * iir_eps 4 p + iir_eps 8 p <= 1.8 * iir_error p)%R /\ (0 < iir_error p <= 0.00279)%R.
Proof.
  unfold iir_prec, iir_eps, iir_error, PREC_48DB, PREC_72DB, PREC_96DB, PREC_120DB.
  intros [->|[->|[->|[->| ->]]]]; cbn [Z.eqb Pos.eqb];
  repeat match goal with |- context [iir_eps_n ?a ?b] => let v := eval vm_compute in (iir_eps_n a b) in change (iir_eps_n a b) with v end; repeat split; lra.
Qed.

(** the lag of the output, as an angle *)
Definition up_shift (p ratio : Z) (w : R) : R :=
  (if ratio =? 1 then 0 else if ratio =? 2 then mean_lag (cs_of p 2) (w / 2)
   else if ratio =? 4 then mean_lag (cs_of p 2) (w / 2) + mean_lag (cs_of p 4) (w / 4)
   else mean_lag (cs_of p 2) (w / 2) + mean_lag (cs_of p 4) (w / 4) + mean_lag (cs_of p 8) (w / 8))%R.
Definition iir_up_factor (ratio : Z) : R := (if ratio =? 1 then 0 else if ratio =? 2 then 1.003 else if ratio =? 4 then 2.29 else 4.06)%R.

Lemma ups_pure p ratio amp w ph : valid FILTER_IIR ratio p -> (Rabs w <= iband)%R -> forall k,
  (Rabs (waves (ups p ratio [Wave amp w ph]) k - amp * sin (w / IZR ratio * IZR k + (ph - up_shift p ratio w))) <= iir_up_factor ratio * iir_error p * Rabs amp)%R.
Proof.
  intros [Hra HT] Hw k.
  assert (S2 : stage_no 2) by (unfold stage_no; auto). assert (S4 : stage_no 4) by (unfold stage_no; auto).
  assert (S8 : stage_no 8) by (unfold stage_no; auto).
  destruct Hra as [->|Hra].
  - unfold ups, up_shift, iir_up_factor. cbn [Z.eqb Pos.eqb waves]. unfold wval. cbn [w_amp w_freq w_phase].
    replace (w / 1)%R with w by lra. rewrite Rminus_0_r. set (q := (amp * sin _)%R). replace (q + 0 - q)%R with 0%R by ring. rewrite Rabs_R0. lra.
  - assert (HP : iir_prec p) by (apply HT; lia). clear HT. destruct (iir_error_eps p HP) as ((E2 & E4 & E8 & E48) & E0 & E1).
    destruct (iedge_band (w / 2)) as ((B2 & B4 & B8) & (P2 & P4 & P8)).
    { unfold Rdiv at 1. rewrite Rabs_mult, (Rabs_pos_eq (/ 2)) by lra. lra. }
    replace (w / 2 / 4)%R with (w / 2 / 2 / 2)%R in B8, P8 by lra.
    assert (N : forall s, stage_no s -> (0 < iir_eps s p /\ iir_eps s p * iir_eps s p <= 0.003 * iir_eps s p /\ iir_eps s p * iir_eps s p <= 1)%R).
    { intros s Hs. pose proof (iir_eps_range s p Hs HP). nra. }
    destruct (N 2 S2) as (N2 & Q2 & R2). destruct (N 4 S4) as (N4 & Q4 & R4). destruct (N 8 S8) as (N8 & Q8 & R8).
    assert (U0 : pure [Wave amp w ph] amp w ph 0 0) by (exists 1%R, []; cbn [amps]; rewrite Rmult_1_r; repeat split; lra).
    pose proof (up_pure (cs_of p 2) _ _ _ _ _ _ (iir_eps 2 p) U0 (half_diff_small 2 p _ S2 HP B2) (half_diff_cos 2 p S2 HP _ B2 P2) R2) as U2.
    pose proof (up_pure (cs_of p 4) _ _ _ _ _ _ (iir_eps 4 p) U2 (half_diff_small 4 p _ S4 HP B4) (half_diff_cos 4 p S4 HP _ B4 P4) R4) as U4.
    pose proof (up_pure (cs_of p 8) _ _ _ _ _ _ (iir_eps 8 p) U4 (half_diff_small 8 p _ S8 HP B8) (half_diff_cos 8 p S8 HP _ B8 P8) R8) as U8.
    pose proof (pure_value _ _ _ _ _ _ k U2) as V2. pose proof (pure_value _ _ _ _ _ _ k U4) as V4. pose proof (pure_value _ _ _ _ _ _ k U8) as V8.
    set (e2 := iir_eps 2 p) in *. set (e4 := iir_eps 4 p) in *. set (e8 := iir_eps 8 p) in *. set (e := iir_error p) in *.
    pose proof (Rabs_pos amp) as A0. set (a := Rabs amp) in *. clearbody a e2 e4 e8 e.
    destruct Hra as [->|[->| ->]]; unfold ups, up_shift, iir_up_factor; cbn [Z.eqb Pos.eqb].
    + eapply Rle_trans; [exact V2|]. apply Rle_trans with ((0.003 * e2 + e2) * a)%R; [nra|]. apply Rmult_le_compat_r; lra.
    + replace (w / 4)%R with (w / 2 / 2)%R by lra. replace (ph - (mean_lag (cs_of p 2) (w / 2) + mean_lag (cs_of p 4) (w / 2 / 2)))%R with (ph - mean_lag (cs_of p 2) (w / 2) - mean_lag (cs_of p 4) (w / 2 / 2))%R by ring.
      eapply Rle_trans; [exact V4|]. apply Rle_trans with ((0.003 * (e2 + e4) + 1.5 * e2 + e4) * a)%R; [nra|]. apply Rmult_le_compat_r; lra.
    + replace (w / 8)%R with (w / 2 / 2 / 2)%R by lra. replace (w / 4)%R with (w / 2 / 2)%R by lra.
      replace (ph - (mean_lag (cs_of p 2) (w / 2) + mean_lag (cs_of p 4) (w / 2 / 2) + mean_lag (cs_of p 8) (w / 2 / 2 / 2)))%R
        with (ph - mean_lag (cs_of p 2) (w / 2) - mean_lag (cs_of p 4) (w / 2 / 2) - mean_lag (cs_of p 8) (w / 2 / 2 / 2))%R by ring.
      eapply Rle_trans; [exact V8|]. apply Rle_trans with ((0.003 * (e2 + e4 + e8) + 2.25 * e2 + 1.5 * e4 + e8) * a)%R; [nra|]. apply Rmult_le_compat_r; lra.
Qed.

(** ** Downsampling *)
Definition downs (p ratio : Z) (s : wave) : wave :=
  if ratio =? 1 then s else if ratio =? 2 then down_wave (cs_of p 2) s
  else if ratio =? 4 then down_wave (cs_of p 2) (down_wave (cs_of p 4) s)
  else down_wave (cs_of p 2) (down_wave (cs_of p 4) (down_wave (cs_of p 8) s)).
Theorem resample_down_near rho ratio p (x : list RA) l M w : valid FILTER_IIR ratio p -> size x mod ratio = 0 ->
  (0 <= rho <= 1)%R -> (95 / 100 <= rho ^ 8)%R -> (forall i k, 0 <= i <= k -> (w k <= w i)%R) ->
  steady rho w -> near x l M w ->
  near (resample (A := RA) FILTER_IIR DOWN p false ratio x) (map (downs p ratio) l) (IZR (resample_K 95 ratio) * M) (fun k => w (ratio * k)).
Proof.
  intros [Hra HT] Hsz Hrho H8 Mon Hw H.
  assert (S2 : stage_no 2) by (unfold stage_no; auto). assert (S4 : stage_no 4) by (unfold stage_no; auto).
  assert (S8 : stage_no 8) by (unfold stage_no; auto).
  destruct Hra as [->|Hra].
  - unfold resample, resample_K, downs. cbn [Z.eqb Pos.eqb]. rewrite Rmult_1_l. eapply near_ext; [|symmetry; apply map_id|exact H]. intros k _. now rewrite Z.mul_1_l.
  - assert (HP : iir_prec p) by (apply HT; lia). clear HT.
    set (q2 := (rho * rho)%R). set (q4 := (q2 * q2)%R). set (q8 := (q4 * q4)%R).
    assert (Sq : forall v, (0 <= v <= 1)%R -> (0 <= v * v <= v)%R).
    { intros v Hv. split; [apply Rmult_le_pos; lra|]. assert (v * v <= 1 * v)%R by (apply Rmult_le_compat_r; lra). lra. }
    pose proof (Sq rho Hrho) as B2. fold q2 in B2. pose proof (Sq q2 ltac:(lra)) as B4. fold q4 in B4. pose proof (Sq q4 ltac:(lra)) as B8. fold q8 in B8.
    assert (E8 : (rho ^ 8 = q8)%R) by (unfold q8, q4, q2; ring). rewrite E8 in H8.
    assert (St : forall s x v M q w, stage_no s -> Z.even (size x) = true -> (0 <= q)%R -> (95 / 100 <= q * q)%R -> (forall i k, 0 <= i <= k -> (w k <= w i)%R) ->
      steady q w -> near x v M w ->
      size (stage (A := RA) FILTER_IIR DOWN p false s x) = size x / 2 /\
      near (stage (A := RA) FILTER_IIR DOWN p false s x) (map (down_wave (cs_of p s)) v) (IZR (stage_K 95 s) * M) (fun k => w (2 * k)) /\ steady (q * q) (fun k => w (2 * k)) /\
      (forall i k, 0 <= i <= k -> (w (2 * k)%Z <= w (2 * i)%Z)%R)).
    { intros s x' v M' q w' Hs Ev Hq Hq2 Mon' Hw' H'. destruct (iir_stage_ok 95 s p ltac:(auto) Hs HP) as (F & G1 & G2).
      pose proof (steady_double q w' Hq Hw') as Hw2. split; [|split; [|split]].
      - cbn [stage]. unfold iir_down2, size. rewrite zip_length, !chain_length, evens_length, odds_length.
        apply Z.even_spec in Ev. destruct Ev as [n En]. unfold size in En. replace (length x') with (2 * Z.to_nat n)%nat by lia.
        rewrite Nat.div2_succ_double, Nat.div2_double, Nat.min_id. replace (Z.of_nat (2 * Z.to_nat n)) with (Z.of_nat (Z.to_nat n) * 2) by lia. now rewrite Z.div_mul.
      - apply (down_near _ (95 / 100)); try assumption; [lra | |eapply steady_weaken; [exact Hw2 | exact Hq2]].
        unfold stage_K, stage_no in *. destruct Hs as [->|[->| ->]]; cbn; lra.
      - exact Hw2.
      - intros i k Hk. apply Mon'. lia. }
    assert (Szx : 0 <= size x) by (unfold size; lia).
    assert (Ev : forall z n, z = 2 * n -> Z.even z = true) by (intros z n ->; now rewrite Z.even_mul).
    pose proof (Z.div_mod (size x) ratio ltac:(lia)) as DM. rewrite Hsz in DM. set (n := size x / ratio) in DM. clearbody n.
    destruct Hra as [->|[->| ->]]; unfold resample, resample_K, downs; cbn [Z.eqb Pos.eqb]; rewrite ?mult_IZR, ?Rmult_assoc.
    + destruct (St 2 x l M rho w S2 (Ev (size x) n ltac:(lia)) ltac:(lra) ltac:(fold q2; lra) Mon Hw H) as (_ & T2 & _). exact T2.
    + destruct (St 4 x l M rho w S4 (Ev (size x) (2 * n) ltac:(lia)) ltac:(lra) ltac:(fold q2; lra) Mon Hw H) as (Z4 & T4 & W4 & M4). fold q2 in W4.
      assert (E4 : size (stage (A := RA) FILTER_IIR DOWN p false 4 x) = 2 * n) by (rewrite Z4; replace (size x) with ((2 * n) * 2) by lia; apply Z.div_mul; lia).
      destruct (St 2 _ _ _ q2 _ S2 (Ev _ n E4) ltac:(lra) ltac:(fold q4; lra) M4 W4 T4) as (_ & T2 & _).
      rewrite !map_map in T2. eapply near_more; [eapply near_ext; [|reflexivity|exact T2] | |].
      * intros k Hk. cbn beta. f_equal. lia.
      * apply Req_le. rewrite <- !Rmult_assoc. now rewrite (Rmult_comm (IZR (stage_K 95 2))).
      * intros k Hk. apply Hw. lia.
    + destruct (St 8 x l M rho w S8 (Ev (size x) (4 * n) ltac:(lia)) ltac:(lra) ltac:(fold q2; lra) Mon Hw H) as (Z8 & T8 & W8 & M8). fold q2 in W8.
      assert (E8' : size (stage (A := RA) FILTER_IIR DOWN p false 8 x) = 2 * (2 * n)) by (rewrite Z8; replace (size x) with ((2 * (2 * n)) * 2) by lia; apply Z.div_mul; lia).
      destruct (St 4 _ _ _ q2 _ S4 (Ev _ (2 * n) E8') ltac:(lra) ltac:(fold q4; lra) M8 W8 T8) as (Z4 & T4 & W4 & M4). fold q4 in W4.
      assert (E4 : size (stage (A := RA) FILTER_IIR DOWN p false 4 (stage (A := RA) FILTER_IIR DOWN p false 8 x)) = 2 * n) by (rewrite Z4, E8', Z.mul_comm; apply Z.div_mul; lia).
      destruct (St 2 _ _ _ q4 _ S2 (Ev _ n E4) ltac:(lra) ltac:(fold q8; lra) M4 W4 T4) as (_ & T2 & _).
      rewrite !map_map in T2. eapply near_more; [eapply near_ext; [|reflexivity|exact T2] | |].
      * intros k Hk. cbn beta. f_equal. lia.
      * apply Req_le. ring.
      * intros k Hk. apply Hw. lia.
Qed.

(** gain and lag of the cascade for the input frequency w *)
Definition down_gain_of (p ratio : Z) (w : R) : R :=
  (if ratio =? 1 then 1 else if ratio =? 2 then cos (half_diff (cs_of p 2) w)
   else if ratio =? 4 then cos (half_diff (cs_of p 4) w) * cos (half_diff (cs_of p 2) (2 * w))
   else cos (half_diff (cs_of p 8) w) * cos (half_diff (cs_of p 4) (2 * w)) * cos (half_diff (cs_of p 2) (4 * w)))%R.
Definition down_shift (p ratio : Z) (w : R) : R :=
  (if ratio =? 1 then 0 else if ratio =? 2 then mean_lag (cs_of p 2) w - w
   else if ratio =? 4 then mean_lag (cs_of p 4) w - w + (mean_lag (cs_of p 2) (2 * w) - 2 * w)
   else mean_lag (cs_of p 8) w - w + (mean_lag (cs_of p 4) (2 * w) - 2 * w) + (mean_lag (cs_of p 2) (4 * w) - 4 * w))%R.
Lemma downs_eq p ratio amp w ph : ratio = 1 \/ ratio = 2 \/ ratio = 4 \/ ratio = 8 ->
  downs p ratio (Wave amp w ph) = Wave (amp * down_gain_of p ratio w) (IZR ratio * w) (ph - down_shift p ratio w).
Proof.
  intros [->|[->|[->| ->]]]; unfold downs, down_gain_of, down_shift, down_wave; cbn [Z.eqb Pos.eqb w_amp w_freq w_phase]; cbv zeta; cbn [w_amp w_freq w_phase].
  - f_equal; ring.
  - reflexivity.
  - f_equal; ring.
  - replace (2 * (2 * w))%R with (4 * w)%R by ring. f_equal; ring.
Qed.

Lemma cos_abs_1 x : (Rabs (cos x) <= 1)%R.
Proof. pose proof (COS_bound x). apply Rabs_le. lra. Qed.
Lemma down_gain_abs p ratio w : (Rabs (down_gain_of p ratio w) <= 1)%R.
Proof.
  assert (M : forall a b, (Rabs a <= 1 -> Rabs b <= 1 -> Rabs (a * b) <= 1)%R).
  { intros a b Ha Hb. rewrite Rabs_mult. pose proof (Rabs_pos a). pose proof (Rabs_pos b). nra. }
  unfold down_gain_of. destruct (ratio =? 1); [rewrite Rabs_R1; lra|]. destruct (ratio =? 2); [apply cos_abs_1|].
  destruct (ratio =? 4); repeat apply M; apply cos_abs_1.
Qed.
(** the square of the error of a stage, and a bit more *)
Definition iir_down_factor (ratio : Z) : R := (if ratio =? 1 then 0 else if ratio =? 2 then 1 else if ratio =? 4 then 1.62 else 2.21)%R.
Lemma down_pass p ratio w : valid FILTER_IIR ratio p -> (Rabs (IZR ratio * w) <= iband)%R ->
  (0 <= 1 - down_gain_of p ratio w <= iir_down_factor ratio * (iir_error p * iir_error p))%R.
Proof.
  intros [Hra HT] Hw.
  assert (S2 : stage_no 2) by (unfold stage_no; auto). assert (S4 : stage_no 4) by (unfold stage_no; auto).
  assert (S8 : stage_no 8) by (unfold stage_no; auto).
  destruct Hra as [->|Hra]; [unfold down_gain_of, iir_down_factor; cbn [Z.eqb Pos.eqb]; lra|].
  assert (HP : iir_prec p) by (apply HT; lia). clear HT. destruct (iir_error_eps p HP) as ((E2 & E4 & E8 & _) & E0 & E1).
  destruct (iedge_band (IZR ratio * w / 2)) as ((B2 & B4 & B8) & (P2 & P4 & P8)).
  { unfold Rdiv at 1. rewrite Rabs_mult, (Rabs_pos_eq (/ 2)) by lra. lra. }
  pose proof (iir_eps_range 2 p S2 HP) as N2. pose proof (iir_eps_range 4 p S4 HP) as N4. pose proof (iir_eps_range 8 p S8 HP) as N8.
  pose proof (half_diff_cos 2 p S2 HP _ B2 P2) as C2. pose proof (half_diff_cos 4 p S4 HP _ B4 P4) as C4. pose proof (half_diff_cos 8 p S8 HP _ B8 P8) as C8.
  set (e2 := iir_eps 2 p) in *. set (e4 := iir_eps 4 p) in *. set (e8 := iir_eps 8 p) in *. set (e := iir_error p) in *. clearbody e2 e4 e8 e.
  assert (Q2 : (e2 * e2 <= e * e)%R) by nra. assert (Q4 : (e4 * e4 <= 0.614 * (e * e))%R) by nra. assert (Q8 : (e8 * e8 <= 0.59 * (e * e))%R) by nra.
  assert (EE : (0 <= e * e <= 0.0001)%R) by nra.
  assert (M : forall a b x y, (0 <= 1 - a <= x -> 0 <= 1 - b <= y -> y <= 1 -> 0 <= 1 - a * b <= x + y)%R) by (intros; nra).
  destruct Hra as [->|[->| ->]]; unfold down_gain_of, iir_down_factor; cbn [Z.eqb Pos.eqb].
  - replace (2 * w / 2)%R with w in C2 by lra. fold (cs_of p 2) in C2. lra.
  - replace (4 * w / 2 / 2)%R with w in C4 by lra. replace (4 * w / 2)%R with (2 * w)%R in C2 by lra. fold (cs_of p 2) in C2. fold (cs_of p 4) in C4.
    pose proof (M _ _ _ _ C4 C2 ltac:(lra)). lra.
  - replace (8 * w / 2 / 4)%R with w in C8 by lra. replace (8 * w / 2 / 2)%R with (2 * w)%R in C4 by lra. replace (8 * w / 2)%R with (4 * w)%R in C2 by lra.
    fold (cs_of p 2) in C2. fold (cs_of p 4) in C4. fold (cs_of p 8) in C8.
    pose proof (M _ _ _ _ (M _ _ _ _ C8 C4 ltac:(lra)) C2 ltac:(lra)). lra.
Qed.
Lemma down_stop p ratio w k : valid FILTER_IIR ratio p -> (Rabs (IZR ratio * w - 2 * PI * IZR k) <= iband)%R -> k mod ratio <> 0 ->
  (Rabs (down_gain_of p ratio w) <= iir_error p)%R.
Proof.
  intros [Hra HT] Hw Hk.
  assert (S2 : stage_no 2) by (unfold stage_no; auto). assert (S4 : stage_no 4) by (unfold stage_no; auto).
  assert (S8 : stage_no 8) by (unfold stage_no; auto).
  destruct Hra as [->|Hra]; [rewrite Z.mod_1_r in Hk; congruence|].
  assert (HP : iir_prec p) by (apply HT; lia). clear HT. destruct (iir_error_eps p HP) as ((E2 & E4 & E8 & _) & E0 & E1).
  set (u := ((IZR ratio * w - 2 * PI * IZR k) / 2)%R).
  destruct (iedge_band u) as ((B2 & B4 & B8) & _).
  { unfold u, Rdiv at 1. rewrite Rabs_mult, (Rabs_pos_eq (/ 2)) by lra. lra. }
  pose proof (half_diff_small 2 p _ S2 HP B2) as C2. pose proof (half_diff_small 4 p _ S4 HP B4) as C4. pose proof (half_diff_small 8 p _ S8 HP B8) as C8.
  fold (cs_of p 2) in C2. fold (cs_of p 4) in C4. fold (cs_of p 8) in C8.
  assert (G : forall s g b j, Z.even j = false -> g = (u / b + IZR j * PI)%R -> (Rabs (sin (half_diff (cs_of p s) (u / b))) <= iir_eps s p -> Rabs (cos (half_diff (cs_of p s) g)) <= iir_eps s p)%R).
  { intros s g b j Hj -> H. now rewrite half_diff_odd. }
  assert (M1 : forall a b e, (Rabs a <= e -> Rabs b <= 1 -> Rabs (a * b) <= e)%R).
  { intros a b e Ha Hb. rewrite Rabs_mult. pose proof (Rabs_pos a). pose proof (Rabs_pos b). nra. }
  assert (M2 : forall a b e, (Rabs a <= 1 -> Rabs b <= e -> Rabs (a * b) <= e)%R) by (intros a b e Ha Hb; rewrite Rmult_comm; now apply M1).
  assert (M3 : forall a b, (Rabs a <= 1 -> Rabs b <= 1 -> Rabs (a * b) <= 1)%R) by (intros a b Ha Hb; now apply M1).
  replace u with (u / 1)%R in C2 at 1 by lra.
  destruct Hra as [->|[->| ->]]; unfold down_gain_of; cbn [Z.eqb Pos.eqb].
  - assert (Ev : Z.even k = false) by (rewrite Zmod_even in Hk; destruct (Z.even k); congruence).
    eapply Rle_trans; [apply (G 2 w 1%R k Ev); [unfold u; lra | exact C2] | lra].
  - destruct (Z.even k) eqn:Ev.
    + apply Z.even_spec in Ev. destruct Ev as [k2 Ek].
      assert (Ev2 : Z.even k2 = false).
      { destruct (Z.even k2) eqn:Ev2; [|reflexivity]. apply Z.even_spec in Ev2. destruct Ev2 as [k3 ->]. exfalso. apply Hk. rewrite Ek.
        replace (2 * (2 * k3)) with (k3 * 4) by lia. apply Z.mod_mul. lia. }
      apply M1; [|apply cos_abs_1]. eapply Rle_trans; [apply (G 4 w 2%R k2 Ev2); [unfold u; rewrite Ek, mult_IZR; lra | exact C4] | lra].
    + apply M2; [apply cos_abs_1|]. eapply Rle_trans; [apply (G 2 (2 * w)%R 1%R k Ev); [unfold u; lra | exact C2] | lra].
  - destruct (Z.even k) eqn:Ev.
    + apply Z.even_spec in Ev. destruct Ev as [k2 Ek]. destruct (Z.even k2) eqn:Ev2.
      * apply Z.even_spec in Ev2. destruct Ev2 as [k4 Ek4].
        assert (Ev4 : Z.even k4 = false).
        { destruct (Z.even k4) eqn:Ev4; [|reflexivity]. apply Z.even_spec in Ev4. destruct Ev4 as [k3 ->]. exfalso. apply Hk. rewrite Ek, Ek4.
          replace (2 * (2 * (2 * k3))) with (k3 * 8) by lia. apply Z.mod_mul. lia. }
        apply M1; [|apply cos_abs_1]. apply M1; [|apply cos_abs_1].
        eapply Rle_trans; [apply (G 8 w 4%R k4 Ev4); [unfold u; rewrite Ek, Ek4, !mult_IZR; lra | exact C8] | lra].
      * apply M1; [|apply cos_abs_1]. apply M2; [apply cos_abs_1|].
        eapply Rle_trans; [apply (G 4 (2 * w)%R 2%R k2 Ev2); [unfold u; rewrite Ek, mult_IZR; lra | exact C4] | lra].
    + apply M2; [apply M3; apply cos_abs_1|]. eapply Rle_trans; [apply (G 2 (4 * w)%R 1%R k Ev); [unfold u; lra | exact C2] | lra].
Qed.
