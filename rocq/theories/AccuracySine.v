(** * Test signals of the accuracy test: the output is close to what is expected *)
From Coq Require Import ZArith Reals List Lia Lra Bool ZifyNat ZifyBool.
From Flocq Require Import Core BinarySingleNaN.
From Interval Require Import Tactic.
From Verif Require Import Arith ArithR ArithF Mem FirModel IirModel Tables ResamplerModel Wp Stage Cascade
  ResamplerProof ResamplerOk Spec SpecOk SpecR Client Feed StreamFacts DelayFacts ConfigFacts TablesF TableFacts FirReal FreqFir Tones
  FloatComm FloatSum FloatFir FloatErr Cases PropsStream PropsFir PropsFreq TonesProof PropsTones PropsFloat FloatFreq PropsFloatFreq PropsFloatTones AccuracyModel AccuracyProof.
Import ListNotations.
Open Scope Z_scope.

(** frequencies that are kept, and frequencies that are removed, in Hz *)
Definition kept (rt : resample_type) (freq : R) : Prop := (0 <= freq <= if downs_first rt then 9000 else 18000)%R.
Definition removed (rt : resample_type) (freq : R) : Prop := downs_first rt = true /\ (13050 <= freq <= 31050)%R.
Definition covered (rt : resample_type) (freq : R) : Prop := kept rt freq \/ removed rt freq.

(** largest difference *)
Definition exact_bound (rt : resample_type) (p : Z) (freq : R) : R :=
  match rt with
  | RES_UPSAMPLE => error_of p
  | RES_DOWNSAMPLE => if Rlt_dec freq 11025 then 0.5 * error_of p else error_of p
  | RES_OVERSAMPLE => 1.003 * error_of p
  | RES_SUBSAMPLE => if Rlt_dec freq 11025 then 1.503 * error_of p else 1.015 * error_of p
  end%R.

Definition tone (freq : R) (lo : Z) : wav := Wav 1 (omega freq) (- (omega freq * IZR lo)).
Lemma tone_at freq lo k : total [tone freq lo] k = sin (omega freq * IZR (k - lo)).
Proof. cbn [total tone]. unfold at_. cbn [tone w_amp w_frq w_ph]. rewrite minus_IZR, Rmult_1_l, Rplus_0_r. f_equal. ring. Qed.
Lemma tone_sines freq lo t : sines [tone freq lo] t = sin (omega freq * (t - IZR lo)).
Proof. cbn [sines tone w_amp w_frq w_ph]. rewrite Rmult_1_l, Rplus_0_r. f_equal. ring. Qed.
Lemma tone_mass freq lo : mass [tone freq lo] = 1%R.
Proof. cbn [mass tone w_amp]. rewrite Rabs_R1. lra. Qed.

(** the whole chain in exact arithmetic *)
Definition exact_of (rt : resample_type) (p : Z) (x : list RA) : list RA :=
  match rt with
  | RES_UPSAMPLE => resample FILTER_FIR UP p false 2 x
  | RES_DOWNSAMPLE => resample FILTER_FIR DOWN p false 2 x
  | RES_OVERSAMPLE => resample FILTER_FIR DOWN p false 2 (resample FILTER_FIR UP p false 2 x)
  | RES_SUBSAMPLE => resample FILTER_FIR UP p false 2 (resample FILTER_FIR DOWN p false 2 x)
  end.

Lemma kept_omega freq F : (0 <= freq <= F)%R -> (Rabs (omega freq) <= F / 44100 * 2 * PI)%R.
Proof.
  intros H. unfold omega. pose proof PI_RGT_0 as P. assert (0 <= freq / 44100)%R by lra. assert (0 <= freq / 44100 * 2 * PI)%R by (apply Rmult_le_pos; lra).
  rewrite Rabs_pos_eq by assumption. apply Rmult_le_compat_r; lra.
Qed.
Lemma kept_volume rt freq : kept rt freq -> vol rt freq = 1%R.
Proof. unfold kept, vol, volume. destruct (downs_first rt); [|reflexivity]. intros H. destruct (Rlt_dec freq 11025); [reflexivity | lra]. Qed.
Lemma removed_volume rt freq : removed rt freq -> vol rt freq = 0%R.
Proof. unfold removed, vol, volume. intros [-> H]. destruct (Rlt_dec freq 11025); [lra | reflexivity]. Qed.
Lemma removed_stopped rt freq lo : removed rt freq -> stopped 2 (tone freq lo).
Proof.
  intros [_ H]. exists 1. split; [|discriminate]. unfold band, tone, omega. cbn [w_frq]. pose proof PI_RGT_0 as P. apply Rabs_le.
  replace (2 * (freq / 44100 * 2 * PI) - 2 * PI * 1)%R with ((4 * freq / 44100 - 2) * PI)%R by field. replace (2 * PI * 18000 / 44100)%R with (36000 / 44100 * PI)%R by field.
  rewrite Ropp_mult_distr_l. split; apply Rmult_le_compat_r; lra.
Qed.

Lemma close_eq (a b c e : R) : (Rabs (a - b) <= e -> b = c -> Rabs (a - c) <= e)%R.
Proof. intros H ->. exact H. Qed.

Lemma delays2 p : fir_delay8 UP 2 p = 8 * (fir_len 2 p - 1) /\ fir_delay8 DOWN 2 p = 4 * (fir_len 2 p - 1).
Proof. split; reflexivity. Qed.

Lemma exact_close rt p freq (x : list RA) lo k : hq_prec p -> covered rt freq -> is_sum x lo [tone freq lo] -> (downs_first rt = true -> lo mod 2 = 0) ->
  4 * fir_len 2 p < k -> size (exact_of rt p x) = outn rt (size x) -> outn rt lo + k < size (exact_of rt p x) ->
  (Rabs (smp (exact_of rt p x) (outn rt lo + k) - correct rt p freq k) <= exact_bound rt p freq)%R.
Proof.
  intros HQ HC HX Hev Hk HS Hj. set (j := outn rt lo + k) in *. set (N := fir_len 2 p) in *.
  pose proof (error_ge0 p) as E0.
  assert (LO : 0 <= lo) by (destruct HX; assumption).
  assert (V : forall N : Prop, (2 = 1 \/ 2 = 2 \/ 2 = 4 \/ 2 = 8)) by (intros; lia). specialize (V True).
  assert (HQ' : 2 <> 1 -> hq_prec p) by auto.
  destruct (delays2 p) as [DU DD]. fold N in DU, DD.
  assert (N1 : 1 <= N) by (unfold N; destruct HQ as [->|[->|[->|[->| ->]]]]; vm_compute; discriminate).
  pose proof (tone_mass freq lo) as TM.
  assert (B1 : downs_first rt = false -> Forall (fun u => Rabs (w_frq u) <= band)%R [tone freq lo] /\ kept rt freq).
  { intros E. destruct HC as [H|[H _]]; [|congruence]. split; [|exact H]. constructor; [|constructor]. cbn [tone w_frq]. unfold kept in H. rewrite E in H.
    eapply Rle_trans; [apply kept_omega, H|]. unfold band. right. field. }
  assert (B2 : downs_first rt = true -> kept rt freq -> Forall (passed 2) [tone freq lo]).
  { intros E H. constructor; [|constructor]. unfold passed. cbn [tone w_frq]. unfold kept in H. rewrite E in H. rewrite Rabs_mult, (Rabs_pos_eq 2) by lra.
    pose proof (kept_omega freq 9000 H). unfold band. replace (2 * PI * 18000 / 44100)%R with (2 * (9000 / 44100 * 2 * PI))%R by field. lra. }
  assert (B3 : removed rt freq -> Forall (stopped 2) [tone freq lo]).
  { intros H. constructor; [|constructor]. eapply removed_stopped, H. }
  assert (FK : kept rt freq -> downs_first rt = true -> (freq < 11025)%R) by (unfold kept; intros H E; rewrite E in H; lra).
  assert (FR : removed rt freq -> ~ (freq < 11025)%R) by (unfold removed; intros [_ H]; lra).
  assert (HV : kept rt freq -> vol rt freq = 1%R) by apply kept_volume. assert (HV0 : removed rt freq -> vol rt freq = 0%R) by apply removed_volume.
  unfold correct, exact_bound. unfold outn, exact_of in *. unfold factor, shift. destruct rt; cbn [downs_first] in *.
  - (* down *)
    specialize (Hev eq_refl). assert (L2 : lo = 2 * (lo / 2)) by (pose proof (Z.div_mod lo 2 ltac:(lia)); lia).
    assert (EL : (IZR lo = 2 * IZR (lo / 2))%R) by (rewrite <- mult_IZR; now f_equal).
    destruct HC as [HC|HC].
    + rewrite (HV HC). destruct (Rlt_dec freq 11025) as [_|n]; [|exfalso; apply n; now apply FK].
      rewrite <- (app_nil_r [tone freq lo]) in HX.
      pose proof (down_kept p 2 x lo [tone freq lo] [] j V HQ' HX (B2 eq_refl HC) (List.Forall_nil _) ltac:(lia) Hj) as Q.
      rewrite TM in Q. cbn [mass] in Q. unfold down_factor in Q. cbn [Z.eqb Pos.eqb] in Q.
      eapply Rle_trans; [apply (close_eq _ _ _ _ Q)|lra]. rewrite tone_sines. unfold j. rewrite plus_IZR, EL, Rmult_1_r. f_equal. ring.
    + rewrite (HV0 HC). destruct (Rlt_dec freq 11025) as [l|_]; [exfalso; now apply FR|].
      pose proof (down_kept p 2 x lo [] [tone freq lo] j V HQ' HX (List.Forall_nil _) (B3 HC) ltac:(lia) Hj) as Q.
      rewrite TM in Q. cbn [mass sines] in Q. eapply Rle_trans; [apply (close_eq _ _ _ _ Q)|lra]. ring.
  - (* up *)
    destruct (B1 eq_refl) as [B HK]. rewrite (HV HK).
    pose proof (sum_up p 2 x lo [tone freq lo] j V HQ' HX B) as Q. cbn zeta in Q. specialize (Q ltac:(lia) Hj). rewrite TM, tone_sines in Q.
    unfold up_factor in Q. cbn [Z.eqb Pos.eqb] in Q. eapply Rle_trans; [apply (close_eq _ _ _ _ Q)|lra]. rewrite Rmult_1_r. f_equal. unfold j. rewrite plus_IZR, mult_IZR. field.
  - (* down, up *)
    specialize (Hev eq_refl). assert (L2 : lo = 2 * (lo / 2)) by (pose proof (Z.div_mod lo 2 ltac:(lia)); lia).
    assert (Q1 : 4 * lo + 2 * fir_delay8 DOWN 2 p <= 4 * 2 * (lo / 2 + N)) by lia.
    assert (Q2 : 4 * 2 * (lo / 2 + N) + fir_delay8 UP 2 p <= 4 * j) by lia.
    destruct HC as [HC|HC].
    + rewrite (HV HC). destruct (Rlt_dec freq 11025) as [_|n]; [|exfalso; apply n; now apply FK].
      rewrite <- (app_nil_r [tone freq lo]) in HX.
      pose proof (down_up p 2 x lo [tone freq lo] [] (lo / 2 + N) j V HQ' HX (B2 eq_refl HC) (List.Forall_nil _) Q1 Q2 Hj) as Q. cbn zeta in Q.
      rewrite TM, tone_sines in Q. cbn [mass] in Q. unfold sub_factor in Q. cbn [Z.eqb Pos.eqb] in Q.
      eapply Rle_trans; [apply (close_eq _ _ _ _ Q)|lra]. unfold j. rewrite plus_IZR, Rmult_1_r. f_equal. ring.
    + rewrite (HV0 HC). destruct (Rlt_dec freq 11025) as [l|_]; [exfalso; now apply FR|].
      pose proof (down_up p 2 x lo [] [tone freq lo] (lo / 2 + N) j V HQ' HX (List.Forall_nil _) (B3 HC) Q1 Q2 Hj) as Q. cbn zeta in Q.
      rewrite TM in Q. cbn [mass sines] in Q. eapply Rle_trans; [apply (close_eq _ _ _ _ Q)|lra]. ring.
  - (* up, down *)
    destruct (B1 eq_refl) as [B HK]. rewrite (HV HK).
    pose proof (trip p 2 x lo [tone freq lo] j V HQ' HX B) as Q. cbn zeta in Q. specialize (Q ltac:(lia) ltac:(rewrite HS in Hj; exact Hj)). rewrite TM, tone_sines in Q.
    unfold over_factor in Q. cbn [Z.eqb Pos.eqb] in Q. eapply Rle_trans; [apply (close_eq _ _ _ _ Q)|lra]. rewrite Rmult_1_r. f_equal. unfold j. rewrite plus_IZR. field.
Qed.

(** ** Largest differences *)
Definition up_to (E : R) (d : xdouble) : Prop := exists v, d = Fin v /\ (0 <= v <= E)%R.
Lemma up_to_max E mx v c : up_to E mx -> (Rabs (v - c) <= E)%R -> up_to E (xmax mx (xsub (Fin v) c)).
Proof.
  intros (u & -> & Hu) H. cbn [xsub]. unfold xmax. cbn [xlt]. destruct (Rlt_dec u (v - c)).
  - exists (v - c)%R. split; [reflexivity|]. pose proof (Rle_abs (v - c)). lra.
  - exists u. auto.
Qed.
Lemma up_to_0 E : (0 <= E)%R -> up_to E (Fin 0).
Proof. intros. exists 0%R. split; [reflexivity | lra]. Qed.
Lemma up_to_db E d thr : up_to E d -> (E <= Rpower 10 (thr / 20))%R -> db_above d thr = false.
Proof.
  intros (v & -> & Hv) HE. cbn [db_above]. destruct (Rlt_dec 0 v) as [L|]; [|reflexivity]. destruct (Rlt_dec thr (20 * ln v / ln 10)) as [L2|]; [|reflexivity]. exfalso.
  assert (L10 : (0 < ln 10)%R) by (rewrite <- ln_1; apply ln_increasing; lra).
  assert (H : (ln v <= thr / 20 * ln 10)%R).
  { assert (V : (v <= exp (thr / 20 * ln 10))%R) by (unfold Rpower in HE; lra). rewrite <- (ln_exp (thr / 20 * ln 10)).
    destruct V as [V|V]; [left; now apply ln_increasing | right; now f_equal]. }
  assert ((20 * ln v / ln 10) * ln 10 <= thr * ln 10)%R by (replace (20 * ln v / ln 10 * ln 10)%R with (20 * ln v)%R by (field; lra); lra).
  assert (thr * ln 10 < (20 * ln v / ln 10) * ln 10)%R by (apply Rmult_lt_compat_r; assumption). lra.
Qed.

(** ** Exact arithmetic *)
Lemma exact_streams plat rt idu idd p use_sse st (m : mem RA) x y : reach plat st m -> streams plat rt idu idd p use_sse st x y -> y = exact_of rt p x.
Proof.
  intros H (ou & od & Eu & Ed & Ru & Rd & S). pose proof (reach_R plat _ _ _ _ H Eu) as Xu. pose proof (reach_R plat _ _ _ _ H Ed) as Xd.
  cbn zeta in *. rewrite Ru in Xu. rewrite Rd in Xd. cbn [built r_filter r_mode r_prec r_ratio] in *. unfold exact_of. destruct rt.
  - destruct S as [<- <-]. exact Xd.
  - destruct S as [<- <-]. exact Xu.
  - destruct S as (<- & E & <-). now rewrite Xu, E, Xd.
  - destruct S as (<- & E & <-). now rewrite Xd, E, Xu.
Qed.

(** every sample that is looked at is within E of the expected value *)
Definition values_close {A : arith} plat (to_float : R -> A) (to_double : A -> xdouble) rt idu idd p use_sse (E freq : R) : Prop := forall st (m : mem A) x y lo k,
  reach plat st m -> streams plat rt idu idd p use_sse st x y -> all_sin to_float x -> 0 <= lo <= size x -> (downs_first rt = true -> lo mod 2 = 0) -> tail_sin to_float freq x lo ->
  4 * fir_len 2 p < k -> outn rt lo + k < size y ->
  exists r, to_double (smp y (outn rt lo + k)) = Fin r /\ (Rabs (r - correct rt p freq k) <= E)%R.
Lemma close_good {A : arith} plat (to_float : R -> A) to_double rt idu idd p use_sse E freq :
  values_close plat to_float to_double rt idu idd p use_sse E freq -> looks_good plat to_float to_double rt idu idd p use_sse (up_to E) freq.
Proof.
  intros HV st m x y lo k mx H S HX Hlo Hev HT Hk Hj HG. destruct (HV st m x y lo k H S HX Hlo Hev HT Hk Hj) as (r & -> & B). now apply up_to_max.
Qed.

Lemma exact_value plat rt idu idd p use_sse freq E : hq_prec p -> covered rt freq -> (exact_bound rt p freq <= E)%R ->
  values_close (A := RA) plat (fun r => r) Fin rt idu idd p use_sse E freq.
Proof.
  intros HQ HC HE st m x y lo k H S _ Hlo Hev HT Hk Hj. eexists. split; [reflexivity|]. eapply Rle_trans; [|exact HE].
  destruct (streams_size plat rt idu idd p use_sse st m x y H S) as [Sy _]. pose proof (exact_streams plat rt idu idd p use_sse st m x y H S) as Ey. subst y.
  apply exact_close; try assumption. split; [lia|]. intros i Hi. rewrite tone_at. now apply HT.
Qed.
Lemma exact_good plat rt idu idd p use_sse freq E : hq_prec p -> covered rt freq -> (exact_bound rt p freq <= E)%R ->
  looks_good (A := RA) plat (fun r => r) Fin rt idu idd p use_sse (up_to E) freq.
Proof. intros HQ HC HE. apply close_good. now apply exact_value. Qed.

(** ** Single precision *)
Definition b32_double (v : F32) : xdouble :=
  match (v : b32) with B754_nan => NaN | B754_infinity s => if s then MInf else PInf | _ => Fin (B2R (v : b32)) end.
Lemma b32_double_fin v : is_finite (v : b32) = true -> b32_double v = Fin (B2R (v : b32)).
Proof. unfold b32_double. destruct v; try reflexivity; discriminate. Qed.

Definition ulp1 : R := (/ 2 ^ 24 + / 2 ^ 50)%R.
Definition float_noise (rt : resample_type) (p : Z) : R :=
  match rt with
  | RES_UPSAMPLE => noise_rel UP 2 p 1 ulp1
  | RES_DOWNSAMPLE => noise_rel DOWN 2 p 1 ulp1
  | RES_OVERSAMPLE => trip_noise UP DOWN 2 p
  | RES_SUBSAMPLE => trip_noise DOWN UP 2 p
  end%R.

Lemma round_sin v : is_finite (b32_round (sin v)) = true /\ (Rabs (B2R (b32_round (sin v))) <= 1)%R /\
  (Rabs (B2R (b32_round (sin v)) - sin v) <= / 2 ^ 24 * 1 + / 2 ^ 150)%R.
Proof.
  assert (S : (Rabs (sin v) <= 1)%R) by (pose proof (SIN_bound v); apply Rabs_le; lra).
  destruct (b32_round_ok (sin v)) as [F E]; [eapply Rle_trans; [exact S | apply pow_R1_Rle; lra]|]. split; [exact F|]. split.
  - rewrite E. apply abs_round_le_generic; [apply FLT_exp_valid; reflexivity | apply valid_rnd_N | | exact S].
    change 1%R with (bpow radix2 0). apply generic_format_bpow. unfold FLT_exp. lia.
  - destruct (rounded_near (tab (A := F32) 1 (fun _ => b32_round (sin v) : F32)) (fun _ => sin v) 1) with (k := 0) as [_ Q].
    + intros k Hk. exact S.
    + intros k Hk. rewrite size_tab in Hk by lia. rewrite smp_tab by lia. split; assumption.
    + rewrite size_tab; lia.
    + rewrite smp_tab in Q by lia. exact Q.
Qed.

Lemma noise_up (r : resampler) : r_ratio r = 2 -> (noise r 1 (/ 2 ^ 24 * 1 + / 2 ^ 150) <= noise_rel (r_mode r) 2 (r_prec r) 1 ulp1)%R.
Proof.
  intros E. pose proof (noise_scale r 1 ulp1 1 (/ 2 ^ 24 * 1 + / 2 ^ 150)) as Q. rewrite !Rmult_1_r, E in Q. rewrite Rmult_1_r. apply Q; [lra | |].
  - apply Rinv_le_contravar; [apply pow_lt; lra | apply Rle_pow; [lra | lia]].
  - unfold ulp1. apply Rplus_le_compat_l. apply Rinv_le_contravar; [apply pow_lt; lra | apply Rle_pow; [lra | lia]].
Qed.

Lemma float_value plat rt idu idd p use_sse freq E : hq_prec p -> covered rt freq -> (exact_bound rt p freq + float_noise rt p <= E)%R ->
  values_close (A := F32) plat (fun r => b32_round r : F32) b32_double rt idu idd p use_sse E freq.
Proof.
  intros HQ HC HE st m x y lo k H S HX Hlo Hev HT Hk Hj.
  destruct (streams_size plat rt idu idd p use_sse st m x y H S) as [Sy _].
  set (f := fun i => (if i <? lo then B2R (smp x i : b32) else sin (omega freq * IZR (i - lo)))%R).
  set (d := (/ 2 ^ 24 * 1 + / 2 ^ 150)%R).
  assert (Hd : (0 <= d <= 1)%R) by (unfold d; split; [assert (0 < / 2 ^ 24)%R by (apply Rinv_0_lt_compat, pow_lt; lra); assert (0 < / 2 ^ 150)%R by (apply Rinv_0_lt_compat, pow_lt; lra); lra|];
    pose proof (rounding_room 1) as Q; apply Q; rewrite <- Rinv_1; apply Rinv_le_contravar; [lra | apply pow_R1_Rle; lra]).
  assert (HF : forall i, 0 <= i < size x -> (Rabs (f i) <= 1)%R).
  { intros i Hi. unfold f. destruct (Z.ltb_spec i lo).
    - destruct (HX i Hi) as [v ->]. apply round_sin.
    - pose proof (SIN_bound (omega freq * IZR (i - lo))). apply Rabs_le. lra. }
  assert (NX : near_signal x f d).
  { intros i Hi. unfold f. destruct (Z.ltb_spec i lo).
    - destruct (HX i Hi) as [v Ev]. split; [rewrite Ev; apply round_sin|]. rewrite Rminus_diag_eq, Rabs_R0 by reflexivity. apply Hd.
    - rewrite (HT i) by lia. split; apply round_sin. }
  assert (TS : forall x' : list RA, size x' = size x -> (forall i, 0 <= i < size x -> smp x' i = f i) -> is_sum x' lo [tone freq lo]).
  { intros x' Sx Hx. split; [lia|]. intros i Hi. rewrite tone_at, Hx by lia. unfold f. destruct (Z.ltb_spec i lo); [lia | reflexivity]. }
  assert (R109 : (1 + d <= 2 ^ 109)%R) by (assert (1 + d <= 2)%R by lra; assert (2 <= 2 ^ 109)%R by (rewrite (pow_IZR 2 109); apply IZR_le; lia); lra).
  assert (OUT : 0 <= outn rt lo) by (clear - Hlo; unfold outn; destruct rt; lia).
  assert (FIN : forall (x' y' : list RA), y' = exact_of rt p x' -> size x' = size x -> size y' = size y -> (forall i, 0 <= i < size x -> smp x' i = f i) ->
     is_finite (smp y (outn rt lo + k) : b32) = true /\ (Rabs (B2R (smp y (outn rt lo + k) : b32) - smp y' (outn rt lo + k)) <= float_noise rt p)%R ->
     exists r, b32_double (smp y (outn rt lo + k)) = Fin r /\ (Rabs (r - correct rt p freq k) <= E)%R).
  { intros x' y' -> Sx' Sy' Hx' [F B]. rewrite b32_double_fin by exact F. eexists. split; [reflexivity|].
    pose proof (exact_close rt p freq x' lo k HQ HC (TS x' Sx' Hx') Hev Hk ltac:(rewrite Sy', Sx'; exact Sy) ltac:(rewrite Sy'; exact Hj)) as Q.
    eapply Rle_trans; [|exact HE]. eapply near_trans; [exact B | exact Q]. }
  assert (K0 : 0 <= outn rt lo + k).
  { assert (0 <= fir_len 2 p) by (unfold fir_len; destruct (fir_table 2 p); lia). lia. }
  destruct S as (ou & od & Eu & Ed & Ru & Rd & S).
  assert (U2 : forall id, r_ratio (built plat id UP 2 p use_sse FILTER_FIR) = 2) by reflexivity.
  pose proof (fun q => noise_up (built plat idu UP 2 p use_sse FILTER_FIR) q) as NU. specialize (NU eq_refl).
  pose proof (fun q => noise_up (built plat idd DOWN 2 p use_sse FILTER_FIR) q) as ND. specialize (ND eq_refl).
  assert (M100 : (/ 2 ^ 100 <= 1)%R) by (rewrite <- Rinv_1; apply Rinv_le_contravar; [lra | apply pow_R1_Rle; lra]).
  assert (P100 : (1 <= 2 ^ 100)%R) by (apply pow_R1_Rle; lra).
  cbn [built r_mode r_prec] in NU, ND. fold d in NU, ND.
  destruct rt.
  - destruct S as [Ex Ey]. subst x y.
    destruct (transfer plat _ _ _ _ f 1 d H Ed ltac:(rewrite Rd; reflexivity) (proj1 Hd) R109 HF NX) as (st' & m' & o' & H' & E' & Er & Si & So & T & G).
    pose proof (reach_R plat _ _ _ _ H' E') as XR. cbn zeta in XR. rewrite Er, Rd in XR. cbn [built r_filter r_mode r_prec r_ratio] in XR.
    apply (FIN (o_in o') (o_out o') XR Si So T). destruct (G _ (conj K0 Hj)) as [F B]. split; [exact F|]. eapply Rle_trans; [exact B|]. rewrite Rd. exact ND.
  - destruct S as [Ex Ey]. subst x y.
    destruct (transfer plat _ _ _ _ f 1 d H Eu ltac:(rewrite Ru; reflexivity) (proj1 Hd) R109 HF NX) as (st' & m' & o' & H' & E' & Er & Si & So & T & G).
    pose proof (reach_R plat _ _ _ _ H' E') as XR. cbn zeta in XR. rewrite Er, Ru in XR. cbn [built r_filter r_mode r_prec r_ratio] in XR.
    apply (FIN (o_in o') (o_out o') XR Si So T). destruct (G _ (conj K0 Hj)) as [F B]. split; [exact F|]. eapply Rle_trans; [exact B|]. rewrite Ru. exact NU.
  - destruct S as (Ex & Em & Ey). subst x y.
    destruct (transfer2 plat st m idd od plat st m idu ou f 1 d H Ed H Eu ltac:(rewrite Rd; reflexivity) ltac:(rewrite Ru; reflexivity) Em (proj1 Hd) ltac:(lra) R109
      (noise_small _ _ _ Hd P100) HF NX) as (st1 & m1 & o1 & st2 & m2 & o2 & H1 & E1 & H2 & E2 & Er1 & Er2 & Si & So & Ex' & T & G).
    pose proof (reach_R plat _ _ _ _ H1 E1) as X1. pose proof (reach_R plat _ _ _ _ H2 E2) as X2. cbn zeta in X1, X2. rewrite Er1, Rd in X1. rewrite Er2, Ru in X2.
    cbn [built r_filter r_mode r_prec r_ratio] in X1, X2. rewrite Ex', X1 in X2.
    apply (FIN (o_in o1) (o_out o2) X2 Si So T). destruct (G _ (conj K0 Hj)) as [F B]. split; [exact F|]. eapply Rle_trans; [exact B|]. rewrite Rd, Ru.
    pose proof (trip_scale (built plat idd DOWN 2 p use_sse FILTER_FIR) (built plat idu UP 2 p use_sse FILTER_FIR) 1 eq_refl eq_refl M100) as Q.
    rewrite (Rmult_1_r (trip_noise _ _ _ _)) in Q. exact Q.
  - destruct S as (Ex & Em & Ey). subst x y.
    destruct (transfer2 plat st m idu ou plat st m idd od f 1 d H Eu H Ed ltac:(rewrite Ru; reflexivity) ltac:(rewrite Rd; reflexivity) Em (proj1 Hd) ltac:(lra) R109
      (noise_small _ _ _ Hd P100) HF NX) as (st1 & m1 & o1 & st2 & m2 & o2 & H1 & E1 & H2 & E2 & Er1 & Er2 & Si & So & Ex' & T & G).
    pose proof (reach_R plat _ _ _ _ H1 E1) as X1. pose proof (reach_R plat _ _ _ _ H2 E2) as X2. cbn zeta in X1, X2. rewrite Er1, Ru in X1. rewrite Er2, Rd in X2.
    cbn [built r_filter r_mode r_prec r_ratio] in X1, X2. rewrite Ex', X1 in X2.
    apply (FIN (o_in o1) (o_out o2) X2 Si So T). destruct (G _ (conj K0 Hj)) as [F B]. split; [exact F|]. eapply Rle_trans; [exact B|]. rewrite Rd, Ru.
    pose proof (trip_scale (built plat idu UP 2 p use_sse FILTER_FIR) (built plat idd DOWN 2 p use_sse FILTER_FIR) 1 eq_refl eq_refl M100) as Q.
    rewrite (Rmult_1_r (trip_noise _ _ _ _)) in Q. exact Q.
Qed.

Lemma float_good plat rt idu idd p use_sse freq E : hq_prec p -> covered rt freq -> (exact_bound rt p freq + float_noise rt p <= E)%R ->
  looks_good (A := F32) plat (fun r => b32_round r : F32) b32_double rt idu idd p use_sse (up_to E) freq.
Proof. intros HQ HC HE. apply close_good. now apply float_value. Qed.

(** dB that are guaranteed in single precision *)
Definition guaranteed (rt : resample_type) (p : Z) : R :=
  match rt with RES_UPSAMPLE => fir_snr UP 2 p | RES_DOWNSAMPLE => fir_snr DOWN 2 p | RES_OVERSAMPLE => over_snr 2 p | RES_SUBSAMPLE => sub_snr 2 p end.
Lemma float_numbers rt p freq : hq_prec p -> kept rt freq -> (exact_bound rt p freq + float_noise rt p <= Rpower 10 (- guaranteed rt p / 20))%R.
Proof.
  intros HQ HK.
  destruct (trip_numbers 2 p ltac:(lia) ltac:(unfold ratio_no; auto) HQ) as [T1 T2].
  pose proof (snr_numbers UP 2 p ltac:(lia) ltac:(unfold ratio_no; auto) HQ) as SU. pose proof (snr_numbers DOWN 2 p ltac:(lia) ltac:(unfold ratio_no; auto) HQ) as SD.
  assert (N : forall md, (noise_rel md 2 p 1 ulp1 <= fir_bound md 2 * (/ 2 ^ 24 + / 2 ^ 50) + (IZR (fir_units md 2 p) * / 2 ^ 24 * (1 + / 2 ^ 23) + / 2 ^ 40))%R).
  { intros md. unfold noise_rel, ulp1. apply Rplus_le_compat_l, Rplus_le_compat_r. apply Rmult_le_compat_l.
    - apply Rmult_le_pos; [|apply Rlt_le, Rinv_0_lt_compat, pow_lt; lra]. apply IZR_le. unfold fir_units, pick. destruct HQ as [->|[->|[->|[->| ->]]]], md; cbn; lia.
    - apply Rplus_le_compat_l. interval with (i_prec 60). }
  unfold exact_bound, float_noise, guaranteed. unfold up_factor, down_factor, over_factor, sub_factor in *. cbn [Z.eqb Pos.eqb] in *. unfold kept in HK.
  destruct rt; cbn [downs_first] in HK.
  - destruct (Rlt_dec freq 11025); [|lra]. pose proof (N DOWN). lra.
  - pose proof (N UP). lra.
  - destruct (Rlt_dec freq 11025); [|lra]. exact T2.
  - exact T1.
Qed.
