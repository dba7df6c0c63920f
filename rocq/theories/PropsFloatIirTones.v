(** * Properties: single precision IIR resamplers, sums of sinusoids and round trips *)
From Coq Require Import ZArith Reals List Lia Lra Psatz Bool ZifyNat ZifyBool.
From Flocq Require Import Core BinarySingleNaN Relative.
From Interval Require Import Tactic.
From Verif Require Import Arith ArithR ArithF Mem FirModel IirModel Tables ResamplerModel Wp Stage Cascade
  ResamplerProof ResamplerOk Spec SpecOk SpecR Client Feed StreamFacts DelayFacts Twin TablesF TableFacts FirReal IirReal FloatComm FloatSum FloatFir FloatErr
  Cases PropsFir PropsFloat PropsIir FloatIir FloatDrift PropsFloatIir FloatFreq PropsFloatFreq IirPhase IirCert IirLag IirFreq IirDelay IirSine IirTones PropsIirTones.
Import ListNotations.
Open Scope Z_scope.

(** ** C71 *)
(** All samples are finite and at most M; from sample n0 on they are, up to d, a sum of sinusoids. *)
Definition fplays (x : list F32) (l : list wave) (M : R) (n0 : Z) (d : R) : Prop :=
  0 <= n0 /\ (0 <= d)%R /\ (amps l <= M)%R /\ inputs_below M x /\ forall k, n0 <= k < size x -> (Rabs (B2R (smp x k : b32) - waves l k) <= d)%R.

Lemma iir_transfer_gen plat st (m : mem F32) id o (f : Z -> R) d M n n0 :
  reach plat st m -> st id = Some o ->
  let r := o_res o in let x := o_in o in let y := o_out o in
  r_filter r = FILTER_IIR -> (0 <= d)%R -> (/ 2 ^ 100 <= M <= 2 ^ 100)%R -> inputs_below M x -> long_enough plat r x n ->
  (forall k, n0 <= k < size x -> (Rabs (B2R (smp x k : b32) - f k) <= d)%R) -> (forall k, n0 <= k < size x -> (Rabs (f k) <= M)%R) ->
  exists st' (m' : mem RA) o', reach plat st' m' /\ st' id = Some o' /\ o_res o' = r /\ size (o_in o') = size x /\ size (o_out o') = size y /\
    (forall k, 0 <= k < size x -> (Rabs (smp (o_in o') k) <= M)%R) /\
    (forall k, 0 <= k -> n0 <= k < size x -> smp (o_in o') k = f k) /\
    forall j, 0 <= j < size y -> is_finite (smp y j : b32) = true /\ (Rabs (B2R (smp y j : b32) - smp (o_out o') j) <= iir_noise plat r M d n)%R.
Proof.
  intros H E r x y Hf Hd HM Hb Hn Hx HF.
  set (z := tab (A := RA) (size x) (fun k => (if k <? n0 then B2R (smp x k : b32) else f k) : RA)).
  assert (Sz : size z = size x) by (unfold z; rewrite size_tab; [reflexivity | unfold size; lia]).
  assert (Tz : forall k, 0 <= k < size x -> smp z k = (if k <? n0 then B2R (smp x k : b32) else f k)) by (intros k Hk; unfold z; now rewrite smp_tab).
  destruct (exact_twin plat _ _ _ _ z d H E Sz Hd) as (st' & m' & o' & H' & E' & Er & Ei & So & Q).
  { intros k Hk. rewrite Sz in Hk. rewrite Tz by exact Hk. destruct (Z.ltb_spec k n0).
    - fold x. rewrite Rminus_eq_0, Rabs_R0. exact Hd.
    - apply Hx. lia. }
  exists st', m', o'. split; [exact H'|]. split; [exact E'|]. split; [exact Er|]. rewrite Ei. split; [exact Sz|]. split; [exact So|]. split; [|split].
  - intros k Hk. rewrite Tz by exact Hk. destruct (Z.ltb_spec k n0); [now apply Hb | apply HF; lia].
  - intros k K0 Hk. rewrite Tz by lia. destruct (Z.ltb_spec k n0); [lia | reflexivity].
  - intros j Hj. cbn zeta in Q. fold r in Q. rewrite Hf in Q. specialize (Q j Hj). cbn [filter_bound] in Q. unfold iir_noise, long_enough in *.
    assert (Q1 : is_finite (smp y j : b32) = true /\ (Rabs (B2R (smp y j : b32) - smp (exact_iir r x) j) <=
      IZR (if vector plat FILTER_IIR (r_use_sse r) then fst (iir_units_sse (r_ratio r) (r_prec r)) + snd (iir_units_sse (r_ratio r) (r_prec r)) * n else iir_units (r_ratio r) (r_prec r)) * / 2 ^ 24 * M)%R).
    { destruct (vector plat FILTER_IIR (r_use_sse r)) eqn:Ev.
      - destruct (Hn eq_refl) as [N1 N2]. exact (C58_sse_accuracy plat _ _ _ _ M n H E Hf Ev HM Hb N1 N2 j Hj).
      - exact (C58_accuracy plat _ _ _ _ M H E Hf Ev HM Hb j Hj). }
    destruct Q1 as [F Q1]. split; [exact F|]. unfold exact_iir in Q1. fold x in Q.
    assert (Z0 : (Rabs (smp (o_out o') j - smp (o_out o') j) <= 0)%R) by (rewrite Rminus_eq_0, Rabs_R0; lra).
    pose proof (close3 _ _ _ _ _ _ _ Q1 Q Z0) as C. lra.
Qed.

Lemma iir_tones plat st (m : mem F32) id o l d M n n0 :
  reach plat st m -> st id = Some o ->
  let r := o_res o in let x := o_in o in let y := o_out o in
  r_filter r = FILTER_IIR -> (/ 2 ^ 100 <= M <= 2 ^ 100)%R -> long_enough plat r x n -> fplays x l M n0 d ->
  exists st' (m' : mem RA) o', reach plat st' m' /\ st' id = Some o' /\ o_res o' = r /\ size (o_out o') = size y /\ plays (o_in o') l M n0 /\
    forall j, 0 <= j < size y -> is_finite (smp y j : b32) = true /\ (Rabs (B2R (smp y j : b32) - smp (o_out o') j) <= iir_noise plat r M d n)%R.
Proof.
  intros H E r x y Hf HM Hn (N0 & Hd & Ha & Hb & Hx).
  destruct (iir_transfer_gen plat _ _ _ _ (waves l) d M n n0 H E Hf Hd HM Hb Hn Hx) as (st' & m' & o' & H' & E' & Er & Si & So & B & T & G).
  { intros k _. eapply Rle_trans; [apply waves_abs | exact Ha]. }
  exists st', m', o'. split; [exact H'|]. split; [exact E'|]. split; [exact Er|]. split; [exact So|]. split; [|exact G].
  unfold plays. rewrite Si. split; [exact N0|]. split; [exact Ha|]. split; [exact B|]. intros k Hk. apply T; lia.
Qed.

Lemma add_noise (v a b d e : R) : (Rabs (v - a) <= d -> Rabs (a - b) <= e -> Rabs (v - b) <= e + d)%R.
Proof. intros H1 H2. apply Rabs_le_inv in H1, H2. apply Rabs_le. lra. Qed.

Theorem C71_upsampling plat st (m : mem F32) id o l M n n0 d :
  reach plat st m -> st id = Some o ->
  let r := o_res o in let x := o_in o in let y := o_out o in
  r_filter r = FILTER_IIR -> r_mode r = UP -> (/ 2 ^ 100 <= M <= 2 ^ 100)%R -> long_enough plat r x n -> fplays x l M n0 d -> Forall in_iband l ->
  forall j, 0 <= j < size y ->
  is_finite (smp y j : b32) = true /\
  (Rabs (B2R (smp y j : b32) - waves (map (up_tone (r_prec r) (r_ratio r)) l) j)
   <= iir_up_factor (r_ratio r) * iir_error (r_prec r) * amps l + transient r M n0 j + iir_noise plat r M d n)%R.
Proof.
  intros H E r x y Hf Hm HM Hn Hx HW j Hj.
  destruct (iir_tones plat _ _ _ _ l d M n n0 H E Hf HM Hn Hx) as (st' & m' & o' & H' & E' & Er & So & P & G).
  pose proof (C69_upsampling plat _ _ _ _ M l n0 H' E') as Q. cbn zeta in Q. rewrite Er, So in Q.
  destruct (G j Hj) as [F B]. split; [exact F|]. eapply add_noise; [exact B|]. now apply Q.
Qed.

Theorem C71_downsampling plat st (m : mem F32) id o l1 l2 M n n0 d :
  reach plat st m -> st id = Some o ->
  let r := o_res o in let x := o_in o in let y := o_out o in
  r_filter r = FILTER_IIR -> r_mode r = DOWN -> (/ 2 ^ 100 <= M <= 2 ^ 100)%R -> long_enough plat r x n -> fplays x (l1 ++ l2) M n0 d ->
  Forall (ipassed (r_ratio r)) l1 -> Forall (istopped (r_ratio r)) l2 ->
  forall j, 0 <= j < size y ->
  is_finite (smp y j : b32) = true /\
  (Rabs (B2R (smp y j : b32) - waves (map (down_tone (r_prec r) (r_ratio r)) l1) j)
   <= iir_down_factor (r_ratio r) * (iir_error (r_prec r) * iir_error (r_prec r)) * amps l1 + iir_error (r_prec r) * amps l2 + transient r M n0 j + iir_noise plat r M d n)%R.
Proof.
  intros H E r x y Hf Hm HM Hn Hx H1 H2 j Hj.
  destruct (iir_tones plat _ _ _ _ (l1 ++ l2) d M n n0 H E Hf HM Hn Hx) as (st' & m' & o' & H' & E' & Er & So & P & G).
  pose proof (C69_downsampling plat _ _ _ _ M l1 l2 n0 H' E') as Q. cbn zeta in Q. rewrite Er, So in Q.
  destruct (G j Hj) as [F B]. split; [exact F|]. eapply add_noise; [exact B|]. now apply Q.
Qed.

(** ** Round trips *)
(** bound of the samples between the two resamplers *)
Definition mid_bound (plat : platform) (r : resampler) (M d : R) (n : Z) : R := (iir_bound (r_ratio r) * M + iir_noise plat r M d n)%R.
(** noise at the output of the second resampler *)
Definition iir_noise2 (plat1 : platform) (r1 : resampler) (plat2 : platform) (r2 : resampler) (M d : R) (n1 n2 : Z) : R :=
  iir_noise plat2 r2 (mid_bound plat1 r1 M d n1) (iir_noise plat1 r1 M d n1) n2.

Lemma iir_bound_range ratio : (1 <= iir_bound ratio <= 204)%R.
Proof. unfold iir_bound. destruct (ratio =? 1), (ratio =? 2), (ratio =? 4); lra. Qed.
Lemma units_range ratio p : 0 <= iir_units ratio p <= 15715.
Proof. unfold iir_units. repeat (match goal with |- context [match ?x with _ => _ end] => destruct x end; try lia). Qed.
Lemma units_sse_range ratio p : 0 <= fst (iir_units_sse ratio p) <= 74639 /\ 0 <= snd (iir_units_sse ratio p) <= 11780.
Proof. unfold iir_units_sse. repeat (match goal with |- context [match ?x with _ => _ end] => destruct x end; try (cbn [fst snd]; lia)). Qed.

Lemma iir_noise_range plat r (x : list F32) M d n : (0 <= d <= M)%R -> 0 <= size x -> 0 <= r_ratio r -> long_enough plat r x n -> (0 <= iir_noise plat r M d n <= 2200 * M)%R.
Proof.
  intros Hd Sx Hr Hn. unfold iir_noise. pose proof (iir_bound_range (r_ratio r)) as B. set (b := iir_bound (r_ratio r)) in *.
  set (u := if vector plat FILTER_IIR (r_use_sse r) then _ else _).
  assert (U : 0 <= u <= 32950000000).
  { unfold u. destruct (vector plat FILTER_IIR (r_use_sse r)) eqn:V; [|pose proof (units_range (r_ratio r) (r_prec r)); lia].
    destruct (Hn V) as [N1 N2]. destruct (units_sse_range (r_ratio r) (r_prec r)) as [[A1 A2] [B1 B2]]. set (a := fst _) in *. set (c := snd _) in *.
    assert (n0 : 0 <= n) by (unfold high_rate in N1; destruct (r_mode r); nia).
    destruct (Z.eq_dec c 0) as [Z0|Z0]; [rewrite Z0; lia|]. specialize (N2 Z0). assert (n <= 2796202) by lia. nia. }
  destruct U as [U1 U2]. apply IZR_le in U1, U2. set (v := IZR u) in *. clearbody v b. clear u Hn.
  assert (P : (/ 2 ^ 24 = / 16777216)%R) by (f_equal; ring). rewrite P.
  assert (0 <= v * / 16777216 <= 1970)%R by (split; [apply Rmult_le_pos; lra | lra]).
  set (w := (v * / 16777216)%R) in *. clearbody w.
  assert (0 <= b * d <= 204 * M)%R by (split; [apply Rmult_le_pos; lra | apply Rmult_le_compat; lra]).
  assert (0 <= w * M <= 1970 * M)%R by (split; [apply Rmult_le_pos; lra | apply Rmult_le_compat_r; lra]). lra.
Qed.

Lemma iir_trip plat1 st1 (m1 : mem F32) id1 o1 plat2 st2 (m2 : mem F32) id2 o2 l d M n1 n2 n0 :
  reach plat1 st1 m1 -> st1 id1 = Some o1 -> reach plat2 st2 m2 -> st2 id2 = Some o2 ->
  let r1 := o_res o1 in let r2 := o_res o2 in let x := o_in o1 in let y := o_out o2 in
  r_filter r1 = FILTER_IIR -> r_filter r2 = FILTER_IIR -> o_in o2 = o_out o1 ->
  (/ 2 ^ 100 <= M <= 2 ^ 80)%R -> (d <= M)%R -> long_enough plat1 r1 x n1 -> long_enough plat2 r2 (o_in o2) n2 -> fplays x l M n0 d ->
  exists st1' (m1' : mem RA) o1' st2' (m2' : mem RA) o2', reach plat1 st1' m1' /\ st1' id1 = Some o1' /\ reach plat2 st2' m2' /\ st2' id2 = Some o2' /\
    o_res o1' = r1 /\ o_res o2' = r2 /\ size (o_out o2') = size y /\ o_in o2' = o_out o1' /\ plays (o_in o1') l M n0 /\
    forall j, 0 <= j < size y -> is_finite (smp y j : b32) = true /\ (Rabs (B2R (smp y j : b32) - smp (o_out o2') j) <= iir_noise2 plat1 r1 plat2 r2 M d n1 n2)%R.
Proof.
  intros H1 E1 H2 E2 r1 r2 x y Hf1 Hf2 Ex HM Hdm Hn1 Hn2 Hx.
  assert (P100 : (0 < / 2 ^ 100)%R) by (apply Rinv_0_lt_compat, pow_lt; lra).
  assert (P80 : (2 ^ 80 <= 2 ^ 100)%R) by (apply Rle_pow; [lra | lia]).
  destruct (iir_tones plat1 _ _ _ _ l d M n1 n0 H1 E1 Hf1 ltac:(lra) Hn1 Hx) as (st1' & m1' & o1' & H1' & E1' & Er1 & So1 & P1 & G1). fold r1 in Er1, G1.
  destruct (reach_built plat1 _ _ _ _ H1 E1) as [_ V1]. fold r1 in V1.
  assert (R0 : 0 <= r_ratio r1) by (destruct V1 as [[->|[->|[->| ->]]] _]; lia).
  assert (Sx0 : 0 <= size x) by (unfold size; lia).
  pose proof (iir_noise_range plat1 r1 x M d n1 (conj (proj1 (proj2 Hx)) Hdm) Sx0 R0 Hn1) as NR.
  set (N1 := iir_noise plat1 r1 M d n1) in *.
  assert (B1 : forall k, 0 <= k < size (o_out o1') -> (Rabs (smp (o_out o1') k) <= iir_bound (r_ratio r1) * M)%R).
  { intros k Hk. pose proof (C34_bounded plat1 _ _ _ _ M H1' E1') as B. rewrite Er1 in B. apply B; [exact Hf1 | apply P1 | exact Hk]. }
  pose proof (iir_bound_range (r_ratio r1)) as BR.
  assert (MB : (M <= iir_bound (r_ratio r1) * M <= 204 * M)%R).
  { split; [rewrite <- (Rmult_1_l M) at 1; apply Rmult_le_compat_r; lra | apply Rmult_le_compat_r; lra]. }
  assert (P2404 : (2404 * 2 ^ 80 <= 2 ^ 100)%R).
  { replace (2 ^ 100)%R with (2 ^ 20 * 2 ^ 80)%R by (rewrite <- pow_add; reflexivity). apply Rmult_le_compat_r; [apply pow_le; lra|]. cbn. lra. }
  assert (HM2 : (/ 2 ^ 100 <= mid_bound plat1 r1 M d n1 <= 2 ^ 100)%R) by (unfold mid_bound; fold N1; lra).
  assert (So : size (o_in o2) = size (o_out o1')) by (rewrite Ex; symmetry; exact So1).
  destruct (iir_transfer_gen plat2 _ _ _ _ (fun k => smp (o_out o1') k) N1 (mid_bound plat1 r1 M d n1) n2 0 H2 E2 Hf2 (proj1 NR) HM2) as (st2' & m2' & o2' & H2' & E2' & Er2 & Si2 & So2 & B2 & T2 & G2).
  - intros k Hk. rewrite Ex in Hk |- *. destruct (G1 k Hk) as [F D]. split; [exact F|]. unfold mid_bound. fold N1.
    assert (Bk : (Rabs (smp (o_out o1') k) <= iir_bound (r_ratio r1) * M)%R) by (apply B1; rewrite So1; exact Hk).
    apply Rabs_le_inv in D, Bk. apply Rabs_le. lra.
  - exact Hn2.
  - intros k Hk. rewrite Ex in Hk |- *. now apply G1.
  - intros k Hk. rewrite So in Hk. unfold mid_bound. fold N1. eapply Rle_trans; [now apply B1|]. lra.
  - exists st1', m1', o1', st2', m2', o2'. do 4 (split; [assumption|]). split; [exact Er1|]. split; [exact Er2|]. split; [exact So2|]. split; [|split; [exact P1 | exact G2]].
    apply smp_ext; [rewrite Si2; exact So|]. intros k Hk. rewrite Si2 in Hk. apply T2; lia.
Qed.

(** up and down again *)
Theorem C71_oversampling plat1 st1 (m1 : mem F32) id1 o1 plat2 st2 (m2 : mem F32) id2 o2 M l n1 n2 n0 d :
  reach plat1 st1 m1 -> st1 id1 = Some o1 -> reach plat2 st2 m2 -> st2 id2 = Some o2 ->
  let r1 := o_res o1 in let r2 := o_res o2 in let x := o_in o1 in let y := o_out o2 in
  r_filter r1 = FILTER_IIR -> r_mode r1 = UP -> r_filter r2 = FILTER_IIR -> r_mode r2 = DOWN -> r_ratio r2 = r_ratio r1 -> r_prec r2 = r_prec r1 -> o_in o2 = o_out o1 ->
  (/ 2 ^ 100 <= M <= 2 ^ 80)%R -> (d <= M)%R -> long_enough plat1 r1 x n1 -> long_enough plat2 r2 (o_in o2) n2 ->
  fplays x l M n0 d -> (4 <= r_ratio r1 -> Forall in_iband l) ->
  forall j, 0 <= j < size y ->
  is_finite (smp y j : b32) = true /\
  (Rabs (B2R (smp y j : b32) - waves (map (over_tone (r_prec r1) (r_ratio r1)) l) j)
   <= iir_over_factor (r_ratio r1) * (iir_error (r_prec r1) * iir_error (r_prec r1)) * amps l + trip_transient (r_ratio r1) (95 / 100) M (j - n0)
      + iir_noise2 plat1 r1 plat2 r2 M d n1 n2)%R.
Proof.
  intros H1 E1 H2 E2 r1 r2 x y Hf1 Hm1 Hf2 Hm2 Hr Hp Ex HM Hd Hn1 Hn2 Hx HW j Hj.
  destruct (iir_trip plat1 _ _ _ _ plat2 _ _ _ _ l d M n1 n2 n0 H1 E1 H2 E2 Hf1 Hf2 Ex HM Hd Hn1 Hn2 Hx) as
    (st1' & m1' & o1' & st2' & m2' & o2' & H1' & E1' & H2' & E2' & Er1 & Er2 & So & Ex' & P & G).
  pose proof (C69_oversampling plat1 _ _ _ _ plat2 _ _ _ _ M l n0 H1' E1' H2' E2') as Q. cbn zeta in Q. rewrite Er1, Er2, So in Q.
  destruct (G j Hj) as [F B]. split; [exact F|]. eapply add_noise; [exact B|]. now apply Q.
Qed.

(** down and up again *)
Theorem C71_subsampling plat1 st1 (m1 : mem F32) id1 o1 plat2 st2 (m2 : mem F32) id2 o2 M l1 l2 n1 n2 n0 d :
  reach plat1 st1 m1 -> st1 id1 = Some o1 -> reach plat2 st2 m2 -> st2 id2 = Some o2 ->
  let r1 := o_res o1 in let r2 := o_res o2 in let x := o_in o1 in let y := o_out o2 in
  r_filter r1 = FILTER_IIR -> r_mode r1 = DOWN -> r_filter r2 = FILTER_IIR -> r_mode r2 = UP -> r_ratio r2 = r_ratio r1 -> r_prec r2 = r_prec r1 -> o_in o2 = o_out o1 ->
  (/ 2 ^ 100 <= M <= 2 ^ 80)%R -> (d <= M)%R -> long_enough plat1 r1 x n1 -> long_enough plat2 r2 (o_in o2) n2 ->
  fplays x (l1 ++ l2) M n0 d -> Forall (ipassed (r_ratio r1)) l1 -> Forall (istopped (r_ratio r1)) l2 ->
  let e := iir_error (r_prec r1) in
  forall j, 0 <= j < size y ->
  is_finite (smp y j : b32) = true /\
  (Rabs (B2R (smp y j : b32) - waves (map (sub_tone (r_prec r1) (r_ratio r1)) l1) j)
   <= (iir_up_factor (r_ratio r1) * e + iir_down_factor (r_ratio r1) * (e * e)) * amps l1 + 1.012 * e * amps l2 +
      trip_transient (r_ratio r1) (994 / 1000) M (r_ratio r1 * (j / r_ratio r1) - n0) + iir_noise2 plat1 r1 plat2 r2 M d n1 n2)%R.
Proof.
  intros H1 E1 H2 E2 r1 r2 x y Hf1 Hm1 Hf2 Hm2 Hr Hp Ex HM Hd Hn1 Hn2 Hx HP HS e j Hj.
  destruct (iir_trip plat1 _ _ _ _ plat2 _ _ _ _ (l1 ++ l2) d M n1 n2 n0 H1 E1 H2 E2 Hf1 Hf2 Ex HM Hd Hn1 Hn2 Hx) as
    (st1' & m1' & o1' & st2' & m2' & o2' & H1' & E1' & H2' & E2' & Er1 & Er2 & So & Ex' & P & G).
  pose proof (C69_subsampling plat1 _ _ _ _ plat2 _ _ _ _ M l1 l2 n0 H1' E1' H2' E2') as Q. cbn zeta in Q. rewrite Er1, Er2, So in Q.
  destruct (G j Hj) as [F B]. split; [exact F|]. eapply add_noise; [exact B|]. now apply Q.
Qed.

(** up to 1 kHz, oversampling delays by the sum of both delays *)
Theorem C71_oversampling_delay plat1 st1 (m1 : mem F32) id1 o1 plat2 st2 (m2 : mem F32) id2 o2 D1 D2 M l n1 n2 n0 d :
  reach plat1 st1 m1 -> st1 id1 = Some o1 -> reach plat2 st2 m2 -> st2 id2 = Some o2 ->
  let r1 := o_res o1 in let r2 := o_res o2 in let x := o_in o1 in let y := o_out o2 in
  r_filter r1 = FILTER_IIR -> r_mode r1 = UP -> r_filter r2 = FILTER_IIR -> r_mode r2 = DOWN -> r_ratio r2 = r_ratio r1 -> r_prec r2 = r_prec r1 -> o_in o2 = o_out o1 ->
  delay_is r1 D1 -> delay_is r2 D2 ->
  (/ 2 ^ 100 <= M <= 2 ^ 80)%R -> (d <= M)%R -> long_enough plat1 r1 x n1 -> long_enough plat2 r2 (o_in o2) n2 ->
  fplays x l M n0 d -> Forall (fun s => (Rabs (w_freq s) <= khz)%R) l ->
  let D := (D1 / IZR (r_ratio r1) + D2)%R in
  forall j, 0 <= j < size y ->
  is_finite (smp y j : b32) = true /\
  (Rabs (B2R (smp y j : b32) - waves (map (delayed (fun w => w * D)%R) l) j)
   <= (iir_over_factor (r_ratio r1) * (iir_error (r_prec r1) * iir_error (r_prec r1)) + 2 * delay_error * khz) * amps l + trip_transient (r_ratio r1) (95 / 100) M (j - n0)
      + iir_noise2 plat1 r1 plat2 r2 M d n1 n2)%R.
Proof.
  intros H1 E1 H2 E2 r1 r2 x y Hf1 Hm1 Hf2 Hm2 Hr Hp Ex HD1 HD2 HM Hd Hn1 Hn2 Hx HW D j Hj.
  destruct (iir_trip plat1 _ _ _ _ plat2 _ _ _ _ l d M n1 n2 n0 H1 E1 H2 E2 Hf1 Hf2 Ex HM Hd Hn1 Hn2 Hx) as
    (st1' & m1' & o1' & st2' & m2' & o2' & H1' & E1' & H2' & E2' & Er1 & Er2 & So & Ex' & P & G).
  pose proof (C69_oversampling_delay plat1 _ _ _ _ plat2 _ _ _ _ D1 D2 M l n0 H1' E1' H2' E2') as Q. cbn zeta in Q. rewrite Er1, Er2, So in Q.
  destruct (G j Hj) as [F B]. split; [exact F|]. eapply add_noise; [exact B|]. now apply Q.
Qed.

(** the hypotheses can be met: the chord of C69, rounded to single precision *)
Definition rounded_chord (n : Z) : list F32 := tab (A := F32) n (fun k => b32_round (if k <? 10 then 0%R else waves chord k) : F32).
Lemma rounded_chord_plays n : 0 <= n -> fplays (rounded_chord n) chord 4 10 (/ 2 ^ 20).
Proof.
  intros Hn. assert (A : amps chord = 3%R) by (cbn [chord amps w_amp]; rewrite (Rabs_pos_eq 2), (Rabs_left (-1)) by lra; lra).
  assert (S : size (rounded_chord n) = n) by (unfold rounded_chord; now rewrite size_tab).
  assert (Q : forall k, 0 <= k < n -> let v := (if k <? 10 then 0%R else waves chord k) in
    is_finite (smp (rounded_chord n) k : b32) = true /\ (Rabs (B2R (smp (rounded_chord n) k : b32) - v) <= / 2 ^ 20)%R /\ (Rabs v <= 3)%R).
  { intros k Hk v. unfold rounded_chord. rewrite smp_tab by exact Hk. fold v.
    assert (Bv : (Rabs v <= 3)%R) by (unfold v; destruct (k <? 10); [rewrite Rabs_R0; lra | rewrite <- A; apply waves_abs]).
    destruct (b32_round_ok v) as [F E]; [eapply Rle_trans; [exact Bv|]; apply Rle_trans with (2 ^ 2)%R; [lra | apply Rle_pow; [lra | lia]]|].
    split; [exact F|]. split; [|exact Bv]. rewrite E.
    destruct (error_N_FLT radix2 (-149) 24 ltac:(lia) (fun t => negb (Z.even t)) v) as (eps & eta & He & Ht & _ & Ev).
    rewrite Ev. replace (v * (1 + eps) + eta - v)%R with (v * eps + eta)%R by ring.
    eapply Rle_trans; [apply Rabs_triang|]. rewrite Rabs_mult.
    assert (E1 : (Rabs eps <= / 2 ^ 24)%R) by (eapply Rle_trans; [exact He|]; right; rewrite (pow_IZR 2 24); change (-24 + 1) with (-23); cbn; lra).
    assert (E2 : (Rabs eta <= / 2 ^ 24)%R).
    { eapply Rle_trans; [exact Ht|]. apply Rle_trans with (/ 2 ^ 150)%R; [right; rewrite (pow_IZR 2 150); cbn; lra|]. apply Rinv_le_contravar; [apply pow_lt; lra | apply Rle_pow; [lra | lia]]. }
    assert (Rabs v * Rabs eps <= 3 * / 2 ^ 24)%R by (apply Rmult_le_compat; try apply Rabs_pos; assumption).
    replace (/ 2 ^ 20)%R with (16 * / 2 ^ 24)%R by (cbn; lra). assert (0 < / 2 ^ 24)%R by (apply Rinv_0_lt_compat, pow_lt; lra). lra. }
  assert (P20 : (0 < / 2 ^ 20 <= 1)%R) by (split; [apply Rinv_0_lt_compat, pow_lt; lra | rewrite <- Rinv_1; apply Rinv_le_contravar; [lra | apply pow_R1_Rle; lra]]).
  unfold fplays, inputs_below. rewrite S. split; [lia|]. split; [lra|]. split; [lra|]. split.
  - intros k Hk. destruct (Q k Hk) as (F & B & V). split; [exact F|]. apply Rabs_le_inv in B, V. apply Rabs_le. lra.
  - intros k Hk. destruct (Q k ltac:(lia)) as (_ & B & _). replace (k <? 10) with false in B by lia. exact B.
Qed.

Example C71_case plat (sse : bool) : exists st1 (m1 : mem F32) o1 st2 (m2 : mem F32) o2 D1 D2,
  reach plat st1 m1 /\ st1 0 = Some o1 /\ reach plat st2 m2 /\ st2 1 = Some o2 /\
  r_filter (o_res o1) = FILTER_IIR /\ r_mode (o_res o1) = UP /\ r_filter (o_res o2) = FILTER_IIR /\ r_mode (o_res o2) = DOWN /\
  r_ratio (o_res o1) = 8 /\ r_ratio (o_res o2) = 8 /\ r_prec (o_res o1) = PREC_48DB /\ r_prec (o_res o2) = PREC_48DB /\
  delay_is (o_res o1) D1 /\ delay_is (o_res o2) D2 /\ o_in o2 = o_out o1 /\
  long_enough plat (o_res o1) (o_in o1) 1600 /\ long_enough plat (o_res o2) (o_in o2) 1600 /\
  fplays (o_in o1) chord 4 10 (/ 2 ^ 20) /\ Forall in_iband chord /\ size (o_out o2) = 400.
Proof.
  assert (L0 : length (rounded_chord 400) = 400%nat) by (unfold rounded_chord, tab; rewrite map_length, seq_length; reflexivity).
  destruct (some_obj (A := F32) plat UP 8 PREC_48DB sse FILTER_IIR 0 [(0, rounded_chord 400)]) as (st1 & m1 & o1 & H1 & E1 & Er1 & Ei1).
  { cbn [forallb snd fst]. rewrite L0. reflexivity. }
  cbn [map concat snd] in Ei1. rewrite app_nil_r in Ei1.
  assert (L : length (o_out o1) = 3200%nat).
  { pose proof (reach_size plat _ _ _ _ H1 E1) as S. rewrite Er1, Ei1 in S. cbn [out_size built r_mode r_ratio] in S. unfold size in S. rewrite L0 in S. lia. }
  destruct (some_obj (A := F32) plat DOWN 8 PREC_48DB sse FILTER_IIR 1 [(0, o_out o1)]) as (st2 & m2 & o2 & H2 & E2 & Er2 & Ei2).
  { cbn [forallb snd fst]. rewrite L. reflexivity. }
  cbn [map concat snd] in Ei2. rewrite app_nil_r in Ei2.
  destruct (iir_delay_exists plat 0 UP 8 PREC_48DB sse ltac:(now apply configb_ok)) as (D1 & HD1 & _).
  destruct (iir_delay_exists plat 1 DOWN 8 PREC_48DB sse ltac:(now apply configb_ok)) as (D2 & HD2 & _).
  exists st1, m1, o1, st2, m2, o2, D1, D2. rewrite (reach_size plat _ _ _ _ H2 E2), Er1, Er2, Ei1, Ei2.
  do 15 (split; [first [assumption | reflexivity]|]). split; [|split; [|split; [|split]]].
  - intros _. split; [unfold high_rate; cbn [r_mode r_ratio built]; unfold size; rewrite L0; lia | intros _; lia].
  - intros _. split; [unfold high_rate; cbn [r_mode r_ratio built]; unfold size; rewrite L; lia | intros _; lia].
  - apply rounded_chord_plays. lia.
  - assert (P : (0 < PI)%R) by apply PI_RGT_0. repeat constructor; unfold in_iband, iband; cbn [w_freq]; rewrite Rabs_pos_eq by lra; interval with (i_prec 60).
  - unfold size. rewrite L. reflexivity.
Qed.

Print Assumptions C71_upsampling.
Print Assumptions C71_downsampling.
Print Assumptions C71_oversampling.
Print Assumptions C71_subsampling.
Print Assumptions C71_oversampling_delay.
