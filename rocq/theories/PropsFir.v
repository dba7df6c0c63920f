(** * Properties: delay, symmetry, gain and bounds of FIR resamplers in exact arithmetic

    [delay_is r D]: r.delay() returns the number D. *)
From Coq Require Import ZArith Reals List Lia Lra Bool ZifyNat ZifyBool.
From Verif Require Import Arith ArithR ArithF Mem FirModel IirModel Tables ResamplerModel Wp Stage Cascade
  ResamplerProof ResamplerOk Spec SpecOk SpecR Client Feed StreamFacts DelayFacts TablesF TableFacts FirReal FreqFir Cases.
Import ListNotations.
Open Scope Z_scope.

Lemma delay_unique r D D' : delay_is r D -> delay_is r D' -> D = D'.
Proof. intros (d & E & _ & <-) (d' & E' & _ & <-). congruence. Qed.
Lemma reach_fir plat st (m : mem RA) id o D : reach plat st m -> st id = Some o -> let r := o_res o in
  r_filter r = FILTER_FIR -> delay_is r D ->
  valid FILTER_FIR (r_ratio r) (r_prec r) /\ o_out o = resample FILTER_FIR (r_mode r) (r_prec r) false (r_ratio r) (o_in o) /\
  D = (IZR (fir_delay8 (r_mode r) (r_ratio r) (r_prec r)) / 8)%R.
Proof.
  intros H E r Hf HD. destruct (reach_built plat _ _ _ _ H E) as [Bu V]. fold r in Bu, V. rewrite Hf in V. split; [exact V|].
  pose proof (reach_R plat _ _ _ _ H E) as R. cbn zeta in R. fold r in R. rewrite Hf in R. split; [exact R|].
  rewrite Bu, Hf in HD. eapply delay_unique; [exact HD|]. now apply fir_delay_is.
Qed.

(** ** C23 *)

(** position in the input that corresponds to output j *)
Definition position (r : resampler) (D : R) (j : Z) : R :=
  match r_mode r with UP => ((IZR j - D) / IZR (r_ratio r))%R | DOWN => ((IZR j - D) * IZR (r_ratio r))%R end.
(** 2^-(prec-1) per stage, counting earlier stages with their gains; linear interpolation is exact *)
Definition accuracy (r : resampler) : R :=
  (match r_mode r with UP => 1 | DOWN => / 2 end *
   (if r_ratio r =? 1 then 0 else if r_ratio r =? 2 then 1 else if r_ratio r =? 4 then 3 else 6) *
   (if r_prec r =? 1 then 0 else / IZR (2 ^ (r_prec r - 1))))%R.

Theorem C23_ramp plat st (m : mem RA) id o D a b M :
  reach plat st m -> st id = Some o ->
  let r := o_res o in let x := o_in o in let y := o_out o in
  r_filter r = FILTER_FIR -> delay_is r D ->
  (forall k, 0 <= k < size x -> smp x k = (a + b * IZR k)%R /\ (Rabs (smp x k) <= M)%R) ->
  forall j, (2 * D <= IZR j)%R -> j < size y ->
  (Rabs (smp y j - (a + b * position r D j)) <= accuracy r * M)%R.
Proof.
  intros H E r x y Hf HD HL j Hj Hjy.
  destruct (reach_fir plat _ _ _ _ _ H E Hf HD) as (V & Ey & ED). fold r in V, Ey, ED. fold x y in Ey.
  pose proof (reach_size plat _ _ _ _ H E) as Sz. fold r x y in Sz. destruct V as [Vr VT].
  assert (D0 : 0 <= fir_delay8 (r_mode r) (r_ratio r) (r_prec r)).
  { assert (L : 2 <= r_ratio r -> forall s, stage_no s -> 2 <= fir_len s (r_prec r)).
    { intros L2 s Hs. rewrite <- (size_len UP). apply ft_facts; [exact Hs | now apply VT]. }
    assert (S2 : stage_no 2) by (unfold stage_no; auto). assert (S4 : stage_no 4) by (unfold stage_no; auto).
    assert (S8 : stage_no 8) by (unfold stage_no; auto).
    unfold fir_delay8. destruct Vr as [->|Vr]; [destruct (r_mode r); cbn; lia|].
    pose proof (L ltac:(lia) 2 S2). pose proof (L ltac:(lia) 4 S4). pose proof (L ltac:(lia) 8 S8).
    destruct (r_mode r), Vr as [->|[->| ->]]; cbn [Z.eqb Pos.eqb]; lia. }
  assert (Hx : 0 < size x).
  { assert (0 <= IZR j)%R by (apply IZR_le in D0; lra). apply le_IZR in H0.
    assert (0 <= size x) by (unfold size; lia). destruct (Z.eq_dec (size x) 0) as [E0|]; [|lia].
    rewrite E0 in Sz. unfold out_size in Sz. destruct (r_mode r); [lia|]. rewrite Z.div_0_l in Sz by (destruct Vr as [?|[?|[?|?]]]; lia). lia. }
  pose proof (near_line x a b M Hx HL) as Hn.
  assert (I4 : fir_delay8 (r_mode r) (r_ratio r) (r_prec r) <= 4 * j).
  { apply le_IZR. rewrite mult_IZR. lra. }
  unfold position. destruct (r_mode r) eqn:Em.
  - pose proof (resample_up_near (r_prec r) (r_ratio r) x 0 a b 0 M j (conj Vr VT) Hn ltac:(lia)) as (_ & _ & _ & Nn & _).
    rewrite <- Ey in Nn. specialize (Nn j ltac:(lia)). rewrite <- ED in Nn.
    replace (a + b * ((IZR j - D) / IZR (r_ratio r)))%R with (a - b * (D / IZR (r_ratio r)) + b / IZR (r_ratio r) * IZR j)%R
      by (field; apply not_0_IZR; destruct Vr as [?|[?|[?|?]]]; lia).
    eapply Rle_trans; [exact Nn|]. apply Req_le. unfold accuracy. rewrite Em. fold (tolerance (r_prec r)). unfold cascade_tol, half. ring.
  - assert (P : 1 <= r_ratio r) by (destruct Vr as [?|[?|[?|?]]]; lia).
    pose proof (resample_down_near (r_prec r) (r_ratio r) x 0 a b 0 M j (conj Vr VT) Hn ltac:(nia)) as (_ & _ & _ & Nn & _).
    rewrite <- Ey in Nn. specialize (Nn j ltac:(lia)). rewrite <- ED in Nn.
    replace (a + b * ((IZR j - D) * IZR (r_ratio r)))%R with (a - b * (D * IZR (r_ratio r)) + b * IZR (r_ratio r) * IZR j)%R by ring.
    eapply Rle_trans; [exact Nn|]. apply Req_le. unfold accuracy. rewrite Em. fold (tolerance (r_prec r)). unfold cascade_tol, half. ring.
Qed.

(** with ratio 2 the line comes out exactly, up to the gain: 1 for the samples that are passed through, the sum of the taps for the others *)
Theorem C23_ramp_ratio_2 plat st (m : mem RA) id o D a b :
  reach plat st m -> st id = Some o ->
  let r := o_res o in let x := o_in o in let y := o_out o in
  r_filter r = FILTER_FIR -> r_ratio r = 2 -> delay_is r D ->
  (forall k, 0 <= k < size x -> smp x k = (a + b * IZR k)%R) ->
  let t := coeffs (A := RA) FILTER_FIR (r_mode r) (r_prec r) 2 in let G := sumR (length t) (smp t) in
  forall j, (2 * D <= IZR j)%R -> j < size y ->
  smp y j = (match r_mode r with UP => if Z.even j then G else 1 | DOWN => G + / 2 end * (a + b * position r D j))%R.
Proof.
  intros H E r x y Hf H2 HD HL t G j Hj Hjy.
  destruct (reach_fir plat _ _ _ _ _ H E Hf HD) as (V & Ey & ED). fold r in V, Ey, ED. fold x y in Ey.
  destruct V as [Vr VT]. specialize (VT ltac:(lia)). cbn in VT.
  assert (S2 : stage_no 2) by (unfold stage_no; auto).
  pose proof (reach_size plat _ _ _ _ H E) as Sz. fold r x y in Sz.
  destruct (ft_facts (r_mode r) 2 (r_prec r) S2 VT) as (_ & Ev & N2 & _). fold t in Ev, N2.
  pose proof (ft_sym (r_mode r) 2 (r_prec r) S2 VT) as Hsym. fold t in Hsym.
  assert (LN : Z.of_nat (length t) = size t) by reflexivity.
  apply Z.even_spec in Ev. destruct Ev as [h Eh]. assert (Hh : size t / 2 = h) by (rewrite Eh, Z.mul_comm, Z.div_mul; lia).
  rewrite H2 in Sz, ED. unfold fir_delay8 in ED. cbn [Z.eqb Pos.eqb] in ED. rewrite <- (size_len (r_mode r)) in ED. fold t in ED.
  rewrite Ey, H2. unfold resample, position. rewrite H2.
  destruct (r_mode r) eqn:Em; cbn [Z.eqb Pos.eqb stage]; fold t; cbn [out_size] in Sz.
  - assert (D2 : D = IZR (size t - 1)) by (rewrite ED, mult_IZR; lra). clear ED. subst D.
    assert (J : 2 * (size t - 1) <= j) by (apply le_IZR; now rewrite mult_IZR).
    unfold fir_up2. rewrite smp_tab by lia. unfold fir_up_at. rewrite Hh.
    pose proof (Z.div_mod j 2 ltac:(lia)). pose proof (Z.mod_pos_bound j 2 ltac:(lia)). pose proof (Zmod_even j) as ME.
    destruct (Z.even j).
    + rewrite mac_sum. rewrite (sumR_ext _ _ (fun i => ((a + b * IZR (j / 2 - size t + 1) + b * IZR i) * smp t i)%R)).
      2: { intros i Hi. rewrite HL by lia. rewrite plus_IZR. f_equal. ring. }
      rewrite line_sum by exact Hsym. fold G. rewrite LN. f_equal.
      replace (IZR j) with (2 * IZR (j / 2))%R by (rewrite <- mult_IZR; f_equal; lia). rewrite plus_IZR, !minus_IZR. lra.
    + rewrite HL by lia. replace (IZR j) with (2 * IZR (j / 2) + 1)%R by (rewrite <- mult_IZR, <- plus_IZR; f_equal; lia).
      rewrite Eh, plus_IZR, !minus_IZR, mult_IZR. lra.
  - assert (D2 : (2 * D = IZR (size t - 1))%R) by (rewrite ED, mult_IZR; lra). clear ED. rewrite D2 in Hj. apply le_IZR in Hj.
    assert (Sx : 0 <= size x) by (unfold size; lia). pose proof (Z.div_mod (size x) 2 ltac:(lia)). pose proof (Z.mod_pos_bound (size x) 2 ltac:(lia)).
    unfold fir_down2. rewrite smp_tab by lia. unfold fir_down_at. rewrite Hh.
    rewrite mac_sum. rewrite (sumR_ext _ _ (fun i => ((a + b * IZR (2 * (j - size t + 1)) + 2 * b * IZR i) * smp t i)%R)).
    2: { intros i Hi. rewrite HL by lia. rewrite !mult_IZR, (plus_IZR _ i). f_equal. ring. }
    rewrite line_sum by exact Hsym. fold G. rewrite LN, HL by lia. change (@fadd RA) with Rplus. change (@fmul RA) with Rmult. change (@fhalf RA) with (/ 2)%R.
    replace ((IZR j - D) * 2)%R with (IZR (2 * (j - h) + 1)).
    2: { replace ((IZR j - D) * 2)%R with (2 * IZR j - 2 * D)%R by lra. rewrite D2, Eh, plus_IZR, !mult_IZR, !minus_IZR, mult_IZR. lra. }
    replace (a + b * IZR (2 * (j - size t + 1)) + 2 * b * (IZR (size t - 1) / 2))%R with (a + b * IZR (2 * (j - h) + 1))%R.
    2: { rewrite Eh, !plus_IZR, !mult_IZR, !plus_IZR, !minus_IZR, !mult_IZR. lra. }
    lra.
Qed.

Definition line (a b : R) (n : Z) : list RA := tab n (fun k => (a + b * IZR k)%R : RA).
Example C23_case plat (sse : bool) md : exists st (m : mem RA) o D j, reach plat st m /\ st 0 = Some o /\ r_filter (o_res o) = FILTER_FIR /\
  r_mode (o_res o) = md /\ r_ratio (o_res o) = 8 /\ r_prec (o_res o) = PREC_144DB /\ r_use_sse (o_res o) = sse /\ delay_is (o_res o) D /\
  o_in o = line 1 2 800 /\ (2 * D <= IZR j)%R /\ j < size (o_out o).
Proof.
  destruct (some_obj (A := RA) plat md 8 PREC_144DB sse FILTER_FIR 0 [(0, line 1 2 800)] ltac:(destruct md; reflexivity)) as (st & m & o & H & E & Er & Ei).
  cbn [map concat snd] in Ei. rewrite app_nil_r in Ei.
  exists st, m, o, (IZR (fir_delay8 md 8 PREC_144DB) / 8)%R, (match md with UP => 500 | DOWN => 62 end).
  rewrite (reach_size plat _ _ _ _ H E), Er, Ei. repeat split; try assumption.
  - apply fir_delay_is. now apply configb_ok.
  - destruct md; [replace (fir_delay8 UP 8 PREC_144DB) with 1960 by reflexivity | replace (fir_delay8 DOWN 8 PREC_144DB) with 245 by reflexivity]; lra.
  - unfold line. rewrite size_tab by lia. destruct md; reflexivity.
Qed.
(** a ramp through linear interpolation: delay() is 1 *)
Example C23_case_ratio_2 plat (sse : bool) : exists st (m : mem RA) o, reach plat st m /\ st 0 = Some o /\
  r_filter (o_res o) = FILTER_FIR /\ r_ratio (o_res o) = 2 /\ r_mode (o_res o) = UP /\ delay_is (o_res o) 1 /\
  o_in o = [3; 5; 7]%R /\ o_out o = [3 / 2; 3; 4; 5; 6; 7]%R.
Proof.
  destruct (some_obj (A := RA) plat UP 2 PREC_LINEAR sse FILTER_FIR 0 [(0, [3%R]); (3, [5; 7]%R)] eq_refl) as (st & m & o & H & E & Er & Ei).
  exists st, m, o. rewrite (reach_R plat _ _ _ _ H E), Er, Ei. repeat split; try assumption.
  - replace 1%R with (IZR (fir_delay8 UP 2 PREC_LINEAR) / 8)%R by (replace (fir_delay8 UP 2 PREC_LINEAR) with 8 by reflexivity; lra).
    apply fir_delay_is. now apply configb_ok.
  - cbn [built r_filter r_mode r_ratio r_prec resample Z.eqb Pos.eqb stage]. rewrite linear_up by (left; reflexivity).
    unfold fir_up2. cbv -[Rplus Rmult Rdiv IZR Rinv]. repeat (f_equal; try lra).
Qed.

(** ** C24: a signal that is symmetric around C/2 gives an output that is symmetric around delay() plus that position *)
Theorem C24_linear_phase plat st (m : mem RA) id o D C :
  reach plat st m -> st id = Some o ->
  let r := o_res o in let x := o_in o in let y := o_out o in
  r_filter r = FILTER_FIR -> delay_is r D ->
  (forall k k', k + k' = C -> k < size x -> k' < size x -> smp x k = smp x k') ->
  forall j j', j < size y -> j' < size y ->
  (IZR (j + j') / 2 = D + match r_mode r with UP => IZR C / 2 * IZR (r_ratio r) | DOWN => IZR C / 2 / IZR (r_ratio r) end)%R ->
  smp y j = smp y j'.
Proof.
  intros H E r x y Hf HD HS j j' Hj Hj' EJ.
  destruct (reach_fir plat _ _ _ _ _ H E Hf HD) as (V & Ey & ED). fold r in V, Ey, ED. fold x y in Ey.
  assert (R0 : (IZR (r_ratio r) <> 0)%R) by (apply not_0_IZR; destruct V as [[?|[?|[?|?]]] _]; lia).
  destruct (r_mode r) eqn:Em.
  - pose proof (resample_up_symmetric (r_prec r) (r_ratio r) x C V HS) as Q. rewrite <- Ey in Q. apply Q; try assumption.
    assert (E4 : 4 * (j + j') = 4 * (r_ratio r * C) + fir_delay8 UP (r_ratio r) (r_prec r)).
    { apply eq_IZR. rewrite plus_IZR, !mult_IZR. lra. }
    apply Z.mul_reg_l with 4; [lia|]. rewrite E4. rewrite Z.mul_add_distr_l. f_equal.
    apply Z.div_exact; [lia|]. unfold fir_delay8. rewrite Z.mul_comm. now rewrite <- (Z.mul_mod_idemp_r), Z.mul_0_r by lia.
  - pose proof (resample_down_symmetric (r_prec r) (r_ratio r) x C (j + j') V HS (reach_multiple plat _ _ _ _ H E Em)) as Q.
    rewrite <- Ey in Q. apply Q; try assumption; [|reflexivity]. apply eq_IZR. rewrite plus_IZR, !mult_IZR.
    set (d := IZR (fir_delay8 DOWN (r_ratio r) (r_prec r))) in *. rewrite ED in EJ.
    apply (Rmult_eq_compat_l (8 * IZR (r_ratio r))) in EJ.
    replace (8 * IZR (r_ratio r) * (d / 8 + IZR C / 2 / IZR (r_ratio r)))%R with (IZR (r_ratio r) * d + 4 * IZR C)%R in EJ by (field; exact R0). lra.
Qed.
(** in particular the response to a single non-zero sample *)
Theorem C24_impulse_response_symmetric plat st (m : mem RA) id o D k0 :
  reach plat st m -> st id = Some o ->
  let r := o_res o in let x := o_in o in let y := o_out o in
  r_filter r = FILTER_FIR -> delay_is r D ->
  (forall k, k <> k0 -> smp x k = 0%R) ->
  forall j j', j < size y -> j' < size y ->
  (IZR (j + j') / 2 = D + match r_mode r with UP => IZR k0 * IZR (r_ratio r) | DOWN => IZR k0 / IZR (r_ratio r) end)%R ->
  smp y j = smp y j'.
Proof.
  intros H E r x y Hf HD HS j j' Hj Hj' EJ.
  apply (C24_linear_phase plat st m id o D (2 * k0) H E Hf HD); try assumption.
  - intros k k' Ek _ _. destruct (Z.eq_dec k k0) as [->|N]; [f_equal; lia|]. rewrite !HS by lia. reflexivity.
  - rewrite EJ. fold r. rewrite mult_IZR. destruct (r_mode r); lra.
Qed.
(** an impulse at 1 through linear interpolation with ratio 4: delay 3, so that the response is symmetric around 7 *)
Example C24_case plat (sse : bool) : exists st (m : mem RA) o, reach plat st m /\ st 0 = Some o /\
  r_filter (o_res o) = FILTER_FIR /\ r_mode (o_res o) = UP /\ r_ratio (o_res o) = 4 /\ delay_is (o_res o) 3 /\
  o_in o = [0; 4; 0]%R /\ o_out o = [0; 0; 0; 0; 1; 2; 3; 4; 3; 2; 1; 0]%R.
Proof.
  destruct (some_obj (A := RA) plat UP 4 PREC_LINEAR sse FILTER_FIR 0 [(0, [0%R]); (3, [4; 0]%R)] eq_refl) as (st & m & o & H & E & Er & Ei).
  exists st, m, o. rewrite (reach_R plat _ _ _ _ H E), Er, Ei. repeat split; try assumption.
  - replace 3%R with (IZR (fir_delay8 UP 4 PREC_LINEAR) / 8)%R by (replace (fir_delay8 UP 4 PREC_LINEAR) with 24 by reflexivity; lra).
    apply fir_delay_is. now apply configb_ok.
  - cbn [built r_filter r_mode r_ratio r_prec resample Z.eqb Pos.eqb stage]. rewrite !linear_up by (unfold stage_no; auto).
    unfold fir_up2. cbv -[Rplus Rmult Rdiv IZR Rinv]. repeat (f_equal; try lra).
Qed.

(** ** C25 for FIR *)
Theorem C25_fir_dc_gain plat st (m : mem RA) id o D c :
  reach plat st m -> st id = Some o ->
  let r := o_res o in let x := o_in o in let y := o_out o in
  r_filter r = FILTER_FIR -> delay_is r D ->
  (forall k, 0 <= k < size x -> smp x k = c) ->
  forall j, (2 * D <= IZR j)%R -> j < size y -> (Rabs (smp y j - c) <= accuracy r * Rabs c)%R.
Proof.
  intros H E r x y Hf HD HL j Hj Hjy.
  pose proof (C23_ramp plat st m id o D c 0 (Rabs c) H E Hf HD) as Q. fold r x y in Q.
  replace c with (c + 0 * position r D j)%R at 1 by lra. apply Q; try assumption.
  intros k Hk. rewrite HL by exact Hk. split; lra.
Qed.
(** the constant 1 through all stages of PREC_144DB: all outputs from 490 on are within 6 * 2^-23 of 1 *)
Example C25_fir_case plat (sse : bool) : exists st (m : mem RA) o D, reach plat st m /\ st 0 = Some o /\ r_filter (o_res o) = FILTER_FIR /\
  r_mode (o_res o) = UP /\ r_ratio (o_res o) = 8 /\ r_prec (o_res o) = PREC_144DB /\ r_use_sse (o_res o) = sse /\ delay_is (o_res o) D /\
  o_in o = line 1 0 800 /\ accuracy (o_res o) = (6 / 8388608)%R /\ (2 * D = 490)%R /\ size (o_out o) = 6400.
Proof.
  destruct (some_obj (A := RA) plat UP 8 PREC_144DB sse FILTER_FIR 0 [(0, line 1 0 800)] eq_refl) as (st & m & o & H & E & Er & Ei).
  cbn [map concat snd] in Ei. rewrite app_nil_r in Ei.
  exists st, m, o, (IZR (fir_delay8 UP 8 PREC_144DB) / 8)%R.
  rewrite (reach_size plat _ _ _ _ H E), Er, Ei. repeat split; try assumption.
  - apply fir_delay_is. now apply configb_ok.
  - unfold accuracy. cbn [built r_mode r_ratio r_prec]. cbn [Z.eqb Pos.eqb]. replace (2 ^ (PREC_144DB - 1)) with 8388608 by reflexivity.
    cbn. lra.
  - replace (fir_delay8 UP 8 PREC_144DB) with 1960 by reflexivity. lra.
Qed.

(** ** C27 *)

(** absolute sums of the taps; upsampling uses doubled taps *)
Theorem C27_tap_sums md prec s : stage_no s -> fir_prec prec ->
  let t := coeffs (A := RA) FILTER_FIR md prec s in
  (sumR (length t) (fun i => Rabs (smp t i)) <=
    match md with UP => 1 | DOWN => / 2 end * (if (s =? 2)%Z then 251 else if (s =? 4)%Z then 178 else 161) / 100)%R.
Proof.
  intros Hs Hp t. eapply Rle_trans; [apply ft_abs; assumption|]. unfold half, stage_gain, gain100.
  destruct md, (s =? 2), (s =? 4); lra.
Qed.
Theorem C27_bounded plat st (m : mem RA) id o B :
  reach plat st m -> st id = Some o ->
  let r := o_res o in let x := o_in o in let y := o_out o in
  r_filter r = FILTER_FIR -> (0 <= B)%R ->
  (forall k, 0 <= k < size x -> (Rabs (smp x k) <= B)%R) ->
  let K := match r_mode r with
    | UP => if r_ratio r =? 1 then 1 else if r_ratio r =? 2 then 251 / 100 else if r_ratio r =? 4 then 447 / 100 else 72 / 10
    | DOWN => if r_ratio r =? 1 then 1 else if r_ratio r =? 2 then 176 / 100 else if r_ratio r =? 4 then 244 / 100 else 319 / 100
    end%R in
  forall j, (Rabs (smp y j) <= K * B)%R.
Proof.
  intros H E r x y Hf HB HL K j. destruct (reach_built plat _ _ _ _ H E) as [_ V]. fold r in V. rewrite Hf in V.
  pose proof (reach_R plat _ _ _ _ H E) as R. cbn zeta in R. fold r x y in R. rewrite Hf in R. rewrite R.
  apply resample_bounded; [exact V | exact HB|]. intros k.
  destruct (Z_lt_le_dec k 0); [rewrite smp_neg by lia; cbn; rewrite Rabs_R0; lra|].
  destruct (Z_lt_le_dec k (size x)); [now apply HL | rewrite smp_over by lia; cbn; rewrite Rabs_R0; lra].
Qed.
Example C27_case plat (sse : bool) : exists st (m : mem RA) o, reach plat st m /\ st 0 = Some o /\
  r_filter (o_res o) = FILTER_FIR /\ r_mode (o_res o) = DOWN /\ r_ratio (o_res o) = 8 /\ r_prec (o_res o) = PREC_48DB /\
  o_in o = line 1 (-1 / 400) 800 /\ forall k, 0 <= k < size (o_in o) -> (Rabs (smp (o_in o) k) <= 1)%R.
Proof.
  destruct (some_obj (A := RA) plat DOWN 8 PREC_48DB sse FILTER_FIR 0 [(0, line 1 (-1 / 400) 800)] eq_refl) as (st & m & o & H & E & Er & Ei).
  cbn [map concat snd] in Ei. rewrite app_nil_r in Ei.
  exists st, m, o. rewrite Er, Ei. repeat split; try assumption. unfold line. rewrite size_tab by lia. intros k Hk. rewrite smp_tab by exact Hk.
  apply Rabs_le. assert (0 <= k <= 799) as [K1 K2] by lia. apply IZR_le in K1, K2. lra.
Qed.

(** ** C49 *)

Theorem C49_sine_upsampling plat st (m : mem RA) id o D amp w ph :
  reach plat st m -> st id = Some o ->
  let r := o_res o in let x := o_in o in let y := o_out o in
  r_filter r = FILTER_FIR -> r_mode r = UP -> r_ratio r = 2 -> delay_is r D ->
  (forall k, 0 <= k < size x -> smp x k = (amp * sin (w * IZR k + ph))%R) ->
  let t := coeffs (A := RA) FILTER_FIR UP (r_prec r) 2 in
  forall j, (2 * D <= IZR j)%R -> j < size y ->
  smp y j = ((if Z.even j then response t w else 1) * (amp * sin (w * ((IZR j - D) / 2) + ph)))%R.
Proof.
  intros H E r x y Hf Hm H2 HD HL t j Hj Hjy.
  destruct (reach_fir plat _ _ _ _ _ H E Hf HD) as (V & Ey & ED). fold r in V, Ey, ED. fold x y in Ey.
  destruct V as [Vr VT]. specialize (VT ltac:(lia)). cbn in VT.
  assert (S2 : stage_no 2) by (unfold stage_no; auto).
  pose proof (reach_size plat _ _ _ _ H E) as Sz. fold r x y in Sz. rewrite Hm, H2 in *.
  destruct (ft_facts UP 2 (r_prec r) S2 VT) as (_ & Ev & N2 & _). fold t in Ev, N2.
  pose proof (ft_sym UP 2 (r_prec r) S2 VT) as Hsym. fold t in Hsym.
  assert (LN : Z.of_nat (length t) = size t) by reflexivity.
  apply Z.even_spec in Ev. destruct Ev as [h Eh]. assert (Hh : size t / 2 = h) by (rewrite Eh, Z.mul_comm, Z.div_mul; lia).
  unfold fir_delay8 in ED. cbn [Z.eqb Pos.eqb] in ED. rewrite <- (size_len UP) in ED. fold t in ED.
  rewrite Ey. unfold resample. cbn [Z.eqb Pos.eqb stage]; fold t; cbn [out_size] in Sz.
  assert (D2 : D = IZR (size t - 1)) by (rewrite ED, mult_IZR; lra). clear ED. subst D.
  assert (J : 2 * (size t - 1) <= j) by (apply le_IZR; now rewrite mult_IZR).
  unfold fir_up2. rewrite smp_tab by lia. unfold fir_up_at. rewrite Hh.
  pose proof (Z.div_mod j 2 ltac:(lia)). pose proof (Z.mod_pos_bound j 2 ltac:(lia)). pose proof (Zmod_even j) as ME.
  destruct (Z.even j).
  - rewrite mac_sum. rewrite (sumR_ext _ _ (fun i => (amp * (sin ((w * IZR (j / 2 - size t + 1) + ph) + w * IZR i) * smp t i))%R)).
    2: { intros i Hi. rewrite HL by lia. rewrite (plus_IZR _ i).
         replace (w * (IZR (j / 2 - size t + 1) + IZR i) + ph)%R with (w * IZR (j / 2 - size t + 1) + ph + w * IZR i)%R by ring. ring. }
    rewrite sumR_scal, sine_sum by exact Hsym. unfold response. rewrite LN.
    replace (w * IZR (j / 2 - size t + 1) + ph + w * (IZR (size t - 1) / 2))%R with (w * ((IZR j - IZR (size t - 1)) / 2) + ph)%R; [lra|].
    replace (IZR j) with (2 * IZR (j / 2))%R by (rewrite <- mult_IZR; f_equal; lia). rewrite plus_IZR, !minus_IZR. lra.
  - rewrite HL by lia. replace (IZR (j / 2 - h + 1)) with ((IZR j - IZR (size t - 1)) / 2)%R; [lra|].
    replace (IZR j) with (2 * IZR (j / 2) + 1)%R by (rewrite <- mult_IZR, <- plus_IZR; f_equal; lia).
    rewrite Eh, plus_IZR, !minus_IZR, mult_IZR. lra.
Qed.

(** downsampling by any ratio scales a sine by the product of the gains of the stages *)
Lemma down_sine p s (x : list RA) lo lo' amp w ph : stage_no s -> fir_prec p ->
  let t := coeffs (A := RA) FILTER_FIR DOWN p s in
  0 <= lo -> lo <= 2 * (lo' - size t + 1) ->
  (forall k, lo <= k < size x -> smp x k = (amp * sin (w * IZR k + ph))%R) ->
  forall n, lo' <= n < size (fir_down2 t x) ->
  smp (fir_down2 t x) n = (amp * (response t (2 * w) + / 2) * sin (2 * w * IZR n + (ph - w * IZR (size t - 1))))%R.
Proof.
  intros Hs Hp t H0 HL HX n Hn.
  destruct (ft_facts DOWN s p Hs Hp) as (_ & Ev & N2 & _). fold t in Ev, N2.
  pose proof (ft_sym DOWN s p Hs Hp) as Hsym. fold t in Hsym.
  assert (LN : Z.of_nat (length t) = size t) by reflexivity.
  apply Z.even_spec in Ev. destruct Ev as [h Eh]. assert (Hh : size t / 2 = h) by (rewrite Eh, Z.mul_comm, Z.div_mul; lia).
  assert (Sx : 0 <= size x) by (unfold size; lia). pose proof (Z.div_mod (size x) 2 ltac:(lia)). pose proof (Z.mod_pos_bound (size x) 2 ltac:(lia)).
  assert (Sz : size (fir_down2 t x) = size x / 2) by (unfold fir_down2; rewrite size_tab; lia). rewrite Sz in Hn.
  unfold fir_down2. rewrite smp_tab by lia. unfold fir_down_at. rewrite Hh, mac_sum.
  rewrite (sumR_ext _ _ (fun i => (amp * (sin ((w * IZR (2 * (n - size t + 1)) + ph) + 2 * w * IZR i) * smp t i))%R)).
  2: { intros i Hi. rewrite HX by lia. replace (w * IZR (2 * (n - size t + 1 + i)) + ph)%R with (w * IZR (2 * (n - size t + 1)) + ph + 2 * w * IZR i)%R; [ring|].
       rewrite !mult_IZR, (plus_IZR _ i). ring. }
  rewrite sumR_scal, sine_sum by exact Hsym. unfold response. rewrite LN, HX by lia.
  change (@fadd RA) with Rplus. change (@fmul RA) with Rmult. change (@fhalf RA) with (/ 2)%R.
  replace (w * IZR (2 * (n - size t + 1)) + ph + 2 * w * (IZR (size t - 1) / 2))%R with (2 * w * IZR n + (ph - w * IZR (size t - 1)))%R
    by (rewrite mult_IZR, plus_IZR, !minus_IZR; lra).
  replace (w * IZR (2 * (n - h) + 1) + ph)%R with (2 * w * IZR n + (ph - w * IZR (size t - 1)))%R
    by (rewrite Eh, plus_IZR, mult_IZR, !minus_IZR, mult_IZR; lra).
  lra.
Qed.

Theorem C49_sine_downsampling plat st (m : mem RA) id o D amp w ph :
  reach plat st m -> st id = Some o ->
  let r := o_res o in let x := o_in o in let y := o_out o in
  r_filter r = FILTER_FIR -> r_mode r = DOWN -> delay_is r D ->
  (forall k, 0 <= k < size x -> smp x k = (amp * sin (w * IZR k + ph))%R) ->
  let ratio := r_ratio r in
  let gain s v := (response (coeffs (A := RA) FILTER_FIR DOWN (r_prec r) s) (2 * v) + / 2)%R in
  let G := (if ratio =? 1 then 1 else if ratio =? 2 then gain 2%Z w else if ratio =? 4 then gain 4%Z w * gain 2%Z (2 * w)
            else gain 8%Z w * gain 4%Z (2 * w) * gain 2%Z (4 * w))%R in
  forall j, (2 * D <= IZR j)%R -> j < size y ->
  smp y j = (G * (amp * sin (w * ((IZR j - D) * IZR ratio) + ph)))%R.
Proof.
  intros H E r x y Hf Hm HD HL ratio gain G j Hj Hjy.
  destruct (reach_fir plat _ _ _ _ _ H E Hf HD) as ([Vr VT] & Ey & ED). fold r in Vr, VT, Ey, ED. fold x y in Ey. fold ratio in Vr, VT, Ey, ED.
  rewrite Hm in *. clearbody ratio.
  assert (S2 : stage_no 2) by (unfold stage_no; auto). assert (S4 : stage_no 4) by (unfold stage_no; auto).
  assert (S8 : stage_no 8) by (unfold stage_no; auto).
  assert (J : fir_delay8 DOWN ratio (r_prec r) <= 4 * j) by (apply le_IZR; rewrite mult_IZR; lra).
  rewrite Ey in Hjy. rewrite Ey. clear Ey. unfold resample in *. unfold fir_delay8 in *. unfold G. clear G.
  destruct Vr as [Vr|Vr].
  - rewrite Vr in *. cbn [Z.eqb Pos.eqb] in *. rewrite HL by lia. replace (w * ((IZR j - D) * 1) + ph)%R with (w * IZR j + ph)%R; [lra|]. rewrite ED. lra.
  - assert (HP : fir_prec (r_prec r)) by (apply VT; lia). clear VT.
    assert (Gs : forall s, stage_no s -> 2 <= fir_len s (r_prec r)).
    { intros s Hs. rewrite <- (size_len DOWN). now apply ft_facts. }
    pose proof (Gs 2 S2) as G2. pose proof (Gs 4 S4) as G4. pose proof (Gs 8 S8) as G8.
    set (p := r_prec r) in *.
    assert (Nx : forall s (z : list RA) l am v q, stage_no s -> 0 <= l ->
      (forall k, l <= k < size z -> smp z k = (am * sin (v * IZR k + q))%R) ->
      forall n, (l + 1) / 2 + fir_len s p - 1 <= n < size (fir_down2 (coeffs (A := RA) FILTER_FIR DOWN p s) z) ->
      smp (fir_down2 (coeffs (A := RA) FILTER_FIR DOWN p s) z) n =
      (am * gain s v * sin (2 * v * IZR n + (q - v * IZR (fir_len s p - 1))))%R).
    { intros s z l am v q Hs H0 HZ n Hn. rewrite <- (size_len DOWN) in *.
      apply (down_sine p s z l ((l + 1) / 2 + size (coeffs (A := RA) FILTER_FIR DOWN p s) - 1) am v q Hs HP H0); [lia | exact HZ | exact Hn]. }
    assert (L1 : forall s l, stage_no s -> 0 <= l -> 0 <= (l + 1) / 2 + fir_len s p - 1) by (intros s l Hs Hl; specialize (Gs s Hs); lia).
    destruct Vr as [Vr|[Vr|Vr]]; rewrite Vr in *; cbn [Z.eqb Pos.eqb] in *; unfold stage in *.
    + rewrite (Nx 2 x 0 amp w ph S2 ltac:(lia) HL) by lia.
      replace (2 * w * IZR j + (ph - w * IZR (fir_len 2 p - 1)))%R with (w * ((IZR j - D) * 2) + ph)%R by (rewrite ED, mult_IZR; lra). lra.
    + pose proof (Nx 4 x 0 amp w ph S4 ltac:(lia) HL) as H4.
      rewrite (Nx 2 _ _ _ _ _ S2 (L1 4 0 S4 ltac:(lia)) H4) by lia.
      match goal with |- (_ * sin ?u = _ * (_ * sin ?v))%R => replace u with v by (rewrite ED, plus_IZR, !mult_IZR; lra) end. lra.
    + pose proof (Nx 8 x 0 amp w ph S8 ltac:(lia) HL) as H8.
      pose proof (Nx 4 _ _ _ _ _ S4 (L1 8 0 S8 ltac:(lia)) H8) as H4.
      rewrite (Nx 2 _ _ _ _ _ S2 (L1 4 _ S4 (L1 8 0 S8 ltac:(lia))) H4) by lia.
      match goal with |- (_ * sin ?u = _ * (_ * sin ?v))%R => replace u with v by (rewrite ED, !plus_IZR, !mult_IZR; lra) end.
      replace (2 * (2 * w))%R with (4 * w)%R by lra. lra.
Qed.
Definition sine (amp w ph : R) (n : Z) : list RA := tab n (fun k => (amp * sin (w * IZR k + ph))%R : RA).
Example C49_case plat (sse : bool) md : exists st (m : mem RA) o D j, reach plat st m /\ st 0 = Some o /\ r_filter (o_res o) = FILTER_FIR /\
  r_mode (o_res o) = md /\ r_ratio (o_res o) = 2 /\ r_prec (o_res o) = PREC_144DB /\ r_use_sse (o_res o) = sse /\ delay_is (o_res o) D /\
  o_in o = sine 2 1 (1 / 3) 400 /\ (2 * D <= IZR j)%R /\ j < size (o_out o).
Proof.
  destruct (some_obj (A := RA) plat md 2 PREC_144DB sse FILTER_FIR 0 [(0, sine 2 1 (1 / 3) 400)] ltac:(destruct md; reflexivity)) as (st & m & o & H & E & Er & Ei).
  cbn [map concat snd] in Ei. rewrite app_nil_r in Ei.
  exists st, m, o, (IZR (fir_delay8 md 2 PREC_144DB) / 8)%R, 150.
  rewrite (reach_size plat _ _ _ _ H E), Er, Ei. repeat split; try assumption.
  - apply fir_delay_is. now apply configb_ok.
  - destruct md; [replace (fir_delay8 UP 2 PREC_144DB) with 408 by reflexivity | replace (fir_delay8 DOWN 2 PREC_144DB) with 204 by reflexivity]; lra.
  - unfold sine. rewrite size_tab by lia. destruct md; reflexivity.
Qed.

(** ** C50: a ramp through an upsampler and a downsampler *)
Theorem C50_round_trip plat1 st1 (m1 : mem RA) id1 o1 plat2 st2 (m2 : mem RA) id2 o2 D1 D2 a b M :
  reach plat1 st1 m1 -> st1 id1 = Some o1 -> reach plat2 st2 m2 -> st2 id2 = Some o2 ->
  let r1 := o_res o1 in let r2 := o_res o2 in let x := o_in o1 in let y := o_out o2 in
  r_filter r1 = FILTER_FIR -> r_mode r1 = UP -> r_filter r2 = FILTER_FIR -> r_mode r2 = DOWN -> r_ratio r2 = r_ratio r1 ->
  delay_is r1 D1 -> delay_is r2 D2 -> o_in o2 = o_out o1 ->
  (forall k, 0 <= k < size x -> smp x k = (a + b * IZR k)%R /\ (Rabs (smp x k) <= M)%R) ->
  let D := (D1 / IZR (r_ratio r1) + D2)%R in
  forall j, (2 * D <= IZR j)%R -> j < size y ->
  (Rabs (smp y j - (a + b * (IZR j - D))) <= (4 * accuracy r1 + accuracy r2) * M)%R.
Proof.
  intros H1 E1 H2 E2 r1 r2 x y Hf1 Hm1 Hf2 Hm2 Hr HD1 HD2 Ex HL D j Hj Hjy.
  destruct (reach_fir plat1 _ _ _ _ _ H1 E1 Hf1 HD1) as ([Vr VT] & Ey1 & ED1). fold r1 in Vr, VT, Ey1, ED1.
  destruct (reach_fir plat2 _ _ _ _ _ H2 E2 Hf2 HD2) as (V2 & Ey2 & ED2). fold r2 in V2, Ey2, ED2.
  pose proof (reach_size plat1 _ _ _ _ H1 E1) as Sz1. pose proof (reach_size plat2 _ _ _ _ H2 E2) as Sz2. fold r1 x in Sz1. fold r2 y in Sz2.
  rewrite Hm1 in *. rewrite Hm2 in *. rewrite Hr in *. set (ratio := r_ratio r1) in *. fold x in Ey1. fold y in Ey2.
  rewrite Ex in Ey2, Sz2. cbn [out_size] in *.
  assert (R1 : 1 <= ratio) by (destruct Vr as [?|[?|[?|?]]]; lia).
  assert (RP : (1 <= IZR ratio)%R) by (now apply IZR_le in R1).
  assert (Dp : forall md p, fir_prec p \/ ratio = 1 -> 0 <= fir_delay8 md ratio p).
  { intros md p Hp. unfold fir_delay8. destruct Vr as [Vr|Vr]; [rewrite Vr; destruct md; cbn; lia|].
    destruct Hp as [Hp|]; [|lia].
    assert (L : forall s, stage_no s -> 2 <= fir_len s p) by (intros s Hs; rewrite <- (size_len UP); now apply ft_facts).
    pose proof (L 2 ltac:(unfold stage_no; auto)). pose proof (L 4 ltac:(unfold stage_no; auto)). pose proof (L 8 ltac:(unfold stage_no; auto)).
    destruct md, Vr as [->|[->| ->]]; cbn [Z.eqb Pos.eqb]; lia. }
  assert (P1 : fir_prec (r_prec r1) \/ ratio = 1) by (destruct Vr as [?|Vr]; [now right | left; apply VT; lia]).
  assert (P2 : fir_prec (r_prec r2) \/ ratio = 1) by (destruct V2 as [_ VT2]; destruct Vr as [?|Vr]; [now right | left; apply VT2; lia]).
  pose proof (Dp UP _ P1) as Dp1. pose proof (Dp DOWN _ P2) as Dp2.
  assert (J0 : 0 <= j).
  { apply le_IZR. assert (0 <= D)%R; [|lra]. unfold D. rewrite ED1, ED2. apply IZR_le in Dp1, Dp2.
    assert (0 <= / IZR ratio)%R by (apply Rlt_le, Rinv_0_lt_compat; lra).
    assert (0 <= IZR (fir_delay8 UP ratio (r_prec r1)) / 8 / IZR ratio)%R by (apply Rmult_le_pos; lra). lra. }
  assert (Hx : 0 < size x).
  { assert (0 <= size x) by (unfold size; lia). destruct (Z.eq_dec (size x) 0) as [E0|]; [|lia].
    rewrite Sz1, E0, Z.mul_0_l, Z.div_0_l in Sz2 by lia. lia. }
  pose proof (near_line x a b M Hx HL) as Hn. pose proof Hn as (_ & _ & M0 & _).
  assert (Q4 : 4 * (fir_delay8 UP ratio (r_prec r1) / 4) = fir_delay8 UP ratio (r_prec r1)).
  { symmetry. apply Z.div_exact; [lia|]. unfold fir_delay8. rewrite Z.mul_comm. now rewrite <- Z.mul_mod_idemp_r, Z.mul_0_r by lia. }
  pose proof (resample_up_near (r_prec r1) ratio x 0 a b 0 M (fir_delay8 UP ratio (r_prec r1) / 4) (conj Vr VT) Hn ltac:(lia)) as N1.
  rewrite <- Ey1, <- ED1 in N1.
  assert (JJ : 4 * (fir_delay8 UP ratio (r_prec r1) / 4) + ratio * fir_delay8 DOWN ratio (r_prec r2) <= 4 * ratio * j).
  { rewrite Q4. apply le_IZR. rewrite plus_IZR, !mult_IZR. unfold D in Hj. rewrite ED1, ED2 in Hj.
    set (d1 := IZR (fir_delay8 UP ratio (r_prec r1))) in *. set (d2 := IZR (fir_delay8 DOWN ratio (r_prec r2))) in *.
    apply (Rmult_le_compat_l (4 * IZR ratio)) in Hj; [|lra].
    replace (4 * IZR ratio * (2 * (d1 / 8 / IZR ratio + d2 / 8)))%R with (d1 + IZR ratio * d2)%R in Hj by (field; lra). exact Hj. }
  pose proof (resample_down_near (r_prec r2) ratio _ _ _ _ _ _ j V2 N1 JJ) as (_ & _ & _ & N2 & _).
  rewrite <- Ey2, <- ED2 in N2. specialize (N2 j ltac:(lia)).
  replace (a - b * (D1 / IZR ratio) - b / IZR ratio * (D2 * IZR ratio) + b / IZR ratio * IZR ratio * IZR j)%R
    with (a + b * (IZR j - D))%R in N2 by (unfold D; field; lra).
  eapply Rle_trans; [exact N2|]. unfold accuracy. rewrite Hm1, Hm2, Hr. fold ratio. fold (tolerance (r_prec r1)). fold (tolerance (r_prec r2)).
  unfold cascade_tol, half. rewrite Rmult_0_r, Rplus_0_l.
  set (k := (if ratio =? 1 then 0 else if ratio =? 2 then 1 else if ratio =? 4 then 3 else 6)%R).
  assert (K0 : (0 <= k)%R) by (unfold k; destruct (ratio =? 1), (ratio =? 2), (ratio =? 4); lra).
  assert (KG : (0 <= cascade_gain DOWN ratio <= 4)%R) by (unfold cascade_gain; destruct (ratio =? 1), (ratio =? 2), (ratio =? 4); lra).
  assert (T1 : (0 <= 1 * k * tolerance (r_prec r1) * M)%R).
  { destruct P1 as [P1|P1]; [pose proof (tolerance_pos _ P1); repeat apply Rmult_le_pos; lra|].
    unfold k. rewrite P1. cbn. lra. }
  assert (cascade_gain DOWN ratio * (1 * k * tolerance (r_prec r1) * M) <= 4 * (1 * k * tolerance (r_prec r1) * M))%R by (apply Rmult_le_compat_r; lra).
  lra.
Qed.
Example C50_case plat (sse : bool) : exists st1 (m1 : mem RA) o1 st2 (m2 : mem RA) o2 D1 D2,
  reach plat st1 m1 /\ st1 0 = Some o1 /\ reach plat st2 m2 /\ st2 1 = Some o2 /\
  r_filter (o_res o1) = FILTER_FIR /\ r_mode (o_res o1) = UP /\ r_filter (o_res o2) = FILTER_FIR /\ r_mode (o_res o2) = DOWN /\
  r_ratio (o_res o1) = 4 /\ r_ratio (o_res o2) = 4 /\ delay_is (o_res o1) D1 /\ delay_is (o_res o2) D2 /\ o_in o2 = o_out o1 /\
  o_in o1 = line 5 (-1 / 2) 400 /\ (2 * (D1 / 4 + D2) <= 120)%R /\ 120 < size (o_out o2).
Proof.
  destruct (some_obj (A := RA) plat UP 4 PREC_144DB sse FILTER_FIR 0 [(0, line 5 (-1 / 2) 400)] eq_refl) as (st1 & m1 & o1 & H1 & E1 & Er1 & Ei1).
  cbn [map concat snd] in Ei1. rewrite app_nil_r in Ei1.
  assert (L : length (o_out o1) = 1600%nat).
  { pose proof (reach_size plat _ _ _ _ H1 E1) as S. rewrite Er1, Ei1 in S. unfold line in S. rewrite size_tab in S by lia. cbn [out_size built r_mode r_ratio] in S. unfold size in S. lia. }
  destruct (some_obj (A := RA) plat DOWN 4 PREC_144DB sse FILTER_FIR 1 [(0, o_out o1)]) as (st2 & m2 & o2 & H2 & E2 & Er2 & Ei2).
  { cbn [forallb snd fst]. rewrite L. reflexivity. }
  cbn [map concat snd] in Ei2. rewrite app_nil_r in Ei2.
  exists st1, m1, o1, st2, m2, o2, (IZR (fir_delay8 UP 4 PREC_144DB) / 8)%R, (IZR (fir_delay8 DOWN 4 PREC_144DB) / 8)%R.
  rewrite (reach_size plat _ _ _ _ H2 E2), Er1, Er2, Ei1, Ei2. repeat split; try assumption.
  - apply fir_delay_is. now apply configb_ok.
  - apply fir_delay_is. now apply configb_ok.
  - replace (fir_delay8 UP 4 PREC_144DB) with 936 by reflexivity. replace (fir_delay8 DOWN 4 PREC_144DB) with 234 by reflexivity. lra.
  - unfold size. rewrite L. reflexivity.
Qed.

Print Assumptions C23_ramp.
Print Assumptions C23_ramp_ratio_2.
Print Assumptions C24_linear_phase.
Print Assumptions C24_impulse_response_symmetric.
Print Assumptions C25_fir_dc_gain.
Print Assumptions C27_tap_sums.
Print Assumptions C27_bounded.
Print Assumptions C49_sine_upsampling.
Print Assumptions C49_sine_downsampling.
Print Assumptions C50_round_trip.
