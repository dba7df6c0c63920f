(** * Properties: gain, stability and energy of IIR resamplers in exact arithmetic *)
From Coq Require Import ZArith Reals List Lia Lra Bool ZifyNat ZifyBool.
From Verif Require Import Arith ArithR ArithF Mem FirModel IirModel Tables ResamplerModel Wp Stage Cascade
  ResamplerProof ResamplerOk Spec SpecOk SpecR Client Feed StreamFacts DelayFacts Twin TablesF TableFacts FirReal IirReal Cases PropsFir.
Import ListNotations.
Open Scope Z_scope.

Lemma reach_iir plat st (m : mem RA) id o : reach plat st m -> st id = Some o -> let r := o_res o in
  r_filter r = FILTER_IIR ->
  valid FILTER_IIR (r_ratio r) (r_prec r) /\ o_out o = resample FILTER_IIR (r_mode r) (r_prec r) false (r_ratio r) (o_in o) /\
  (r_mode r = DOWN -> size (o_in o) mod r_ratio r = 0).
Proof.
  intros H E r Hf. destruct (reach_built plat _ _ _ _ H E) as [Bu V]. fold r in Bu, V. rewrite Hf in V. split; [exact V|].
  pose proof (reach_R plat _ _ _ _ H E) as R. cbn zeta in R. fold r in R. rewrite Hf in R. split; [exact R|].
  intros Hm. exact (reach_multiple plat _ _ _ _ H E Hm).
Qed.

(** ** C34 *)

(** how far the output of an IIR resampler may exceed its input *)
Definition iir_bound (ratio : Z) : R := if ratio =? 1 then 1%R else if ratio =? 2 then 17%R else if ratio =? 4 then 68%R else 204%R.

Theorem C34_bounded plat st (m : mem RA) id o M :
  reach plat st m -> st id = Some o -> r_filter (o_res o) = FILTER_IIR ->
  (forall k, 0 <= k < size (o_in o) -> (Rabs (smp (o_in o) k) <= M)%R) ->
  forall j, 0 <= j < size (o_out o) -> (Rabs (smp (o_out o) j) <= iir_bound (r_ratio (o_res o)) * M)%R.
Proof.
  intros H E Hf Hx j Hj. destruct (reach_iir plat _ _ _ _ H E Hf) as (V & Ey & Hmod). set (r := o_res o) in *.
  pose proof (reach_size plat _ _ _ _ H E) as Sz. fold r in Sz.
  assert (M0 : (0 <= M)%R).
  { assert (0 < size (o_in o)); [|specialize (Hx 0 ltac:(lia)); pose proof (Rabs_pos (smp (o_in o) 0)); lra].
    destruct (Z_lt_le_dec 0 (size (o_in o))) as [|L]; [assumption|]. assert (Z0 : size (o_in o) = 0) by (unfold size in *; lia).
    rewrite Z0 in Sz. destruct V as [V _]. unfold out_size in Sz. destruct (r_mode r); [lia|]. rewrite Z.div_0_l in Sz; destruct V as [?|[?|[?|?]]]; lia. }
  assert (W : steady (IZR 100 / 100) (fun _ => 1%R)) by (intros k _; lra).
  assert (W1 : steady 1 (fun _ => 1%R)) by (intros k _; lra).
  assert (T : tends (o_in o) 0 M (fun _ => 1%R)).
  { split; [rewrite Rabs_R0; lra|]. intros k Hk. rewrite Rmult_1_r. replace (smp (o_in o) k - 0)%R with (smp (o_in o) k : R) by (change (Arith.T RA) with R; lra). now apply Hx. }
  assert (G : tends (o_out o) 0 (IZR (resample_K 100 (r_ratio r)) * M) (fun _ => 1%R)).
  { rewrite Ey. destruct (r_mode r) eqn:Em.
    - exact (resample_up_tends 100 _ _ _ _ _ _ ltac:(auto) V W T).
    - apply (resample_down_tends 100 1 _ _ _ _ _ (fun _ => 1%R) ltac:(auto) V (Hmod eq_refl)); try assumption; try lra. intros; lra. }
  destruct G as [_ G]. specialize (G j Hj). rewrite Rmult_1_r in G.
  replace (smp (o_out o) j - 0)%R with (smp (o_out o) j : R) in G by (change (Arith.T RA) with R; lra).
  eapply Rle_trans; [exact G|]. apply Req_le. unfold iir_bound, resample_K. destruct V as [[->|[->|[->| ->]]] _]; cbn; lra.
Qed.

(** after the input has settled to a constant, with samples of at most M before, the
    output tends to the same constant; at 0.95 per input sample (upsampling), at 0.994
    per input sample (downsampling) *)
Definition settle_rate (md : rmode) : R := match md with UP => (95 / 100)%R | DOWN => (994 / 1000)%R end.
Definition settle_gain (ratio : Z) : R := if ratio =? 1 then 1%R else if ratio =? 2 then 48%R else if ratio =? 4 then 288%R else 864%R.
(** input samples between the time n0 and output j *)
Definition settle_time (r : resampler) (n0 j : Z) : nat :=
  Z.to_nat (match r_mode r with UP => j / r_ratio r - n0 | DOWN => r_ratio r * j - n0 end).

Theorem C25_iir_settles plat st (m : mem RA) id o M a n0 :
  reach plat st m -> st id = Some o ->
  let r := o_res o in
  r_filter r = FILTER_IIR -> 0 <= n0 -> (Rabs a <= M)%R ->
  (forall k, 0 <= k < size (o_in o) -> (Rabs (smp (o_in o) k) <= M)%R) ->
  (forall k, n0 <= k < size (o_in o) -> smp (o_in o) k = a) ->
  forall j, 0 <= j < size (o_out o) ->
  (Rabs (smp (o_out o) j - a) <= settle_gain (r_ratio r) * (2 * M) * settle_rate (r_mode r) ^ settle_time r n0 j)%R.
Proof.
  intros H E r Hf Hn Ha HM Hx j Hj. destruct (reach_iir plat _ _ _ _ H E Hf) as (V & Ey & Hmod). fold r in V, Ey, Hmod.
  assert (Wt : forall rho, (0 <= rho <= 1)%R -> steady rho (fun k => (rho ^ Z.to_nat (k - n0))%R)).
  { intros rho Hr k Hk. split; [apply pow_le; lra|]. destruct (Z_lt_le_dec k n0).
    - replace (Z.to_nat (k - n0)) with 0%nat by lia. replace (Z.to_nat (k + 1 - n0)) with 0%nat by lia. cbn; lra.
    - replace (Z.to_nat (k + 1 - n0)) with (S (Z.to_nat (k - n0))) by lia. cbn [pow]. lra. }
  assert (Mon : forall rho, (0 <= rho <= 1)%R -> forall i k, 0 <= i <= k -> (rho ^ Z.to_nat (k - n0) <= rho ^ Z.to_nat (i - n0))%R).
  { intros rho Hr i k Hk. replace (Z.to_nat (k - n0)) with (Z.to_nat (i - n0) + (Z.to_nat (k - n0) - Z.to_nat (i - n0)))%nat by lia. rewrite pow_add.
    rewrite <- (Rmult_1_r (rho ^ Z.to_nat (i - n0))) at 2. apply Rmult_le_compat_l; [apply pow_le; lra|].
    rewrite <- (pow1 (Z.to_nat (k - n0) - Z.to_nat (i - n0))). apply pow_incr. lra. }
  assert (M0 : (0 <= M)%R) by (pose proof (Rabs_pos a); lra).
  assert (T : forall rho, (0 <= rho <= 1)%R -> tends (o_in o) a (2 * M) (fun k => (rho ^ Z.to_nat (k - n0))%R)).
  { intros rho Hr. split.
    - split; [lra|]. cbv beta. replace (Z.to_nat (0 - n0)) with 0%nat by lia. cbn. lra.
    - intros k Hk. destruct (Z_lt_le_dec k n0).
      + replace (Z.to_nat (k - n0)) with 0%nat by lia. cbn [pow]. specialize (HM k Hk).
        replace (smp (o_in o) k - a)%R with (smp (o_in o) k + - a)%R by (change (Arith.T RA) with R; lra). eapply Rle_trans; [apply Rabs_triang|]. rewrite Rabs_Ropp. lra.
      + rewrite Hx by lia. rewrite Rminus_eq_0, Rabs_R0. apply Rmult_le_pos; [lra | apply pow_le; lra]. }
  assert (KS : IZR (resample_K 95 (r_ratio r)) = settle_gain (r_ratio r)).
  { unfold settle_gain, resample_K. destruct V as [[->|[->|[->| ->]]] _]; cbn; lra. }
  rewrite <- KS. unfold settle_time. rewrite Ey in Hj |- *. destruct (r_mode r) eqn:Em; unfold settle_rate.
  - destruct (resample_up_tends 95 _ _ _ _ _ _ ltac:(auto) V (Wt (95 / 100)%R ltac:(lra)) (T (95 / 100)%R ltac:(lra))) as [_ G]. exact (G j Hj).
  - destruct (resample_down_tends 95 (994 / 1000) _ _ _ _ _ _ ltac:(auto) V (Hmod eq_refl) ltac:(lra) ltac:(cbn; lra)
      (Mon (994 / 1000)%R ltac:(lra)) (Wt (994 / 1000)%R ltac:(lra)) (T (994 / 1000)%R ltac:(lra))) as [_ G]. exact (G j Hj).
Qed.
(** in particular: silence is followed by silence *)
Theorem C34_decay plat st (m : mem RA) id o M n0 :
  reach plat st m -> st id = Some o ->
  let r := o_res o in
  r_filter r = FILTER_IIR -> 0 <= n0 -> (0 <= M)%R ->
  (forall k, 0 <= k < size (o_in o) -> (Rabs (smp (o_in o) k) <= M)%R) ->
  (forall k, n0 <= k < size (o_in o) -> smp (o_in o) k = 0%R) ->
  forall j, 0 <= j < size (o_out o) ->
  (Rabs (smp (o_out o) j) <= settle_gain (r_ratio r) * (2 * M) * settle_rate (r_mode r) ^ settle_time r n0 j)%R.
Proof.
  intros H E r Hf Hn M0 HM Hx j Hj.
  pose proof (C25_iir_settles plat _ _ _ _ M 0 n0 H E Hf Hn ltac:(rewrite Rabs_R0; exact M0) HM Hx j Hj) as Q. fold r in Q.
  replace (smp (o_out o) j - 0)%R with (smp (o_out o) j : R) in Q by (change (Arith.T RA) with R; lra). exact Q.
Qed.
(** the limit is the constant itself *)
Theorem C25_iir_limit M a n0 eps : 0 <= n0 -> (Rabs a <= M)%R -> (0 < eps)%R -> exists J, forall plat st (m : mem RA) id o,
  reach plat st m -> st id = Some o -> r_filter (o_res o) = FILTER_IIR ->
  (forall k, 0 <= k < size (o_in o) -> (Rabs (smp (o_in o) k) <= M)%R) ->
  (forall k, n0 <= k < size (o_in o) -> smp (o_in o) k = a) ->
  forall j, J <= j < size (o_out o) -> (Rabs (smp (o_out o) j - a) < eps)%R.
Proof.
  intros Hn Ha He. assert (M0 : (0 <= M)%R) by (pose proof (Rabs_pos a); lra).
  destruct (pow_lt_1_zero (994 / 1000) ltac:(rewrite Rabs_pos_eq; lra) (eps / (1728 * M + 1)) ltac:(apply Rdiv_lt_0_compat; lra)) as [N HN].
  exists (8 * (n0 + Z.of_nat N) + 8). intros plat st m id o H E Hf HM Hx j Hj.
  eapply Rle_lt_trans; [apply (C25_iir_settles plat _ _ _ _ M a n0 H E Hf Hn Ha HM Hx); lia|].
  destruct (reach_built plat _ _ _ _ H E) as [_ [V _]]. set (r := o_res o) in *.
  assert (TN : (N <= settle_time r n0 j)%nat).
  { unfold settle_time. destruct (r_mode r); [|destruct V as [V|[V|[V|V]]]; rewrite V; lia]. assert (n0 + Z.of_nat N <= j / r_ratio r); [|lia].
    apply Z.div_le_lower_bound; destruct V as [V|[V|[V|V]]]; rewrite V in *; lia. }
  specialize (HN _ TN). rewrite Rabs_pos_eq in HN by (apply pow_le; lra).
  assert (G : (0 <= settle_gain (r_ratio r) <= 864)%R) by (unfold settle_gain; destruct (r_ratio r =? 1), (r_ratio r =? 2), (r_ratio r =? 4); lra).
  assert (P : (0 <= settle_rate (r_mode r) ^ settle_time r n0 j <= (994 / 1000) ^ settle_time r n0 j)%R).
  { unfold settle_rate. destruct (r_mode r); (split; [apply pow_le; lra | apply pow_incr; lra]). }
  set (q := ((994 / 1000) ^ settle_time r n0 j)%R) in *. set (q' := (settle_rate (r_mode r) ^ settle_time r n0 j)%R) in *.
  assert (A1 : (settle_gain (r_ratio r) * (2 * M) * q' <= 864 * (2 * M) * q)%R).
  { apply Rmult_le_compat; try lra; [apply Rmult_le_pos; lra|]. apply Rmult_le_compat_r; lra. }
  assert (A2 : (q * (1728 * M + 1) < eps)%R).
  { apply Rmult_lt_reg_r with (/ (1728 * M + 1))%R; [apply Rinv_0_lt_compat; lra|]. rewrite Rmult_assoc, Rinv_r by lra. rewrite Rmult_1_r. exact HN. }
  lra.
Qed.

Definition step (a : R) (n0 n : Z) : list RA := tab n (fun k => (if k <? n0 then - a / 2 else a)%R : RA).
Example C25_iir_case plat (sse : bool) md : exists st (m : mem RA) o, reach plat st m /\ st 0 = Some o /\
  r_filter (o_res o) = FILTER_IIR /\ r_mode (o_res o) = md /\ r_ratio (o_res o) = 8 /\ r_prec (o_res o) = PREC_144DB /\ r_use_sse (o_res o) = sse /\
  o_in o = step 3 100 4000 /\ (forall k, 0 <= k < size (o_in o) -> (Rabs (smp (o_in o) k) <= 3)%R) /\
  (forall k, 100 <= k < size (o_in o) -> smp (o_in o) k = 3%R).
Proof.
  destruct (some_obj (A := RA) plat md 8 PREC_144DB sse FILTER_IIR 0 [(0, step 3 100 4000)]) as (st & m & o & H & E & Er & Ei).
  { cbn [forallb snd fst]. assert (length (step 3 100 4000) = 4000%nat) as -> by (unfold step, tab; rewrite map_length, seq_length; reflexivity). destruct md; reflexivity. }
  cbn [map concat snd] in Ei. rewrite app_nil_r in Ei.
  exists st, m, o. rewrite Er, Ei. repeat split; try assumption; unfold step; intros k Hk; rewrite size_tab in Hk by lia; rewrite smp_tab by lia.
  - apply Rabs_le. destruct (k <? 100); lra.
  - replace (k <? 100) with false by lia. reflexivity.
Qed.
Example C34_case plat (sse : bool) md : exists st (m : mem RA) o, reach plat st m /\ st 0 = Some o /\
  r_filter (o_res o) = FILTER_IIR /\ r_mode (o_res o) = md /\ r_ratio (o_res o) = 2 /\ r_prec (o_res o) = PREC_48DB /\ r_use_sse (o_res o) = sse /\
  size (o_in o) = 40 /\ (forall k, 0 <= k < size (o_in o) -> (Rabs (smp (o_in o) k) <= 1)%R) /\
  (forall k, 1 <= k < size (o_in o) -> smp (o_in o) k = 0%R) /\ smp (o_in o) 0 = 1%R.
Proof.
  destruct (some_obj (A := RA) plat md 2 PREC_48DB sse FILTER_IIR 0 [(0, tab 40 (fun k => (if k =? 0 then 1 else 0)%R : RA))]) as (st & m & o & H & E & Er & Ei).
  { destruct md; reflexivity. }
  cbn [map concat snd] in Ei. rewrite app_nil_r in Ei.
  exists st, m, o. rewrite Er, Ei. do 8 (split; [first [assumption | reflexivity]|]). split; [|split]; [intros k Hk | intros k Hk |]; try rewrite size_tab in Hk by lia; rewrite smp_tab by lia.
  - destruct (k =? 0); rewrite Rabs_pos_eq; lra.
  - replace (k =? 0) with false by lia. reflexivity.
  - reflexivity.
Qed.

(** ** C35 *)

(** each chain of sections passes on the energy it does not hold back *)
Theorem C35_chain_lossless (cs x : list RA) : Forall (fun c : R => -1 < c < 1)%R cs ->
  (energy (chain (A := RA) cs x) + chain_stored cs x = energy x /\ 0 <= chain_stored cs x)%R.
Proof. intros F. split; [now apply chain_energy | now apply chain_stored_pos]. Qed.
Theorem C35_upsampler_ratio_2 plat st (m : mem RA) id o :
  reach plat st m -> st id = Some o ->
  let r := o_res o in
  r_filter r = FILTER_IIR -> r_mode r = UP -> r_ratio r = 2 ->
  let cs := coeffs (A := RA) FILTER_IIR UP (r_prec r) 2 in
  (energy (o_out o) + (chain_stored (evens cs) (o_in o) + chain_stored (odds cs) (o_in o)) = 2 * energy (o_in o))%R.
Proof.
  intros H E r Hf Hm H2 cs. destruct (reach_iir plat _ _ _ _ H E Hf) as ([_ V] & Ey & _). fold r in V, Ey.
  rewrite Ey, Hm, H2. unfold resample. cbn [Z.eqb Pos.eqb]. apply up_energy. apply iir_stage_unit; [left; reflexivity | apply V; lia].
Qed.
Theorem C35_energy plat st (m : mem RA) id o :
  reach plat st m -> st id = Some o ->
  let r := o_res o in
  r_filter r = FILTER_IIR ->
  (energy (o_out o) <= match r_mode r with UP => IZR (r_ratio r) | DOWN => / IZR (r_ratio r) end * energy (o_in o))%R.
Proof.
  intros H E r Hf. destruct (reach_iir plat _ _ _ _ H E Hf) as (V & Ey & _). fold r in V, Ey. rewrite Ey. now apply resample_energy.
Qed.
(** one section, one sample: 1/4 of it comes out at once, and (with the coefficient 1/2) 3/4 is kept *)
Example C35_case : Forall (fun c : R => -1 < c < 1)%R [(1 / 2)%R] /\ energy [2%R : RA] = 4%R /\
  energy (chain (A := RA) [(1 / 2)%R : RA] [2%R : RA]) = 1%R /\ chain_stored [(1 / 2)%R : RA] [2%R : RA] = 3%R.
Proof. repeat split; [repeat constructor; lra | cbn; lra | cbn; lra | cbn; unfold stored; lra]. Qed.

Print Assumptions C34_bounded.
Print Assumptions C34_decay.
Print Assumptions C25_iir_settles.
Print Assumptions C25_iir_limit.
Print Assumptions C35_chain_lossless.
Print Assumptions C35_upsampler_ratio_2.
Print Assumptions C35_energy.
