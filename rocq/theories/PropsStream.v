(** * Properties: what comes out of a resampler

    [reach plat st m]: a program using resampler objects can be in a state where
    the memory is m and object id is [st id]; [o_in o], [o_out o]: all samples
    given to and returned by the object since its construction or last reset, in
    any number of process_block calls of any sizes (see Client.v). *)
From Coq Require Import ZArith Reals List Lia Lra Bool ZifyNat.
From Verif Require Import Arith ArithR ArithF Mem FirModel IirModel Tables ResamplerModel Wp Stage Cascade
  ResamplerProof ResamplerOk Spec SpecOk SpecR LinFacts Client Feed Twin StreamFacts DelayFacts Cases FloatComm.
Import ListNotations.
Open Scope Z_scope.

(** ** C01 *)
Theorem C01_fir_upsampling plat st (m : mem RA) id o :
  reach plat st m -> st id = Some o ->
  let r := o_res o in
  r_filter r = FILTER_FIR -> r_mode r = UP -> r_ratio r = 2 ->
  exists N, order r = Ok N /\
  let t := coeffs (A := RA) FILTER_FIR UP (r_prec r) 2 in let x := o_in o in let y := o_out o in
  size t = N /\ size y = 2 * size x /\
  forall k, 0 <= k < size x ->
    smp y (2 * k) = sumR (Z.to_nat N) (fun i => (smp t i * smp x (k - N + 1 + i))%R) /\
    smp y (2 * k + 1) = smp x (k - N / 2 + 1).
Proof.
  intros H E r Hf Hm H2. exists (size (coeffs (A := RA) FILTER_FIR UP (r_prec r) 2)).
  split; [pose proof (reach_order plat _ _ _ _ H E ltac:(fold r; lia)) as O; cbn zeta in O; fold r in O; now rewrite Hf, Hm in O|].
  intros t x y. split; [reflexivity|].
  pose proof (reach_R plat _ _ _ _ H E) as R. cbn zeta in R. fold r x y in R. rewrite Hf, Hm, H2 in R. cbn in R.
  unfold stage in R. fold t in R.
  assert (S : size y = 2 * size x) by (rewrite R; apply size_tab; unfold size; lia). split; [exact S|].
  intros k Hk. rewrite R. unfold fir_up2. rewrite !smp_tab by lia. unfold fir_up_at.
  rewrite Z.even_mul, Z.even_add, Z.even_mul. cbn [Z.even orb xorb].
  replace (2 * k / 2) with k by (rewrite Z.mul_comm, Z.div_mul; lia).
  replace ((2 * k + 1) / 2) with k by (apply Z.div_unique with 1; lia). split; [|reflexivity].
  fold t. replace (Z.to_nat (size t)) with (length t) by (unfold size; lia). rewrite mac_sum. apply sumR_ext. intros i Hi. cbn. lra.
Qed.
(** linear interpolation of 1, 3 given in two calls with differently aligned buffers *)
Example C01_case plat (sse : bool) : exists st (m : mem RA) o, reach plat st m /\ st 0 = Some o /\ r_filter (o_res o) = FILTER_FIR /\
  r_mode (o_res o) = UP /\ r_ratio (o_res o) = 2 /\ r_use_sse (o_res o) = sse /\ o_in o = [1; 3]%R /\ o_out o = [1 / 2; 1; 2; 3]%R.
Proof.
  destruct (some_obj (A := RA) plat UP 2 PREC_LINEAR sse FILTER_FIR 0 [(0, [1%R]); (3, [3%R])] eq_refl) as (st & m & o & H & E & Er & Ei).
  exists st, m, o. rewrite (reach_R plat _ _ _ _ H E), Er, Ei. repeat split; try assumption.
  cbn [built r_filter r_mode r_ratio r_prec resample Z.eqb Pos.eqb stage]. rewrite linear_up by (left; reflexivity).
  unfold fir_up2. cbv -[Rplus Rmult Rdiv IZR Rinv]. repeat (f_equal; try lra).
Qed.

(** ** C02 *)
Theorem C02_fir_downsampling plat st (m : mem RA) id o :
  reach plat st m -> st id = Some o ->
  let r := o_res o in
  r_filter r = FILTER_FIR -> r_mode r = DOWN -> r_ratio r = 2 ->
  exists N, order r = Ok N /\
  let t := coeffs (A := RA) FILTER_FIR DOWN (r_prec r) 2 in let x := o_in o in let y := o_out o in
  size t = N /\ size y = size x / 2 /\
  forall n, 0 <= n < size y ->
    smp y n = (sumR (Z.to_nat N) (fun i => (smp t i * smp x (2 * (n - N + 1 + i))%Z)%R)
               + / 2 * smp x (2 * (n - N / 2) + 1)%Z)%R.
Proof.
  intros H E r Hf Hm H2. exists (size (coeffs (A := RA) FILTER_FIR DOWN (r_prec r) 2)).
  split; [pose proof (reach_order plat _ _ _ _ H E ltac:(fold r; lia)) as O; cbn zeta in O; fold r in O; now rewrite Hf, Hm in O|].
  intros t x y. split; [reflexivity|].
  pose proof (reach_R plat _ _ _ _ H E) as R. cbn zeta in R. fold r x y in R. rewrite Hf, Hm, H2 in R. cbn in R.
  unfold stage in R. fold t in R. assert (0 <= size x / 2) by (apply Z.div_pos; unfold size; lia).
  assert (S : size y = size x / 2) by (rewrite R; now apply size_tab). split; [exact S|].
  intros n Hn. rewrite R. unfold fir_down2. rewrite !smp_tab by lia. unfold fir_down_at.
  fold t. replace (Z.to_nat (size t)) with (length t) by (unfold size; lia). rewrite mac_sum. cbn [fadd fmul fhalf RA]. f_equal. apply sumR_ext. intros i Hi. cbn. lra.
Qed.
Example C02_case plat (sse : bool) : exists st (m : mem RA) o, reach plat st m /\ st 0 = Some o /\ r_filter (o_res o) = FILTER_FIR /\
  r_mode (o_res o) = DOWN /\ r_ratio (o_res o) = 2 /\ r_use_sse (o_res o) = sse /\ o_in o = [4; 8; 12; 16]%R /\ o_out o = [1; 8]%R.
Proof.
  destruct (some_obj (A := RA) plat DOWN 2 PREC_LINEAR sse FILTER_FIR 0 [(0, [4; 8]%R); (3, [12; 16]%R)] eq_refl) as (st & m & o & H & E & Er & Ei).
  exists st, m, o. rewrite (reach_R plat _ _ _ _ H E), Er, Ei. repeat split; try assumption.
  cbn [built r_filter r_mode r_ratio r_prec resample Z.eqb Pos.eqb stage]. rewrite linear_down by (left; reflexivity).
  unfold fir_down2. cbv -[Rplus Rmult Rdiv IZR Rinv]. repeat (f_equal; try lra).
Qed.

(** ** C03 *)
Theorem C03_passthrough {A : arith} plat st (m : mem A) id o :
  reach plat st m -> st id = Some o ->
  let r := o_res o in
  r_filter r = FILTER_FIR -> r_mode r = UP ->
  exists D : Z, delay_is r (IZR D) /\ 0 <= D /\
  forall k, 0 <= k -> D + r_ratio r * k < size (o_out o) -> smp (o_out o) (D + r_ratio r * k) = smp (o_in o) k.
Proof.
  intros H E r Hf Hm. destruct (reach_built plat _ _ _ _ H E) as [B V]. fold r in B, V. rewrite Hf in V.
  pose proof (reach_resample_any plat _ _ _ _ H E) as R. cbn zeta in R. fold r in R. rewrite Hf, Hm in R, B.
  exists (fir_delay8 UP (r_ratio r) (r_prec r) / 8). split; [|split].
  - rewrite B at 1. replace (IZR (fir_delay8 UP (r_ratio r) (r_prec r) / 8)) with (IZR (fir_delay8 UP (r_ratio r) (r_prec r)) / 8)%R.
    + now apply fir_delay_is.
    + unfold fir_delay8. cbn zeta. rewrite (Z.mul_comm 8), Z.div_mul by lia. rewrite mult_IZR. lra.
  - apply Z.div_pos; [|lia]. destruct V as [[->|Hr] HT]; [reflexivity|].
    assert (HP : has_tables FILTER_FIR (r_prec r)) by (apply HT; lia). cbn in HP.
    destruct HP as [->|[->|[->|[->|[->| ->]]]]], Hr as [->|[->| ->]]; vm_compute; discriminate.
  - intros k Hk. unfold fir_delay8. cbn zeta. rewrite (Z.mul_comm 8), Z.div_mul by lia.
    destruct (Z.eqb_spec (r_ratio r) 1) as [E1|].
    + rewrite E1 in *. cbn in R. rewrite R. intros _. f_equal. lia.
    + assert (H2 : 2 <= r_ratio r) by (destruct V as [[?|[?|[?|?]]] _]; lia).
      pose proof (resample_up_pass _ _ _ _ _ V H2 R k Hk) as P. cbn beta zeta in P. rewrite !coeffs_size in P. exact P.
Qed.
(** 300 samples upsampled by 8 in three calls *)
Example C03_case plat : exists st (m : mem F32) o, reach plat st m /\ st 0 = Some o /\ r_filter (o_res o) = FILTER_FIR /\
  r_mode (o_res o) = UP /\ r_ratio (o_res o) = 8 /\ size (o_in o) = 300.
Proof.
  destruct (some_obj (A := F32) plat UP 8 PREC_96DB true FILTER_FIR 0 [(0, repeat f1 7); (3, repeat fhalf 290); (1, [f0; f1; f0])] eq_refl)
    as (st & m & o & H & E & Er & Ei).
  exists st, m, o. rewrite Er, Ei. repeat split; assumption.
Qed.

(** ** C04 *)
Theorem C04_partition_independent {A : arith} plat1 st1 (m1 : mem A) id1 o1 plat2 st2 m2 id2 o2 :
  reach plat1 st1 m1 -> st1 id1 = Some o1 -> reach plat2 st2 m2 -> st2 id2 = Some o2 ->
  let r1 := o_res o1 in let r2 := o_res o2 in
  r_filter r1 = FILTER_FIR -> r_filter r2 = FILTER_FIR ->
  vector plat1 FILTER_FIR (r_use_sse r1) = false -> vector plat2 FILTER_FIR (r_use_sse r2) = false ->
  r_mode r1 = r_mode r2 -> r_ratio r1 = r_ratio r2 -> r_prec r1 = r_prec r2 ->
  o_in o1 = o_in o2 -> o_out o1 = o_out o2.
Proof.
  intros H1 E1 H2 E2 r1 r2 F1 F2 V1 V2 Em Er Ep Ei.
  rewrite (reach_resample plat1 _ _ _ _ H1 E1) by (fold r1; rewrite F1; auto).
  rewrite (reach_resample plat2 _ _ _ _ H2 E2) by (fold r2; rewrite F2; auto).
  fold r1 r2. now rewrite F1, F2, V1, V2, Em, Er, Ep, Ei.
Qed.
(** 2 + 6 samples or 8 samples at once *)
Example C04_case plat : let same (o1 o2 : obj (A := F32)) :=
    r_filter (o_res o1) = FILTER_FIR /\ r_filter (o_res o2) = FILTER_FIR /\
    vector plat FILTER_FIR (r_use_sse (o_res o1)) = false /\ vector plat FILTER_FIR (r_use_sse (o_res o2)) = false /\
    r_mode (o_res o1) = DOWN /\ r_mode (o_res o2) = DOWN /\ r_ratio (o_res o1) = 2 /\ r_ratio (o_res o2) = 2 /\
    r_prec (o_res o1) = PREC_144DB /\ r_prec (o_res o2) = PREC_144DB /\
    o_in o1 = o_in o2 /\ size (o_in o1) = 8 in
  exists st1 (m1 : mem F32) o1 st2 (m2 : mem F32) o2, reach plat st1 m1 /\ st1 0 = Some o1 /\ reach plat st2 m2 /\ st2 7 = Some o2 /\ same o1 o2.
Proof.
  intros same.
  destruct (some_obj (A := F32) plat DOWN 2 PREC_144DB false FILTER_FIR 0 [(0, [f1; fhalf]); (2, repeat f1 6)] eq_refl) as (st1 & m1 & o1 & H1 & E1 & R1 & I1).
  destruct (some_obj (A := F32) plat DOWN 2 PREC_144DB false FILTER_FIR 7 [(1, f1 :: fhalf :: repeat f1 6)] eq_refl) as (st2 & m2 & o2 & H2 & E2 & R2 & I2).
  exists st1, m1, o1, st2, m2, o2. unfold same. rewrite R1, R2, I1, I2. rewrite !vector_false by reflexivity. repeat split; assumption.
Qed.

(** ** C05 *)
Theorem C05_sse_same_in_exact_arithmetic plat1 st1 (m1 : mem RA) id1 o1 plat2 st2 m2 id2 o2 :
  reach plat1 st1 m1 -> st1 id1 = Some o1 -> reach plat2 st2 m2 -> st2 id2 = Some o2 ->
  let r1 := o_res o1 in let r2 := o_res o2 in
  r_filter r1 = r_filter r2 -> r_mode r1 = r_mode r2 -> r_ratio r1 = r_ratio r2 -> r_prec r1 = r_prec r2 ->
  o_in o1 = o_in o2 -> o_out o1 = o_out o2.
Proof.
  intros H1 E1 H2 E2 r1 r2 Ef Em Er Ep Ei.
  rewrite (reach_R plat1 _ _ _ _ H1 E1), (reach_R plat2 _ _ _ _ H2 E2). fold r1 r2. now rewrite Ef, Em, Er, Ep, Ei.
Qed.
(** with and without SSE, different blocks *)
Example C05_case : let p1 := Platform true false in let p2 := Platform false false in
  exists st1 (m1 : mem RA) o1 st2 (m2 : mem RA) o2, reach p1 st1 m1 /\ st1 0 = Some o1 /\ reach p2 st2 m2 /\ st2 0 = Some o2 /\
    sse_enabled (o_res o1) = Ok true /\ sse_enabled (o_res o2) = Ok false /\
    r_filter (o_res o1) = r_filter (o_res o2) /\ r_mode (o_res o1) = r_mode (o_res o2) /\ r_ratio (o_res o1) = r_ratio (o_res o2) /\
    r_prec (o_res o1) = r_prec (o_res o2) /\ o_in o1 = o_in o2 /\ size (o_in o1) = 9.
Proof.
  intros p1 p2.
  destruct (some_obj (A := RA) p1 UP 4 PREC_72DB true FILTER_FIR 0 [(0, [1; 2]%R); (2, repeat 3%R 7)] eq_refl) as (st1 & m1 & o1 & H1 & E1 & R1 & I1).
  destruct (some_obj (A := RA) p2 UP 4 PREC_72DB true FILTER_FIR 0 [(1, (1 :: 2 :: repeat 3 7)%R)] eq_refl) as (st2 & m2 & o2 & H2 & E2 & R2 & I2).
  exists st1, m1, o1, st2, m2, o2. rewrite R1, R2, I1, I2. repeat split; assumption.
Qed.

(** ** C14, C15 *)
Theorem C14_upsampling_composes {A : arith} plat st (m : mem A) id o :
  reach plat st m -> st id = Some o ->
  let r := o_res o in let vec := vector plat (r_filter r) (r_use_sse r) in
  r_mode r = UP -> (r_filter r = FILTER_FIR -> vec = false) ->
  let S s := stage (r_filter r) UP (r_prec r) vec s in
  (r_ratio r = 4 -> o_out o = S 4 (S 2 (o_in o))) /\ (r_ratio r = 8 -> o_out o = S 8 (S 4 (S 2 (o_in o)))).
Proof.
  intros H E r vec Hm V S. pose proof (reach_resample plat _ _ _ _ H E V) as R. cbn zeta in R. fold r vec in R. rewrite Hm in R.
  split; intros Hr; rewrite Hr in R; exact R.
Qed.
Theorem C14_upsampling_composes_exact plat st (m : mem RA) id o :
  reach plat st m -> st id = Some o ->
  let r := o_res o in
  r_mode r = UP ->
  let S s := stage (r_filter r) UP (r_prec r) false s in
  (r_ratio r = 4 -> o_out o = S 4 (S 2 (o_in o))) /\ (r_ratio r = 8 -> o_out o = S 8 (S 4 (S 2 (o_in o)))).
Proof.
  intros H E r Hm S. pose proof (reach_R plat _ _ _ _ H E) as R. cbn zeta in R. fold r in R. rewrite Hm in R.
  split; intros Hr; rewrite Hr in R; exact R.
Qed.
(** with vector code and rounding, every stage still adds up the right products, in one of five orders *)
Theorem C14_upsampling_composes_vector {A : arith} plat st (m : mem A) id o :
  reach plat st m -> st id = Some o ->
  let r := o_res o in
  r_mode r = UP -> r_filter r = FILTER_FIR ->
  let S s := fir_up_any (vector plat FILTER_FIR (r_use_sse r)) (coeffs FILTER_FIR UP (r_prec r) s) in
  (r_ratio r = 4 -> exists a, S 2 (o_in o) a /\ S 4 a (o_out o)) /\
  (r_ratio r = 8 -> exists a b, S 2 (o_in o) a /\ S 4 a b /\ S 8 b (o_out o)).
Proof.
  intros H E r Hm Hf S. pose proof (reach_resample_any plat _ _ _ _ H E) as R. cbn zeta in R. fold r in R. rewrite Hm, Hf in R.
  split; intros Hr; rewrite Hr in R; exact R.
Qed.
(** 2000 samples: two chunks *)
Example C14_case plat f sse : exists st (m : mem F32) o, reach plat st m /\ st 0 = Some o /\ r_filter (o_res o) = f /\
  r_mode (o_res o) = UP /\ r_ratio (o_res o) = 4 /\ r_use_sse (o_res o) = sse /\ size (o_in o) = 2005.
Proof.
  destruct (some_obj (A := F32) plat UP 4 PREC_96DB sse f 0 [(0, repeat f1 5); (3, repeat fhalf 2000)]) as (st & m & o & H & E & Er & Ei).
  { destruct f; reflexivity. }
  exists st, m, o. rewrite Er, Ei. repeat split; assumption.
Qed.
(** linear interpolation, four times *)
Example C14_case_exact plat (sse : bool) : exists st (m : mem RA) o, reach plat st m /\ st 0 = Some o /\
  r_mode (o_res o) = UP /\ r_ratio (o_res o) = 4 /\ r_use_sse (o_res o) = sse /\ o_in o = [1; 3]%R /\
  o_out o = [1 / 4; 1 / 2; 3 / 4; 1; 3 / 2; 2; 5 / 2; 3]%R.
Proof.
  destruct (some_obj (A := RA) plat UP 4 PREC_LINEAR sse FILTER_FIR 0 [(0, [1%R]); (3, [3%R])] eq_refl) as (st & m & o & H & E & Er & Ei).
  exists st, m, o. rewrite (reach_R plat _ _ _ _ H E), Er, Ei. repeat split; try assumption.
  cbn [built r_filter r_mode r_ratio r_prec resample Z.eqb Pos.eqb stage].
  rewrite !linear_up by (unfold stage_no; auto).
  unfold fir_up2. cbv -[Rplus Rmult Rdiv IZR Rinv]. repeat (f_equal; try lra).
Qed.

Theorem C15_downsampling_composes {A : arith} plat st (m : mem A) id o :
  reach plat st m -> st id = Some o ->
  let r := o_res o in let vec := vector plat (r_filter r) (r_use_sse r) in
  r_mode r = DOWN -> (r_filter r = FILTER_FIR -> vec = false) ->
  let S s := stage (r_filter r) DOWN (r_prec r) vec s in
  (r_ratio r = 4 -> o_out o = S 2 (S 4 (o_in o))) /\ (r_ratio r = 8 -> o_out o = S 2 (S 4 (S 8 (o_in o)))).
Proof.
  intros H E r vec Hm V S. pose proof (reach_resample plat _ _ _ _ H E V) as R. cbn zeta in R. fold r vec in R. rewrite Hm in R.
  split; intros Hr; rewrite Hr in R; exact R.
Qed.
Theorem C15_downsampling_composes_exact plat st (m : mem RA) id o :
  reach plat st m -> st id = Some o ->
  let r := o_res o in
  r_mode r = DOWN ->
  let S s := stage (r_filter r) DOWN (r_prec r) false s in
  (r_ratio r = 4 -> o_out o = S 2 (S 4 (o_in o))) /\ (r_ratio r = 8 -> o_out o = S 2 (S 4 (S 8 (o_in o)))).
Proof.
  intros H E r Hm S. pose proof (reach_R plat _ _ _ _ H E) as R. cbn zeta in R. fold r in R. rewrite Hm in R.
  split; intros Hr; rewrite Hr in R; exact R.
Qed.
Theorem C15_downsampling_composes_vector {A : arith} plat st (m : mem A) id o :
  reach plat st m -> st id = Some o ->
  let r := o_res o in
  r_mode r = DOWN -> r_filter r = FILTER_FIR ->
  let S s := fir_down_any (vector plat FILTER_FIR (r_use_sse r)) (coeffs FILTER_FIR DOWN (r_prec r) s) in
  (r_ratio r = 4 -> exists a, S 4 (o_in o) a /\ S 2 a (o_out o)) /\
  (r_ratio r = 8 -> exists a b, S 8 (o_in o) a /\ S 4 a b /\ S 2 b (o_out o)).
Proof.
  intros H E r Hm Hf S. pose proof (reach_resample_any plat _ _ _ _ H E) as R. cbn zeta in R. fold r in R. rewrite Hm, Hf in R.
  split; intros Hr; rewrite Hr in R; exact R.
Qed.
Example C15_case plat f sse : exists st (m : mem F32) o, reach plat st m /\ st 0 = Some o /\ r_filter (o_res o) = f /\
  r_mode (o_res o) = DOWN /\ r_ratio (o_res o) = 8 /\ r_use_sse (o_res o) = sse /\ size (o_in o) = 2016.
Proof.
  destruct (some_obj (A := F32) plat DOWN 8 PREC_96DB sse f 0 [(0, repeat f1 16); (3, repeat fhalf 2000)]) as (st & m & o & H & E & Er & Ei).
  { destruct f; reflexivity. }
  exists st, m, o. rewrite Er, Ei. repeat split; assumption.
Qed.

(** ** C17 *)
Theorem C17_sample_counts {A : arith} plat st (m : mem A) id o :
  reach plat st m -> st id = Some o ->
  let r := o_res o in
  match r_mode r with
  | UP => size (o_out o) = r_ratio r * size (o_in o)
  | DOWN => r_ratio r * size (o_out o) = size (o_in o)
  end.
Proof.
  intros H E r. pose proof (reach_size plat _ _ _ _ H E) as S. unfold out_size in S. fold r in S.
  destruct (r_mode r) eqn:Hm; [lia|]. rewrite S. symmetry. apply Z_div_exact_full_2.
  - destruct (reach_built plat _ _ _ _ H E) as [_ [V _]]. fold r in V. destruct V as [?|[?|[?|?]]]; lia.
  - now apply (reach_multiple plat _ _ _ _ H E).
Qed.

(** ** C26 *)
Theorem C26_linear plat1 st1 (m1 : mem RA) id1 o1 plat2 st2 (m2 : mem RA) id2 o2 plat3 st3 (m3 : mem RA) id3 o3 a b :
  reach plat1 st1 m1 -> st1 id1 = Some o1 -> reach plat2 st2 m2 -> st2 id2 = Some o2 ->
  reach plat3 st3 m3 -> st3 id3 = Some o3 ->
  let r1 := o_res o1 in let r2 := o_res o2 in let r3 := o_res o3 in
  (r_filter r1, r_mode r1, r_ratio r1, r_prec r1) = (r_filter r2, r_mode r2, r_ratio r2, r_prec r2) ->
  (r_filter r1, r_mode r1, r_ratio r1, r_prec r1) = (r_filter r3, r_mode r3, r_ratio r3, r_prec r3) ->
  size (o_in o1) = size (o_in o2) -> size (o_in o3) = size (o_in o1) ->
  (forall k, smp (o_in o3) k = (a * smp (o_in o1) k + b * smp (o_in o2) k)%R) ->
  forall k, smp (o_out o3) k = (a * smp (o_out o1) k + b * smp (o_out o2) k)%R.
Proof.
  intros H1 E1 H2 E2 H3 E3 r1 r2 r3 C2 C3 S2 S3 Hk k.
  rewrite (reach_R _ _ _ _ _ H1 E1), (reach_R _ _ _ _ _ H2 E2), (reach_R _ _ _ _ _ H3 E3). fold r1 r2 r3.
  rewrite (smp_lin_eq a b (o_in o1) (o_in o2) (o_in o3)) by auto.
  replace (r_filter r2) with (r_filter r1) by congruence. replace (r_mode r2) with (r_mode r1) by congruence.
  replace (r_prec r2) with (r_prec r1) by congruence. replace (r_ratio r2) with (r_ratio r1) by congruence.
  replace (r_filter r3) with (r_filter r1) by congruence. replace (r_mode r3) with (r_mode r1) by congruence.
  replace (r_prec r3) with (r_prec r1) by congruence. replace (r_ratio r3) with (r_ratio r1) by congruence.
  rewrite resample_lin by exact S2. apply smp_lin, resample_same_size, S2.
Qed.
Example C26_case plat : exists st1 (m1 : mem RA) o1 st2 (m2 : mem RA) o2 st3 (m3 : mem RA) o3,
  reach plat st1 m1 /\ st1 0 = Some o1 /\ reach plat st2 m2 /\ st2 0 = Some o2 /\ reach plat st3 m3 /\ st3 0 = Some o3 /\
  (r_filter (o_res o1), r_mode (o_res o1), r_ratio (o_res o1), r_prec (o_res o1)) = (FILTER_IIR, DOWN, 2, PREC_72DB) /\
  o_res o1 = o_res o2 /\ o_res o1 = o_res o3 /\
  o_in o1 = [1; 2; 3; 4]%R /\ o_in o2 = [1; 0; 0; 1]%R /\ o_in o3 = [5; 4; 6; 11]%R /\
  forall k, smp (o_in o3) k = (2 * smp (o_in o1) k + 3 * smp (o_in o2) k)%R.
Proof.
  destruct (some_obj (A := RA) plat DOWN 2 PREC_72DB true FILTER_IIR 0 [(0, [1; 2; 3; 4]%R)] eq_refl) as (st1 & m1 & o1 & H1 & E1 & R1 & I1).
  destruct (some_obj (A := RA) plat DOWN 2 PREC_72DB true FILTER_IIR 0 [(1, [1; 0]%R); (0, [0; 1]%R)] eq_refl) as (st2 & m2 & o2 & H2 & E2 & R2 & I2).
  destruct (some_obj (A := RA) plat DOWN 2 PREC_72DB true FILTER_IIR 0 [(3, [5; 4; 6; 11]%R)] eq_refl) as (st3 & m3 & o3 & H3 & E3 & R3 & I3).
  exists st1, m1, o1, st2, m2, o2, st3, m3, o3. rewrite R1, R2, R3, I1, I2, I3. repeat split; try assumption.
  intros k. unfold smp. destruct (k <? 0); [cbn; lra|]. cbn [map concat snd app].
  destruct (Z.to_nat k) as [|[|[|[|[|]]]]]; cbn; lra.
Qed.
Theorem C26_time_invariant plat1 st1 (m1 : mem RA) id1 o1 plat2 st2 (m2 : mem RA) id2 o2 n :
  reach plat1 st1 m1 -> st1 id1 = Some o1 -> reach plat2 st2 m2 -> st2 id2 = Some o2 ->
  let r1 := o_res o1 in let r2 := o_res o2 in
  (r_filter r1, r_mode r1, r_ratio r1, r_prec r1) = (r_filter r2, r_mode r2, r_ratio r2, r_prec r2) ->
  0 <= n ->
  match r_mode r1 with
  | UP => o_in o2 = repeat 0%R (Z.to_nat n) ++ o_in o1 -> o_out o2 = repeat 0%R (Z.to_nat (r_ratio r1 * n)) ++ o_out o1
  | DOWN => o_in o2 = repeat 0%R (Z.to_nat (r_ratio r1 * n)) ++ o_in o1 -> o_out o2 = repeat 0%R (Z.to_nat n) ++ o_out o1
  end.
Proof.
  intros H1 E1 H2 E2 r1 r2 C2 Hn. destruct (reach_built _ _ _ _ _ H1 E1) as [_ [Vr VT]]. fold r1 in Vr, VT.
  pose proof (resample_zeros (r_filter r1) (r_mode r1) (r_prec r1) (r_ratio r1) n (o_in o1) Vr VT Hn) as Z.
  rewrite (reach_R _ _ _ _ _ H1 E1), (reach_R _ _ _ _ _ H2 E2). fold r1 r2.
  replace (r_filter r2) with (r_filter r1) by congruence. replace (r_mode r2) with (r_mode r1) by congruence.
  replace (r_prec r2) with (r_prec r1) by congruence. replace (r_ratio r2) with (r_ratio r1) by congruence.
  destruct (r_mode r1); intros ->; exact Z.
Qed.

(** ** C29 *)
Theorem C29_upsampler_forgets {A : arith} plat1 st1 (m1 : mem A) id1 o1 plat2 st2 m2 id2 o2 N P :
  reach plat1 st1 m1 -> st1 id1 = Some o1 -> reach plat2 st2 m2 -> st2 id2 = Some o2 ->
  let r1 := o_res o1 in let r2 := o_res o2 in
  r_filter r1 = FILTER_FIR -> r_mode r1 = UP -> r_ratio r1 = 2 -> r_prec r2 = r_prec r1 ->
  r_filter r2 = FILTER_FIR -> r_mode r2 = UP -> r_ratio r2 = 2 ->
  vector plat1 FILTER_FIR (r_use_sse r1) = false -> vector plat2 FILTER_FIR (r_use_sse r2) = false ->
  order r1 = Ok N -> size (o_in o1) = size (o_in o2) ->
  (forall k, P <= k -> smp (o_in o1) k = smp (o_in o2) k) ->
  forall j, 2 * (P + N - 1) <= j -> smp (o_out o1) j = smp (o_out o2) j.
Proof.
  intros H1 E1 H2 E2 r1 r2 F1 M1 R1 Ep F2 M2 R2 V1 V2 O L Hk j Hj.
  rewrite (reach_resample plat1 _ _ _ _ H1 E1) by (fold r1; rewrite F1; auto).
  rewrite (reach_resample plat2 _ _ _ _ H2 E2) by (fold r2; rewrite F2; auto).
  fold r1 r2. rewrite F1, F2, V1, V2, M1, M2, R1, R2, Ep. cbn [resample Z.eqb Pos.eqb stage].
  pose proof (reach_order plat1 _ _ _ _ H1 E1 ltac:(fold r1; lia)) as O1. fold r1 in O1. cbn zeta in O1. rewrite F1, M1 in O1.
  destruct (reach_built _ _ _ _ _ H1 E1) as [_ [_ VT]]. fold r1 in VT. rewrite F1 in VT.
  apply fir_up2_local with (P := P); [exact L | exact Hk | | ].
  - apply (fir_size_even (r_prec r1) UP 2); [apply VT; lia | unfold stage_no; auto].
  - replace (size (coeffs (A := A) FILTER_FIR UP (r_prec r1) 2)) with N by congruence. exact Hj.
Qed.
Theorem C29_downsampler_forgets {A : arith} plat1 st1 (m1 : mem A) id1 o1 plat2 st2 m2 id2 o2 N P :
  reach plat1 st1 m1 -> st1 id1 = Some o1 -> reach plat2 st2 m2 -> st2 id2 = Some o2 ->
  let r1 := o_res o1 in let r2 := o_res o2 in
  r_filter r1 = FILTER_FIR -> r_mode r1 = DOWN -> r_ratio r1 = 2 -> r_prec r2 = r_prec r1 ->
  r_filter r2 = FILTER_FIR -> r_mode r2 = DOWN -> r_ratio r2 = 2 ->
  vector plat1 FILTER_FIR (r_use_sse r1) = false -> vector plat2 FILTER_FIR (r_use_sse r2) = false ->
  order r1 = Ok N -> size (o_in o1) = size (o_in o2) ->
  (forall k, 2 * P <= k -> smp (o_in o1) k = smp (o_in o2) k) ->
  forall j, P + N - 1 <= j -> smp (o_out o1) j = smp (o_out o2) j.
Proof.
  intros H1 E1 H2 E2 r1 r2 F1 M1 R1 Ep F2 M2 R2 V1 V2 O L Hk j Hj.
  rewrite (reach_resample plat1 _ _ _ _ H1 E1) by (fold r1; rewrite F1; auto).
  rewrite (reach_resample plat2 _ _ _ _ H2 E2) by (fold r2; rewrite F2; auto).
  fold r1 r2. rewrite F1, F2, V1, V2, M1, M2, R1, R2, Ep. cbn [resample Z.eqb Pos.eqb stage].
  pose proof (reach_order plat1 _ _ _ _ H1 E1 ltac:(fold r1; lia)) as O1. fold r1 in O1. cbn zeta in O1. rewrite F1, M1 in O1.
  destruct (reach_built _ _ _ _ _ H1 E1) as [_ [_ VT]]. fold r1 in VT. rewrite F1 in VT.
  apply fir_down2_local with (P := P); [exact L | exact Hk | | ].
  - apply (fir_size_even (r_prec r1) DOWN 2); [apply VT; lia | unfold stage_no; auto].
  - replace (size (coeffs (A := A) FILTER_FIR DOWN (r_prec r1) 2)) with N by congruence. exact Hj.
Qed.
(** an infinity and a NaN instead of two ones, at the beginning of 12 samples *)
Example C29_case plat md : exists st1 (m1 : mem F32) o1 st2 (m2 : mem F32) o2, reach plat st1 m1 /\ st1 0 = Some o1 /\ reach plat st2 m2 /\ st2 0 = Some o2 /\
  r_filter (o_res o1) = FILTER_FIR /\ r_mode (o_res o1) = md /\ r_ratio (o_res o1) = 2 /\ o_res o1 = o_res o2 /\
  vector plat FILTER_FIR (r_use_sse (o_res o1)) = false /\ order (o_res o1) = Ok 2 /\ size (o_in o1) = 12 /\ size (o_in o2) = 12 /\
  (forall k, 2 <= k -> smp (o_in o1) k = smp (o_in o2) k).
Proof.
  destruct (some_obj (A := F32) plat md 2 PREC_LINEAR false FILTER_FIR 0
    [(0, [BinarySingleNaN.B754_infinity false; BinarySingleNaN.B754_nan] : list F32); (1, repeat f1 10)]) as (st1 & m1 & o1 & H1 & E1 & R1 & I1).
  { destruct md; reflexivity. }
  destruct (some_obj (A := F32) plat md 2 PREC_LINEAR false FILTER_FIR 0 [(0, repeat f1 12)]) as (st2 & m2 & o2 & H2 & E2 & R2 & I2).
  { destruct md; reflexivity. }
  exists st1, m1, o1, st2, m2, o2. rewrite R1, R2, I1, I2. rewrite !vector_false by reflexivity.
  repeat split; try assumption; try (destruct md; reflexivity).
  intros k Hk. unfold smp. replace (k <? 0) with false by lia. cbn [map concat snd app repeat].
  replace (Z.to_nat k) with (S (S (Z.to_nat (k - 2)))) by lia. reflexivity.
Qed.

(** ** C31 *)
Theorem C31_iir_upsampling {A : arith} plat st (m : mem A) id o :
  reach plat st m -> st id = Some o ->
  let r := o_res o in
  r_filter r = FILTER_IIR -> r_mode r = UP -> r_ratio r = 2 -> vector plat FILTER_IIR (r_use_sse r) = false ->
  let cs := coeffs FILTER_IIR UP (r_prec r) 2 in
  o_out o = weave (chain (evens cs) (o_in o)) (chain (odds cs) (o_in o)).
Proof.
  intros H E r Hf Hm Hr V cs. rewrite (reach_resample plat _ _ _ _ H E) by (fold r; rewrite Hf; discriminate).
  fold r. rewrite Hf, Hm, Hr, V. reflexivity.
Qed.
Theorem C31_iir_downsampling {A : arith} plat st (m : mem A) id o :
  reach plat st m -> st id = Some o ->
  let r := o_res o in
  r_filter r = FILTER_IIR -> r_mode r = DOWN -> r_ratio r = 2 -> vector plat FILTER_IIR (r_use_sse r) = false ->
  let cs := coeffs FILTER_IIR DOWN (r_prec r) 2 in
  o_out o = zip (fun a b => fmul fhalf (fadd a b)) (chain (evens cs) (odds (o_in o))) (chain (odds cs) (evens (o_in o))).
Proof.
  intros H E r Hf Hm Hr V cs. rewrite (reach_resample plat _ _ _ _ H E) by (fold r; rewrite Hf; discriminate).
  fold r. rewrite Hf, Hm, Hr, V. reflexivity.
Qed.
Example C31_case plat md : exists st (m : mem F32) o, reach plat st m /\ st 0 = Some o /\ r_filter (o_res o) = FILTER_IIR /\
  r_mode (o_res o) = md /\ r_ratio (o_res o) = 2 /\ vector plat FILTER_IIR (r_use_sse (o_res o)) = false /\ size (o_in o) = 10.
Proof.
  destruct (some_obj (A := F32) plat md 2 PREC_120DB false FILTER_IIR 0 [(0, repeat f1 4); (3, repeat fhalf 6)]) as (st & m & o & H & E & Er & Ei).
  { destruct md; reflexivity. }
  exists st, m, o. rewrite Er, Ei. rewrite !vector_false by reflexivity. repeat split; assumption.
Qed.
(** what the formula means: the all-pass section with coefficient 1/2 *)
Example C31_allpass : allpass (A := RA) (1 / 2)%R [4; 0; 0]%R = [2; 3; - (3 / 2)]%R.
Proof. cbn. repeat (f_equal; try lra). Qed.

(** ** C32 *)
Theorem C32_sse_iir_same_exact plat1 st1 (m1 : mem RA) id1 o1 plat2 st2 m2 id2 o2 :
  reach plat1 st1 m1 -> st1 id1 = Some o1 -> reach plat2 st2 m2 -> st2 id2 = Some o2 ->
  let r1 := o_res o1 in let r2 := o_res o2 in
  r_filter r1 = FILTER_IIR -> r_filter r2 = FILTER_IIR ->
  vector plat1 FILTER_IIR (r_use_sse r1) = true -> vector plat2 FILTER_IIR (r_use_sse r2) = false ->
  r_mode r1 = r_mode r2 -> r_ratio r1 = r_ratio r2 -> r_prec r1 = r_prec r2 ->
  o_in o1 = o_in o2 -> o_out o1 = o_out o2.
Proof.
  intros H1 E1 H2 E2 r1 r2 F1 F2 _ _ Em Er Ep Ei.
  refine (C05_sse_same_in_exact_arithmetic _ _ _ _ _ _ _ _ _ _ H1 E1 H2 E2 _ Em Er Ep Ei). exact (eq_trans F1 (eq_sym F2)).
Qed.
Theorem C32_sse_iir_bit_exact {A : arith} plat1 st1 (m1 : mem A) id1 o1 plat2 st2 m2 id2 o2 :
  (forall a b : A, fadd a b = fadd b a) -> (forall a b : A, fmul a b = fmul b a) ->
  reach plat1 st1 m1 -> st1 id1 = Some o1 -> reach plat2 st2 m2 -> st2 id2 = Some o2 ->
  let r1 := o_res o1 in let r2 := o_res o2 in
  r_filter r1 = FILTER_IIR -> r_filter r2 = FILTER_IIR ->
  vector plat1 FILTER_IIR (r_use_sse r1) = true -> vector plat2 FILTER_IIR (r_use_sse r2) = false ->
  r_mode r1 = r_mode r2 -> r_ratio r1 = r_ratio r2 -> r_prec r1 = r_prec r2 ->
  (forall s, s <= r_ratio r1 -> s = 2 \/ s = 4 \/ s = 8 ->
     Nat.even (length (coeffs (A := A) FILTER_IIR (r_mode r1) (r_prec r1) s)) = true) ->
  o_in o1 = o_in o2 -> o_out o1 = o_out o2.
Proof.
  intros CA CM H1 E1 H2 E2 r1 r2 F1 F2 V1 V2 Em Er Ep Ev Ei.
  rewrite (reach_resample plat1 _ _ _ _ H1 E1) by (fold r1; rewrite F1; discriminate).
  rewrite (reach_resample plat2 _ _ _ _ H2 E2) by (fold r2; rewrite F2; discriminate).
  fold r1 r2. rewrite F1, F2, V1, V2, <- Em, <- Er, <- Ep, <- Ei.
  destruct (reach_built _ _ _ _ _ H1 E1) as [_ [Vr _]]. fold r1 in Vr. now apply iir_resample_comm.
Qed.
(** binary32 is such an arithmetic *)
Theorem C32_sse_iir_bit_exact_F32 plat1 st1 (m1 : mem F32) id1 o1 plat2 st2 m2 id2 o2 :
  reach plat1 st1 m1 -> st1 id1 = Some o1 -> reach plat2 st2 m2 -> st2 id2 = Some o2 ->
  let r1 := o_res o1 in let r2 := o_res o2 in
  r_filter r1 = FILTER_IIR -> r_filter r2 = FILTER_IIR ->
  vector plat1 FILTER_IIR (r_use_sse r1) = true -> vector plat2 FILTER_IIR (r_use_sse r2) = false ->
  r_mode r1 = r_mode r2 -> r_ratio r1 = r_ratio r2 -> r_prec r1 = r_prec r2 ->
  r_ratio r1 = 2 /\ r_prec r1 = PREC_96DB \/ r_ratio r1 <= 4 /\ r_prec r1 = PREC_120DB ->
  o_in o1 = o_in o2 -> o_out o1 = o_out o2.
Proof.
  intros H1 E1 H2 E2 r1 r2 F1 F2 V1 V2 Em Er Ep C Ei.
  refine (C32_sse_iir_bit_exact (A := F32) _ _ _ _ _ _ _ _ _ _ b32_plus_comm b32_mult_comm H1 E1 H2 E2 F1 F2 V1 V2 Em Er Ep _ Ei).
  fold r1. intros s Hs S.
  destruct C as [[R ->]|[R ->]], S as [->|[->| ->]]; try lia; destruct (r_mode r1); reflexivity.
Qed.
Example C32_case md : let p1 := Platform true false in
  exists st1 (m1 : mem F32) o1 st2 (m2 : mem F32) o2, reach p1 st1 m1 /\ st1 0 = Some o1 /\ reach p1 st2 m2 /\ st2 0 = Some o2 /\
    r_filter (o_res o1) = FILTER_IIR /\ r_filter (o_res o2) = FILTER_IIR /\
    vector p1 FILTER_IIR (r_use_sse (o_res o1)) = true /\ vector p1 FILTER_IIR (r_use_sse (o_res o2)) = false /\
    r_mode (o_res o1) = md /\ r_mode (o_res o2) = md /\ r_ratio (o_res o1) = 4 /\ r_ratio (o_res o2) = 4 /\
    r_prec (o_res o1) = PREC_120DB /\ r_prec (o_res o2) = PREC_120DB /\ o_in o1 = o_in o2 /\ size (o_in o1) = 12.
Proof.
  intros p1.
  destruct (some_obj (A := F32) p1 md 4 PREC_120DB true FILTER_IIR 0 [(0, repeat f1 4); (2, repeat fhalf 8)]) as (st1 & m1 & o1 & H1 & E1 & R1 & I1).
  { destruct md; reflexivity. }
  destruct (some_obj (A := F32) p1 md 4 PREC_120DB false FILTER_IIR 0 [(1, repeat f1 4 ++ repeat fhalf 8)]) as (st2 & m2 & o2 & H2 & E2 & R2 & I2).
  { destruct md; reflexivity. }
  exists st1, m1, o1, st2, m2, o2. rewrite R1, R2, I1, I2. repeat split; assumption.
Qed.

(** ** C38, C39, C41 *)
(** In any program, after any history (other objects, resets, any data), an
    object is in a state that a program reaches which constructs this one object
    with the same parameters and only makes the calls since the last reset. *)
Theorem C38_reset_like_new {A : arith} plat st (m : mem A) id o :
  reach plat st m -> st id = Some o -> exists m', alone plat id o m'.
Proof. exact (reach_alone plat st m id o). Qed.
(** NaN and infinity, then reset, then a sample *)
Example C38_case plat f (sse : bool) : exists st0 (m0 : mem F32) o0, reach plat st0 m0 /\ st0 0 = Some o0 /\ r_use_sse (o_res o0) = sse /\ r_filter (o_res o0) = f /\
  o_in o0 = [BinarySingleNaN.B754_nan; BinarySingleNaN.B754_infinity true] /\
  exists m1, reset (addr_ex 0 0) (o_res o0) m0 = Ok (tt, m1) /\
  exists st (m : mem F32) o, reach plat st m /\ st 0 = Some o /\ o_res o = o_res o0 /\ o_in o = [f1].
Proof.
  destruct (some_obj (A := F32) plat UP 2 PREC_72DB sse f 0
    [(0, [BinarySingleNaN.B754_nan; BinarySingleNaN.B754_infinity true] : list F32)]) as (st & m & o & H & E & Er & Ei).
  { destruct f; reflexivity. }
  exists st, m, o. split; [exact H|]. split; [exact E|]. split; [now rewrite Er|]. split; [now rewrite Er|]. split; [exact Ei|].
  destruct (reach_reset_progress plat st m 0 o (addr_ex 0 0) H E (addr_ex_ok 0 0)) as (m1 & R & _ & H1). exists m1. split; [exact R|].
  set (o1 := Obj (o_res o) [] []) in H1.
  destruct (more plat _ _ 0 o1 [f1] H1 (set_obj_same _ _ _)) as (m2 & z & H2).
  { cbn [o1 o_res]. rewrite Er. reflexivity. }
  eexists _, m2, _. split; [exact H2|]. split; [apply set_obj_same|]. split; reflexivity.
Qed.

(** Two objects with the same parameters that got the same calls (same data, same
    buffer alignment) since construction or reset returned the same samples, bit
    for bit, whatever the two programs did before and in between. *)
Theorem C38_output_determined_by_calls {A : arith} plat st1 (m1 : mem A) st2 m2 id1 id2 o1 o2 :
  reach plat st1 m1 -> reach plat st2 m2 -> st1 id1 = Some o1 -> st2 id2 = Some o2 ->
  o_res o1 = o_res o2 -> Forall2 same_entry (o_log o1) (o_log o2) -> o_out o1 = o_out o2.
Proof. exact (reach_det plat st1 m1 st2 m2 id1 id2 o1 o2). Qed.
(** Two objects used in turns: each returns what it would return alone. *)
Theorem C39_instances_independent {A : arith} plat st (m : mem A) id o :
  reach plat st m -> st id = Some o ->
  exists st' m' o', reach plat st' m' /\ (forall j, j <> id -> st' j = None) /\ st' id = Some o' /\
    o_res o' = o_res o /\ o_log o' = o_log o /\ o_out o' = o_out o.
Proof.
  intros H E. destruct (reach_inv plat _ _ H _ _ E) as (Q1 & Q2 & Q3 & Q4 & _).
  destruct (trace_alone plat id (o_res o) (o_log o) (o_out o) m) as (st' & m' & o' & R & Ot & E' & Er & El & _).
  - now rewrite Q1.
  - exact Q1.
  - exact Q2.
  - exact Q3.
  - exact (reach_trace plat _ _ H _ _ E).
  - exists st', m', o'. do 5 (split; [assumption|]).
    refine (reach_det plat _ _ _ _ _ _ _ _ R H E' E Er _). rewrite El. clear. induction (o_log o); constructor; auto using same_entry_refl.
Qed.
(** two objects, calls a b a *)
Example C39_case plat : exists st (m : mem F32) oa ob, reach plat st m /\ st 0 = Some oa /\ st 1 = Some ob /\
  r_filter (o_res oa) = FILTER_FIR /\ r_filter (o_res ob) = FILTER_IIR /\
  o_in oa = [f1; f0; fhalf] /\ o_in ob = [f1; f1; f1; f1].
Proof.
  destruct (some_obj (A := F32) plat UP 2 PREC_72DB true FILTER_FIR 0 [(0, [f1])] eq_refl) as (st & m & o & H & E & Er & Ei).
  set (st1 := set_obj st 1 None).
  assert (H1 : reach plat st1 m) by (apply (reach_delete plat st m 1 m H); reflexivity).
  destruct (reach_new_progress plat st1 m 1 DOWN 4 PREC_96DB true FILTER_IIR H1 (set_obj_same _ _ _)) as (m2 & _ & _ & H2).
  { unfold ratio_no. auto. } { intros _. cbn. unfold iir_prec, PREC_96DB. auto. }
  set (ob := Obj (built plat 1 DOWN 4 PREC_96DB true FILTER_IIR) [] [] : obj (A := F32)) in H2.
  destruct (more plat _ _ 1 ob [f1; f1; f1; f1] H2 (set_obj_same _ _ _) eq_refl) as (m3 & z & H3).
  match type of H3 with reach _ ?s _ => assert (E3 : s 0 = Some o) end.
  { rewrite !set_obj_other by discriminate. exact E. }
  destruct (more plat _ _ 0 o [f0; fhalf] H3 E3) as (m4 & z4 & H4).
  { rewrite Er. reflexivity. }
  eexists _, m4, _, _. split; [exact H4|]. split; [apply set_obj_same|]. split.
  { rewrite set_obj_other by discriminate. apply set_obj_same. }
  rewrite o_in_call, Ei. cbn [obj_call o_res]. rewrite Er. repeat split.
Qed.

Theorem C41_causality {A : arith} plat st1 (m1 : mem A) st2 m2 id o1 o2 l1 l2 t1 t2 :
  reach plat st1 m1 -> reach plat st2 m2 -> st1 id = Some o1 -> st2 id = Some o2 ->
  o_res o1 = o_res o2 -> o_log o1 = l1 ++ t1 -> o_log o2 = l2 ++ t2 -> Forall2 same_entry l1 l2 ->
  exists y z1 z2, o_out o1 = y ++ z1 /\ o_out o2 = y ++ z2 /\
    size y = out_size (r_mode (o_res o1)) (r_ratio (o_res o1)) (size (concat (map e_block l1))).
Proof. exact (reach_prefix plat st1 m1 st2 m2 id o1 o2 l1 l2 t1 t2). Qed.
Example C41_case plat : exists st1 (m1 : mem F32) o1 st2 (m2 : mem F32) o2 l t1 t2, reach plat st1 m1 /\ reach plat st2 m2 /\
  st1 0 = Some o1 /\ st2 0 = Some o2 /\ o_res o1 = o_res o2 /\ o_log o1 = l ++ t1 /\ o_log o2 = l ++ t2 /\
  map e_block l = [[f1; f1]] /\ map e_block t1 = [[f0]] /\ map e_block t2 = [[fhalf; f1; f1]].
Proof.
  destruct (reach_new_progress (A := F32) plat (fun _ => None) (fun _ _ => None) 0 UP 8 PREC_72DB true FILTER_FIR (reach_init plat _) eq_refl) as (m & _ & _ & H).
  { unfold ratio_no. auto. } { intros _. cbn. unfold fir_prec, PREC_72DB. auto. }
  match type of H with reach _ (set_obj _ _ (Some ?ob)) _ => set (o := ob) in H end.
  destruct (more plat _ _ 0 o [f1; f1] H (set_obj_same _ _ _) eq_refl) as (m1 & z & H1).
  match type of H1 with reach _ (set_obj _ _ (Some ?ob)) _ => set (o1 := ob) in H1 end.
  destruct (more plat _ _ 0 o1 [f0] H1 (set_obj_same _ _ _) eq_refl) as (m2 & z2 & H2).
  destruct (more plat _ _ 0 o1 [fhalf; f1; f1] H1 (set_obj_same _ _ _) eq_refl) as (m3 & z3 & H3).
  eexists _, m2, _, _, m3, _, (o_log o1), _, _. split; [exact H2|]. split; [exact H3|].
  split; [apply set_obj_same|]. split; [apply set_obj_same|]. split; [reflexivity|]. split; [reflexivity|]. split; [reflexivity|].
  repeat split.
Qed.

Print Assumptions C01_fir_upsampling.
Print Assumptions C02_fir_downsampling.
Print Assumptions C03_passthrough.
Print Assumptions C04_partition_independent.
Print Assumptions C05_sse_same_in_exact_arithmetic.
Print Assumptions C14_upsampling_composes.
Print Assumptions C14_upsampling_composes_exact.
Print Assumptions C14_upsampling_composes_vector.
Print Assumptions C15_downsampling_composes.
Print Assumptions C15_downsampling_composes_exact.
Print Assumptions C15_downsampling_composes_vector.
Print Assumptions C17_sample_counts.
Print Assumptions C26_linear.
Print Assumptions C26_time_invariant.
Print Assumptions C29_upsampler_forgets.
Print Assumptions C29_downsampler_forgets.
Print Assumptions C31_iir_upsampling.
Print Assumptions C31_iir_downsampling.
Print Assumptions C32_sse_iir_same_exact.
Print Assumptions C32_sse_iir_bit_exact.
Print Assumptions C32_sse_iir_bit_exact_F32.
Print Assumptions C38_reset_like_new.
Print Assumptions C38_output_determined_by_calls.
Print Assumptions C39_instances_independent.
Print Assumptions C41_causality.
