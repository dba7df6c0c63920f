(** * Properties: what resampling keeps and what it loses *)
From Coq Require Import ZArith Reals List Lia Lra Psatz Bool ZifyNat ZifyBool Permutation.
From Flocq Require Import Core BinarySingleNaN.
From Verif Require Import Arith ArithR ArithF Mem FirModel IirModel Tables ResamplerModel Wp Stage Cascade
  ResamplerProof ResamplerOk Spec SpecOk SpecR Client Feed StreamFacts DelayFacts Twin TablesF TableFacts FirReal IirReal Cases PropsFir PropsIir
  IirPhase IirCert IirLag IirFreq IirDelay IirSine IirTones PropsIirTones LinFacts PropsStream PropsEnergy IirTripInj.
From Verif Require FirTripInj.
Import ListNotations.
Open Scope Z_scope.

(** ** Sections with a coefficient other than 0 can be undone *)
Lemma allpass_from_inj (c : R) : c <> 0%R -> forall (x x' : list RA) (x1 y1 : R),
  allpass_from (A := RA) c x1 y1 x = allpass_from (A := RA) c x1 y1 x' -> x = x'.
Proof.
  intros Hc. induction x as [|a x IH]; intros [|a' x'] x1 y1 E; try discriminate; [reflexivity|].
  cbn [allpass_from] in E. cbv zeta in E. injection E as E1 E2. raops.
  assert (Ea : a = a').
  { assert (Q : ((a - y1) * c = (a' - y1) * c)%R) by lra. apply Rmult_eq_reg_r in Q; [lra | exact Hc]. }
  subst a'. f_equal. exact (IH _ _ _ E2).
Qed.
Lemma chain_inj (cs : list RA) : Forall (fun c : R => c <> 0%R) cs -> forall x x' : list RA, chain (A := RA) cs x = chain (A := RA) cs x' -> x = x'.
Proof.
  induction 1 as [|c cs Hc _ IH]; intros x x' E; [exact E|]. cbn [chain] in E. apply (allpass_from_inj c Hc x x' 0 0). now apply IH.
Qed.
Lemma weave_inj {X} (a b a' b' : list X) : length a = length b -> length a' = length b' -> weave a b = weave a' b' -> a = a'.
Proof. intros L L' E. apply (f_equal evens) in E. rewrite (proj1 (evens_weave a b L)), (proj1 (evens_weave a' b' L')) in E. exact E. Qed.
Lemma evens_Forall {X} (P : X -> Prop) l : Forall P l -> Forall P (evens l) /\ Forall P (odds l).
Proof.
  intros F. assert (F2 : Forall P (evens l ++ odds l)) by (eapply Permutation_Forall; [apply evens_odds_perm | exact F]).
  apply Forall_app in F2. exact F2.
Qed.
Lemma ints_pos : forallb (fun s => forallb (fun p => forallb (fun n => 0 <? n) (iir_ints s p)) [8; 12; 16; 20; 24]) stages = true.
Proof. vm_compute. reflexivity. Qed.
Lemma coeffs_nonzero md s p : stage_no s -> iir_prec p -> Forall (fun c : R => c <> 0%R) (coeffs (A := RA) FILTER_IIR md p s).
Proof.
  intros Hs Hp. rewrite (iir_coeffs_R md s p Hs Hp). pose proof ints_pos as H. rewrite forallb_forall in H.
  specialize (H s ltac:(unfold stages; cbn; unfold stage_no in Hs; lia)). rewrite forallb_forall in H. specialize (H p ltac:(cbn; unfold iir_prec in Hp; lia)).
  rewrite forallb_forall in H. apply Forall_forall. intros c Hc. apply in_map_iff in Hc. destruct Hc as (n & <- & Hn). apply H in Hn.
  apply Rmult_integral_contrapositive. split; [apply not_0_IZR; lia|]. unfold unit_of. apply Rinv_neq_0_compat. apply not_0_IZR. discriminate.
Qed.
Lemma stage_up_inj p s (x x' : list RA) : stage_no s -> iir_prec p ->
  stage (A := RA) FILTER_IIR UP p false s x = stage (A := RA) FILTER_IIR UP p false s x' -> x = x'.
Proof.
  intros Hs Hp E. pose proof (coeffs_nonzero UP s p Hs Hp) as F. cbn [stage] in E. unfold iir_up2 in E.
  apply weave_inj in E; [|now rewrite !chain_length ..]. refine (chain_inj _ _ _ _ E). now apply evens_Forall.
Qed.
Lemma resample_up_inj p ratio (x x' : list RA) : valid FILTER_IIR ratio p ->
  resample (A := RA) FILTER_IIR UP p false ratio x = resample (A := RA) FILTER_IIR UP p false ratio x' -> x = x'.
Proof.
  assert (S2 : stage_no 2) by (unfold stage_no; lia). assert (S4 : stage_no 4) by (unfold stage_no; lia). assert (S8 : stage_no 8) by (unfold stage_no; lia).
  intros [[->|[->|[->| ->]]] V]; unfold resample; cbn [Z.eqb Pos.eqb]; intros E; [exact E|..]; specialize (V ltac:(lia)).
  - now apply (stage_up_inj p 2).
  - apply (stage_up_inj p 2); auto. now apply (stage_up_inj p 4).
  - apply (stage_up_inj p 2); auto. apply (stage_up_inj p 4); auto. now apply (stage_up_inj p 8).
Qed.

(** ** C85 *)

Lemma reach_exact plat st (m : mem RA) id o : reach plat st m -> st id = Some o -> let r := o_res o in
  valid (r_filter r) (r_ratio r) (r_prec r) /\ o_out o = resample (A := RA) (r_filter r) (r_mode r) (r_prec r) false (r_ratio r) (o_in o).
Proof.
  intros H E r. destruct (r_filter r) eqn:Hf.
  - destruct (reach_iir plat _ _ _ _ H E Hf) as (V & Y & _). now split.
  - exact (reach_fir_any plat _ _ _ _ H E Hf).
Qed.
(** two signals which differ are different after upsampling *)
Theorem C85_upsampling_keeps_all plat1 st1 (m1 : mem RA) id1 o1 plat2 st2 (m2 : mem RA) id2 o2 :
  reach plat1 st1 m1 -> st1 id1 = Some o1 -> reach plat2 st2 m2 -> st2 id2 = Some o2 ->
  let r1 := o_res o1 in let r2 := o_res o2 in
  r_mode r1 = UP -> r_mode r2 = UP -> r_filter r2 = r_filter r1 -> r_ratio r2 = r_ratio r1 -> r_prec r2 = r_prec r1 ->
  o_in o1 <> o_in o2 -> o_out o1 <> o_out o2.
Proof.
  intros H1 E1 H2 E2 r1 r2 Hm1 Hm2 Hf Hr Hp N E. apply N.
  destruct (reach_exact plat1 _ _ _ _ H1 E1) as (V & Ey1). fold r1 in V, Ey1. destruct (reach_exact plat2 _ _ _ _ H2 E2) as (_ & Ey2). fold r2 in Ey2.
  rewrite Hm1 in Ey1. rewrite Hm2, Hf, Hr, Hp in Ey2. rewrite Ey1, Ey2 in E. destruct (r_filter r1).
  - exact (resample_up_inj _ _ _ _ V E).
  - exact (FirTripInj.fir_up_inj _ _ _ _ V E).
Qed.
(** also after upsampling and downsampling again *)
Theorem C85_oversampling_keeps_all plat1 st1 (m1 : mem RA) id1 o1 plat2 st2 (m2 : mem RA) id2 o2 plat3 st3 (m3 : mem RA) id3 o3 plat4 st4 (m4 : mem RA) id4 o4 :
  reach plat1 st1 m1 -> st1 id1 = Some o1 -> reach plat2 st2 m2 -> st2 id2 = Some o2 ->
  reach plat3 st3 m3 -> st3 id3 = Some o3 -> reach plat4 st4 m4 -> st4 id4 = Some o4 ->
  let r1 := o_res o1 in let r2 := o_res o2 in let r3 := o_res o3 in let r4 := o_res o4 in
  r_mode r1 = UP -> r_mode r2 = DOWN -> r_filter r2 = r_filter r1 -> r_ratio r2 = r_ratio r1 -> r_prec r2 = r_prec r1 -> o_in o2 = o_out o1 ->
  r_mode r3 = UP -> r_mode r4 = DOWN -> r_filter r4 = r_filter r3 -> r_ratio r4 = r_ratio r3 -> r_prec r4 = r_prec r3 -> o_in o4 = o_out o3 ->
  r_filter r3 = r_filter r1 -> r_ratio r3 = r_ratio r1 -> r_prec r3 = r_prec r1 ->
  o_in o1 <> o_in o3 -> o_out o2 <> o_out o4.
Proof.
  intros H1 E1 H2 E2 H3 E3 H4 E4 r1 r2 r3 r4 Hm1 Hm2 Hf Hr Hp Ex Hm3 Hm4 Hf' Hr' Hp' Ex' Hff Hrr Hpp N E. apply N.
  destruct (reach_exact plat1 _ _ _ _ H1 E1) as (V & Y1). fold r1 in V, Y1. destruct (reach_exact plat2 _ _ _ _ H2 E2) as (_ & Y2). fold r2 in Y2.
  destruct (reach_exact plat3 _ _ _ _ H3 E3) as (_ & Y3). fold r3 in Y3. destruct (reach_exact plat4 _ _ _ _ H4 E4) as (_ & Y4). fold r4 in Y4.
  rewrite Hm1 in Y1. rewrite Hm2, Hf, Hr, Hp, Ex, Y1 in Y2. rewrite Hm3, Hff, Hrr, Hpp in Y3. rewrite Hm4, Hf', Hr', Hp', Hff, Hrr, Hpp, Ex', Y3 in Y4.
  rewrite Y2, Y4 in E. destruct (r_filter r1).
  - exact (trip_inj _ _ _ _ V E).
  - exact (FirTripInj.fir_trip_inj _ _ _ _ V E).
Qed.

(** ** The energy that is held back vanishes *)
Lemma last_state_eq c (x : list RA) : forall x1 y1 : R, x <> [] ->
  last_state c x1 y1 x = (smp x (size x - 1) - c * smp (allpass_from (A := RA) c x1 y1 x) (size x - 1))%R.
Proof.
  induction x as [|a x IH]; intros x1 y1 N; [congruence|]. cbn [last_state allpass_from]. cbv zeta. raops. rewrite (size_cons (A := RA)).
  destruct x as [|b x]; [reflexivity|]. rewrite IH by discriminate.
  set (t := b :: x). assert (S1 : 1 <= size (A := RA) t) by (unfold t, size; cbn [length]; lia). replace (size (A := RA) t + 1 - 1) with ((size (A := RA) t - 1) + 1) by lia.
  rewrite !smp_S by lia. reflexivity.
Qed.
Lemma stored_small (cs : list RA) : Forall (fun c : R => 0 <= c < 95 / 100)%R cs ->
  exists C, (0 <= C)%R /\ forall (x : list RA) M w, steady (95 / 100) w -> tends x 0 M w -> x <> [] ->
  (chain_stored cs x <= C * ((M * w (size x - 1)%Z) * (M * w (size x - 1)%Z)))%R.
Proof.
  induction 1 as [|c cs Hc _ (C & C0 & IH)].
  - exists 0%R. split; [lra|]. intros. cbn [chain_stored]. lra.
  - set (g := section_gain (95 / 100) c). assert (G : (1 <= g)%R) by (apply (section_gain_ge (95 / 100) c); lra).
    assert (D : (0 < 1 - c * c)%R) by nra. assert (I : (0 < / (1 - c * c))%R) by now apply Rinv_0_lt_compat.
    exists ((1 + g) * (1 + g) * / (1 - c * c) + C * (g * g))%R. split.
    { assert (0 <= (1 + g) * (1 + g) * / (1 - c * c))%R by (apply Rmult_le_pos; [nra | lra]). assert (0 <= C * (g * g))%R by (apply Rmult_le_pos; [lra | nra]). lra. }
    intros x M w Hw HT N. pose proof (allpass_tends c (95 / 100) x 0 M w ltac:(lra) ltac:(lra) Hw HT) as HT2.
    assert (Sz : size (allpass (A := RA) c x) = size x) by (unfold size, allpass; now rewrite allpass_from_length).
    assert (Sx : 1 <= size x) by (destruct x; [congruence | unfold size; cbn [length]; lia]).
    assert (N2 : allpass (A := RA) c x <> []) by (intros Z0; rewrite Z0 in Sz; unfold size in *; cbn [length] in Sz; lia).
    specialize (IH (allpass (A := RA) c x) (g * M)%R w Hw HT2 N2). rewrite Sz in IH. cbn [chain_stored].
    set (k := size x - 1) in *. destruct HT as ((M0 & _) & HX). destruct HT2 as (_ & HY).
    specialize (HX k ltac:(lia)). specialize (HY k ltac:(lia)). destruct (Hw k ltac:(lia)) as [W0 _].
    set (q := (M * w k)%R) in *. assert (q0 : (0 <= q)%R) by (unfold q; now apply Rmult_le_pos).
    assert (LS : (Rabs (last_state c 0 0 x) <= (1 + g) * q)%R).
    { rewrite (last_state_eq c x 0 0 N). fold k. change (allpass_from (A := RA) c 0%R 0%R x) with (allpass (A := RA) c x).
      set (a := smp x k) in *. set (b := smp (allpass (A := RA) c x) k) in *. change (Arith.T RA) with R in a, b. clearbody a b.
      fold g in HY. replace (g * M * w k)%R with (g * q)%R in HY by (unfold q; ring). rewrite Rminus_0_r in HX, HY.
      replace (a - c * b)%R with (a + - (c * b))%R by ring. eapply Rle_trans; [apply Rabs_triang|]. rewrite Rabs_Ropp, Rabs_mult, (Rabs_pos_eq c) by lra.
      assert (c * Rabs b <= 1 * (g * q))%R by (apply Rmult_le_compat; [lra | apply Rabs_pos | lra | lra]). lra. }
    assert (L2 : (stored c (last_state c 0 0 x) <= (1 + g) * (1 + g) * / (1 - c * c) * (q * q))%R).
    { unfold stored, Rdiv. set (s := last_state c 0 0 x) in *. replace ((1 + g) * (1 + g) * / (1 - c * c) * (q * q))%R with (((1 + g) * q) * ((1 + g) * q) * / (1 - c * c))%R by ring.
      apply Rmult_le_compat_r; [lra|]. apply Rsqr_le_abs_1. rewrite (Rabs_pos_eq ((1 + g) * q)); [exact LS | apply Rmult_le_pos; lra]. }
    replace (g * M * w k)%R with (g * q)%R in IH by (unfold q; ring).
    replace (C * (g * q * (g * q)))%R with (C * (g * g) * (q * q))%R in IH by ring. lra.
Qed.

(** upsampling and downsampling by 2 loses no energy: after the end of a signal, all of its energy comes out *)
Theorem C85_energy_returns M n0 eps : 0 <= n0 -> (0 <= M)%R -> (0 < eps)%R -> exists N, forall plat1 st1 (m1 : mem RA) id1 o1 plat2 st2 (m2 : mem RA) id2 o2,
  reach plat1 st1 m1 -> st1 id1 = Some o1 -> reach plat2 st2 m2 -> st2 id2 = Some o2 ->
  let r1 := o_res o1 in let r2 := o_res o2 in let x := o_in o1 in
  r_filter r1 = FILTER_IIR -> r_mode r1 = UP -> r_filter r2 = FILTER_IIR -> r_mode r2 = DOWN -> r_ratio r1 = 2 -> r_ratio r2 = 2 -> r_prec r2 = r_prec r1 -> o_in o2 = o_out o1 ->
  (forall k, 0 <= k < size x -> (Rabs (smp x k) <= M)%R) -> (forall k, n0 <= k < size x -> smp x k = 0%R) -> N <= size x ->
  (energy x - eps < energy (o_out o2) <= energy x)%R.
Proof.
  intros Hn M0 He.
  assert (AC : forall l, Forall iir_prec l -> exists C, (0 <= C)%R /\ forall p, In p l -> forall (x : list RA) B w, steady (95 / 100) w -> tends x 0 B w -> x <> [] ->
    (chain_stored (coeffs (A := RA) FILTER_IIR UP p 2) x <= C * ((B * w (size x - 1)%Z) * (B * w (size x - 1)%Z)))%R).
  { induction 1 as [|p l Hp _ (C & C0 & IH)]; [exists 0%R; split; [lra | intros p []]|].
    destruct (iir_stage_ok 95 2 p ltac:(auto) ltac:(left; reflexivity) Hp) as (F & _). destruct (stored_small _ F) as (C1 & C10 & H1).
    exists (C + C1)%R. split; [lra|]. intros p' [<-|Hin] x B w Hw HT N.
    - eapply Rle_trans; [apply (H1 x B w Hw HT N)|]. apply Rmult_le_compat_r; [apply Rle_0_sqr | lra].
    - eapply Rle_trans; [apply (IH p' Hin x B w Hw HT N)|]. apply Rmult_le_compat_r; [apply Rle_0_sqr | lra]. }
  destruct (AC [8; 12; 16; 20; 24]) as (C & C0 & HC); [repeat constructor; unfold iir_prec; lia|]. clear AC.
  set (B := (2 * M)%R). set (D := (C * (B * B) + 1)%R). assert (D0 : (0 < D)%R) by (unfold D; assert (0 <= C * (B * B))%R by (apply Rmult_le_pos; [lra | apply Rle_0_sqr]); lra).
  destruct (pow_lt_1_zero (95 / 100) ltac:(rewrite Rabs_pos_eq; lra) (eps / D) ltac:(now apply Rdiv_lt_0_compat)) as [N HN].
  exists (n0 + Z.of_nat N + 1). intros plat1 st1 m1 id1 o1 plat2 st2 m2 id2 o2 H1 E1 H2 E2 r1 r2 x Hf1 Hm1 Hf2 Hm2 Hr1 Hr2 Hp Ex HM Hz Sx.
  destruct (C69_all_pass _ _ _ _ _ _ _ _ _ _ H1 E1 H2 E2 Hf1 Hm1 Hf2 Hm2 Hr1 Hr2 Hp Ex) as [_ En]. fold r1 x in En.
  destruct (reach_iir plat1 _ _ _ _ H1 E1 Hf1) as ([_ V] & _). fold r1 in V. specialize (V ltac:(lia)).
  set (cs := coeffs (A := RA) FILTER_IIR UP (r_prec r1) 2) in *.
  assert (P0 : (0 <= chain_stored cs x)%R) by (apply chain_stored_pos, iir_stage_unit; [left; reflexivity | exact V]).
  set (w := fun k => ((95 / 100) ^ Z.to_nat (k - n0))%R).
  assert (Hw : steady (95 / 100) w) by (apply fading_steady; lra).
  assert (HT : tends x 0 B w).
  { split; [split; [unfold B; lra | rewrite Rabs_R0; unfold w; apply Rmult_le_pos; [unfold B; lra | apply pow_le; lra]]|].
    intros k Hk. rewrite Rminus_0_r. destruct (Z_lt_le_dec k n0).
    - unfold w. replace (Z.to_nat (k - n0)) with 0%nat by lia. cbn [pow]. specialize (HM k Hk). unfold B. lra.
    - rewrite Hz by lia. rewrite Rabs_R0. unfold w. apply Rmult_le_pos; [unfold B; lra | apply pow_le; lra]. }
  assert (Nx : x <> []) by (intros Z0; rewrite Z0 in Sx; unfold size in Sx; cbn [length] in Sx; lia).
  pose proof (HC (r_prec r1) ltac:(cbn; unfold has_tables, iir_prec in V; lia) x B w Hw HT Nx) as S. fold cs in S.
  set (k := Z.to_nat (size x - 1 - n0)). assert (Nk : (k >= N)%nat) by (unfold k; lia). specialize (HN k Nk). unfold w in S. fold k in S.
  set (q := ((95 / 100) ^ k)%R) in *. assert (q0 : (0 <= q <= 1)%R) by (unfold q; split; [apply pow_le; lra | rewrite <- (pow1 k); apply pow_incr; lra]).
  rewrite Rabs_pos_eq in HN by lra.
  assert (A1 : (C * (B * q * (B * q)) <= C * (B * B) * q)%R).
  { replace (C * (B * q * (B * q)))%R with (C * (B * B) * q * q)%R by ring. rewrite <- (Rmult_1_r (C * (B * B) * q)) at 2.
    apply Rmult_le_compat_l; [|lra]. apply Rmult_le_pos; [|lra]. apply Rmult_le_pos; [lra | apply Rle_0_sqr]. }
  assert (A2 : (D * q < eps)%R).
  { apply Rmult_lt_reg_r with (/ D)%R; [now apply Rinv_0_lt_compat|]. replace (D * q * / D)%R with q by (field; lra). exact HN. }
  unfold D in A2. lra.
Qed.

(** ** Downsampling loses signals *)
Definition negs (x : list RA) : list RA := @map (Arith.T RA) (Arith.T RA) Ropp x.
Lemma allpass_from_neg (c : R) (x : list RA) : forall x1 y1 : R,
  allpass_from (A := RA) c (- x1)%R (- y1)%R (negs x) = negs (allpass_from (A := RA) c x1 y1 x).
Proof.
  induction x as [|a x IH]; intros x1 y1; [reflexivity|]. cbn [negs map allpass_from]. cbv zeta. raops.
  assert (E : ((- a - - y1) * c + - x1 = - ((a - y1) * c + x1))%R) by ring. cbn [negs map]. rewrite E. f_equal. apply IH.
Qed.
Lemma chain_neg (cs : list RA) : forall x : list RA, chain (A := RA) cs (negs x) = negs (chain (A := RA) cs x).
Proof.
  induction cs as [|c cs IH]; intros x; [reflexivity|].
  change (chain (A := RA) cs (allpass (A := RA) c (negs x)) = negs (chain (A := RA) cs (allpass (A := RA) c x))). rewrite <- IH. f_equal. unfold allpass. raops.
  rewrite <- (allpass_from_neg c x 0 0). now rewrite Ropp_0.
Qed.
Lemma zip_neg (a : list RA) : zip (A := RA) (fun a b => fmul fhalf (fadd a b)) a (negs a) = repeat (0%R : RA) (length a).
Proof. induction a as [|v a IH]; [reflexivity|]. cbn [negs map zip length repeat]. f_equal; [raops; lra | exact IH]. Qed.
(** the signal that a stage removes *)
Definition removed (cs z : list RA) : list RA := weave (negs (chain (A := RA) (evens cs) z)) (chain (A := RA) (odds cs) z).
Lemma removed_zero (cs z : list RA) : iir_down2 (A := RA) cs (removed cs z) = repeat (0%R : RA) (length z).
Proof.
  unfold iir_down2, removed. destruct (evens_weave (negs (chain (A := RA) (evens cs) z)) (chain (A := RA) (odds cs) z)) as [-> ->]; [unfold negs; now rewrite map_length, !chain_length|].
  rewrite chain_neg. rewrite <- !chain_app. rewrite (chain_perm (evens cs ++ odds cs) (odds cs ++ evens cs)) by apply Permutation_app_comm.
  rewrite zip_neg, chain_length. reflexivity.
Qed.
Lemma chain_head (cs : list RA) : Forall (fun c : R => c <> 0%R) cs -> forall (v : RA) (x : list RA), v <> 0%R -> smp (chain (A := RA) cs (v :: x)) 0 <> 0%R.
Proof.
  induction 1 as [|c cs Hc _ IH]; intros v x Hv; [exact Hv|].
  change (smp (chain (A := RA) cs (allpass (A := RA) c (v :: x))) 0 <> 0%R). unfold allpass. cbn [allpass_from]. cbv zeta. raops. apply IH.
  replace ((v - 0) * c + 0)%R with (v * c)%R by ring. now apply Rmult_integral_contrapositive.
Qed.
Lemma removed_head (cs : list RA) (v : RA) (x : list RA) : Forall (fun c : R => c <> 0%R) cs -> v <> 0%R -> smp (removed cs (v :: x)) 0 <> 0%R.
Proof.
  intros F Hv. pose proof (chain_head (evens cs) (proj1 (evens_Forall _ _ F)) v x Hv) as H. unfold removed.
  pose proof (chain_length (A := RA) (evens cs) (v :: x)) as L1. pose proof (chain_length (A := RA) (odds cs) (v :: x)) as L2.
  destruct (chain (A := RA) (evens cs) (v :: x)) as [|a l]; [discriminate|]. destruct (chain (A := RA) (odds cs) (v :: x)) as [|b k]; [discriminate|].
  rewrite smp_0 in H. cbn [negs map weave]. rewrite smp_0. intros Z0. apply H. rewrite <- (Ropp_involutive a), Z0. apply Ropp_0.
Qed.
Lemma stage_zeros_only p s n : stage_no s -> iir_prec p -> 0 <= n -> stage (A := RA) FILTER_IIR DOWN p false s (zeros (2 * n)) = zeros n.
Proof.
  intros Hs Hp Hn. pose proof (stage_zeros FILTER_IIR DOWN p s n [] Hs Hp Hn) as Q. cbn beta iota in Q. rewrite app_nil_r in Q. rewrite Q.
  replace (stage (A := RA) FILTER_IIR DOWN p false s []) with (@nil RA); [apply app_nil_r|]. cbn [stage]. unfold iir_down2. cbn [evens odds].
  assert (E : forall cs : list RA, chain (A := RA) cs [] = []) by (intros cs; apply length_zero_iff_nil; now rewrite chain_length). rewrite !E. reflexivity.
Qed.
(** a signal of any length that a downsampler turns into silence *)
Lemma removed_resample ratio p n v (x : list RA) : valid FILTER_IIR ratio p -> 2 <= ratio -> 0 <= n -> 2 * (Z.of_nat (length x) + 1) = ratio * n ->
  resample (A := RA) FILTER_IIR DOWN p false ratio (removed (coeffs (A := RA) FILTER_IIR DOWN p ratio) (v :: x)) = zeros n.
Proof.
  intros [Hr V] H2 Hn L. specialize (V H2). cbn in V.
  assert (S2 : stage_no 2) by (unfold stage_no; lia). assert (S4 : stage_no 4) by (unfold stage_no; lia).
  assert (G : stage (A := RA) FILTER_IIR DOWN p false ratio (removed (coeffs (A := RA) FILTER_IIR DOWN p ratio) (v :: x)) = zeros (Z.of_nat (length x) + 1)).
  { cbn [stage]. rewrite removed_zero. unfold zeros. f_equal. cbn [length]. lia. }
  destruct Hr as [->|[->|[->| ->]]]; [lia|..]; unfold resample; cbn [Z.eqb Pos.eqb]; rewrite G.
  - f_equal. lia.
  - replace (Z.of_nat (length x) + 1) with (2 * n) by lia. now apply stage_zeros_only.
  - replace (Z.of_nat (length x) + 1) with (2 * (2 * n)) by lia. rewrite stage_zeros_only by (assumption || lia). now apply stage_zeros_only.
Qed.
Theorem C85_downsampling_loses plat (sse : bool) ratio p n :
  valid FILTER_IIR ratio p -> 2 <= ratio -> 1 <= n -> ratio * n < 2 ^ 20 ->
  exists st (m : mem RA) o, reach plat st m /\ st 0 = Some o /\
    r_filter (o_res o) = FILTER_IIR /\ r_mode (o_res o) = DOWN /\ r_ratio (o_res o) = ratio /\ r_prec (o_res o) = p /\ r_use_sse (o_res o) = sse /\
    size (o_in o) = ratio * n /\ smp (o_in o) 0 <> 0%R /\ size (o_out o) = n /\ forall j, smp (o_out o) j = 0%R.
Proof.
  intros V H2 Hn Hl. set (k := Z.to_nat (ratio * n / 2 - 1)).
  assert (Ev : exists h, ratio * n = 2 * h /\ 1 <= h) by (destruct V as [[->|[->|[->| ->]]] _]; [lia | exists n; lia | exists (2 * n); lia | exists (4 * n); lia]).
  destruct Ev as (h & Eh & Hh). assert (Ek : Z.of_nat k + 1 = h) by (unfold k; rewrite Eh, Z.mul_comm, Z.div_mul; lia). clearbody k.
  set (cs := coeffs (A := RA) FILTER_IIR DOWN p ratio). set (x := removed cs (1%R :: repeat 0%R k)).
  assert (Lx : Z.of_nat (length x) = ratio * n).
  { unfold x, removed, negs. rewrite weave_length; rewrite ?map_length, ?chain_length; [|reflexivity]. cbn [length]. rewrite repeat_length. lia. }
  assert (Sn : stage_no ratio) by (destruct V as [[->|[->|[->| ->]]] _]; unfold stage_no; lia).
  assert (C0 : configb FILTER_IIR ratio p = true).
  { unfold configb. destruct V as [V1 V2]. specialize (V2 H2). unfold has_tables, iir_prec, ratio_no in *. lia. }
  destruct (some_obj (A := RA) plat DOWN ratio p sse FILTER_IIR 0 [(0, x)]) as (st & m & o & H & E & Er & Ei).
  { rewrite C0. cbn [forallb snd fst andb]. unfold sizeb. rewrite Lx. rewrite (Z.mul_comm ratio n), Z.mod_mul by lia. rewrite !andb_true_r. lia. }
  cbn [map concat snd] in Ei. rewrite app_nil_r in Ei.
  assert (Hf : r_filter (o_res o) = FILTER_IIR) by (rewrite Er; reflexivity).
  destruct (reach_iir plat _ _ _ _ H E Hf) as (_ & Ey & _). rewrite Er, Ei in Ey. cbn [built r_mode r_prec r_ratio] in Ey.
  unfold x, cs in Ey. rewrite (removed_resample ratio p n) in Ey; [|assumption|assumption|lia|rewrite repeat_length; lia].
  exists st, m, o. rewrite Ey, Ei, Er. do 7 (split; [first [assumption | reflexivity]|]).
  split; [exact Lx|]. split.
  - unfold x. apply removed_head; [apply coeffs_nonzero; [exact Sn | destruct V as [_ V2]; exact (V2 H2)] | apply R1_neq_R0].
  - split; [apply zeros_size; lia|]. intros j. unfold smp, zeros. destruct (j <? 0); [reflexivity|].
    destruct (Nat.lt_ge_cases (Z.to_nat j) (Z.to_nat n)) as [L|L]; [|rewrite nth_overflow by (rewrite repeat_length; exact L); reflexivity].
    rewrite (nth_indep _ _ 0%R) by (rewrite repeat_length; exact L). apply nth_repeat.
Qed.
(** ** FIR *)
(** two different signals are different after FIR upsampling, unless they differ only in samples which are not put out yet because of the delay *)
Theorem C85_fir_upsampling_keeps {A : arith} plat1 st1 (m1 : mem A) id1 o1 plat2 st2 (m2 : mem A) id2 o2 D k :
  reach plat1 st1 m1 -> st1 id1 = Some o1 -> reach plat2 st2 m2 -> st2 id2 = Some o2 ->
  let r1 := o_res o1 in let r2 := o_res o2 in
  r_filter r1 = FILTER_FIR -> r_mode r1 = UP -> r_filter r2 = FILTER_FIR -> r_mode r2 = UP -> r_ratio r2 = r_ratio r1 ->
  delay_is r1 D -> delay_is r2 D ->
  0 <= k -> (D + IZR (r_ratio r1 * k) < IZR (size (o_out o1)))%R -> smp (o_in o1) k <> smp (o_in o2) k -> o_out o1 <> o_out o2.
Proof.
  intros H1 E1 H2 E2 r1 r2 Hf1 Hm1 Hf2 Hm2 Hr HD1 HD2 Hk L N E. apply N.
  destruct (C03_passthrough plat1 _ _ _ _ H1 E1 Hf1 Hm1) as (D1 & T1 & _ & P1). destruct (C03_passthrough plat2 _ _ _ _ H2 E2 Hf2 Hm2) as (D2 & T2 & _ & P2).
  fold r1 in T1, P1. fold r2 in T2, P2. pose proof (delay_unique _ _ _ T1 HD1) as Q1. pose proof (delay_unique _ _ _ T2 HD2) as Q2.
  assert (D2 = D1) by (apply eq_IZR; congruence). subst D2. rewrite <- Q1, <- plus_IZR in L. apply lt_IZR in L.
  rewrite <- (P1 k Hk L), <- (P2 k Hk); [|rewrite Hr, <- E; exact L]. rewrite Hr, E. reflexivity.
Qed.
(** the signal that a stage removes: a single 1 among the even samples, and the odd samples that cancel what comes of it *)
Definition unit_at (d k : Z) : RA := (if k =? d then 1 else 0)%R.
Definition fir_removed (t : list RA) (n : Z) : list RA := tab (2 * n) (fun j =>
  if Z.even j then unit_at (size t / 2) (j / 2)
  else (- 2 * mac (A := RA) (length t) (fun i => (if j / 2 + size t / 2 - size t + 1 + i <? n then unit_at (size t / 2) (j / 2 + size t / 2 - size t + 1 + i) else 0)%R : RA) (smp t))%R).
Lemma absorb0 (v : R) : (0 + 0 * v = 0)%R.
Proof. ring. Qed.
Lemma absorb1 (v : R) : (0 + v * 0 = 0)%R.
Proof. ring. Qed.
Lemma absorb2 (q : R) : (q + / 2 * (- 2 * q) = 0)%R.
Proof. field. Qed.
Lemma mac_0 n (w t : Z -> RA) : (forall i, 0 <= i < Z.of_nat n -> w i = 0%R) -> mac (A := RA) n w t = 0%R.
Proof.
  induction n as [|n IH]; intros H; [reflexivity|]. cbn [mac]. rewrite IH by (intros; apply H; lia). rewrite H by lia. apply absorb0.
Qed.
Lemma fir_removed_even t n k : 0 <= n -> 2 <= size t -> smp (fir_removed t n) (2 * k) = (if k <? n then unit_at (size t / 2) k else 0)%R.
Proof.
  intros Hn Ht. destruct (Z.ltb_spec k n) as [L|L].
  - destruct (Z_lt_le_dec k 0) as [L0|L0].
    + unfold smp. replace (2 * k <? 0) with true by lia. unfold unit_at. replace (k =? size t / 2) with false; [reflexivity|].
      symmetry. apply Z.eqb_neq. assert (0 <= size t / 2) by (apply Z.div_pos; lia). lia.
    + unfold fir_removed. rewrite smp_tab by lia. rewrite Z.even_mul. cbn [Z.even orb]. rewrite Z.mul_comm, Z.div_mul by lia. reflexivity.
  - unfold smp. destruct (2 * k <? 0); [reflexivity|]. apply nth_overflow. pose proof (size_tab (A := RA) (2 * n)) as S. unfold size, fir_removed in *.
    pose proof (tab_length (A := RA) (2 * n)) as T. rewrite T. lia.
Qed.
Lemma fir_removed_zero (t : list RA) n : 0 <= n -> 2 <= size t -> fir_down2 (A := RA) t (fir_removed t n) = zeros n.
Proof.
  intros Hn Ht. assert (Sx : size (fir_removed t n) = 2 * n) by (unfold fir_removed; apply size_tab; lia).
  apply smp_ext; [unfold fir_down2; rewrite Sx, zeros_size by lia; rewrite size_tab; rewrite (Z.mul_comm 2), Z.div_mul by lia; lia|].
  intros k Hk. unfold fir_down2 in Hk |- *. rewrite Sx, (Z.mul_comm 2 n), Z.div_mul in Hk |- * by lia. rewrite size_tab in Hk by lia. rewrite smp_tab by lia.
  assert (Z0 : smp (zeros n) k = 0%R).
  { unfold smp, zeros. replace (k <? 0) with false by lia. rewrite (nth_indep _ _ 0%R) by (rewrite repeat_length; lia). apply nth_repeat. }
  rewrite Z0. unfold fir_down_at. cbv zeta. set (N := size t) in *. assert (h0 : 1 <= N / 2) by (apply Z.div_le_lower_bound; lia).
  assert (Ew : forall i, smp (fir_removed t n) (2 * (k - N + 1 + i)) = (if k - N + 1 + i <? n then unit_at (N / 2) (k - N + 1 + i) else 0)%R) by (intros i; now apply fir_removed_even).
  rewrite (mac_ext (A := RA) (length t) _ (fun i => (if k - N + 1 + i <? n then unit_at (N / 2) (k - N + 1 + i) else 0)%R : RA) _ (smp t)) by (intros; try apply Ew; reflexivity).
  destruct (Z_lt_le_dec k (N / 2)) as [L|L].
  - rewrite mac_0.
    + unfold smp at 1. replace (2 * (k - N / 2) + 1 <? 0) with true by lia. apply absorb1.
    + intros i Hi. change (Z.of_nat (length t)) with N in Hi. destruct (k - N + 1 + i <? n); [|reflexivity]. unfold unit_at. replace (k - N + 1 + i =? N / 2) with false by lia. reflexivity.
  - assert (Od : smp (fir_removed t n) (2 * (k - N / 2) + 1) = (- 2 * mac (A := RA) (length t) (fun i => (if k - N + 1 + i <? n then unit_at (N / 2) (k - N + 1 + i) else 0)%R : RA) (smp t))%R).
    { unfold fir_removed. rewrite smp_tab by lia. replace (Z.even (2 * (k - N / 2) + 1)) with false by (rewrite Z.even_add, Z.even_mul; reflexivity). fold N.
      replace ((2 * (k - N / 2) + 1) / 2) with (k - N / 2) by (apply (Z.div_unique_pos _ 2 _ 1); lia). f_equal. apply mac_ext; [|reflexivity].
      intros i _. replace (k - N / 2 + N / 2 - N + 1 + i) with (k - N + 1 + i) by lia. reflexivity. }
    rewrite Od. apply absorb2.
Qed.
Lemma fir_stage_zeros p s n : stage_no s -> fir_prec p -> 0 <= n -> stage (A := RA) FILTER_FIR DOWN p false s (zeros (2 * n)) = zeros n.
Proof.
  intros Hs Hp Hn. pose proof (stage_zeros FILTER_FIR DOWN p s n [] Hs Hp Hn) as Q. cbn beta iota in Q. rewrite app_nil_r in Q. rewrite Q. apply app_nil_r.
Qed.
(** FIR downsamplers, too, turn some signals into silence *)
Theorem C85_fir_downsampling_loses plat (sse : bool) ratio p n :
  valid FILTER_FIR ratio p -> 2 <= ratio -> 54 <= ratio * n < 2 ^ 20 ->
  exists st (m : mem RA) o, reach plat st m /\ st 0 = Some o /\
    r_filter (o_res o) = FILTER_FIR /\ r_mode (o_res o) = DOWN /\ r_ratio (o_res o) = ratio /\ r_prec (o_res o) = p /\ r_use_sse (o_res o) = sse /\
    size (o_in o) = ratio * n /\ (exists k, 0 <= k < 54 /\ smp (o_in o) k <> 0%R) /\ size (o_out o) = n /\ forall j, smp (o_out o) j = 0%R.
Proof.
  intros V H2 Hl. assert (Hn : 0 <= n) by nia.
  assert (Ev : exists h, ratio * n = 2 * h) by (destruct V as [[->|[->|[->| ->]]] _]; [lia | exists n; lia | exists (2 * n); lia | exists (4 * n); lia]).
  destruct Ev as (h & Eh). assert (Sn : stage_no ratio) by (destruct V as [[->|[->|[->| ->]]] _]; unfold stage_no; lia).
  assert (FP : fir_prec p) by (destruct V as [_ V2]; exact (V2 H2)).
  set (t := coeffs (A := RA) FILTER_FIR DOWN p ratio).
  destruct (ft_facts DOWN ratio p Sn FP) as (_ & _ & N2 & N52 & _). change (2 <= size t) in N2. change (size t <= 52) in N52.
  set (x := fir_removed t h). assert (Lx : size x = ratio * n) by (unfold x, fir_removed; rewrite size_tab; lia).
  assert (C0 : configb FILTER_FIR ratio p = true).
  { unfold configb. destruct V as [V1 _]. unfold fir_prec, ratio_no in *. lia. }
  destruct (some_obj (A := RA) plat DOWN ratio p sse FILTER_FIR 0 [(0, x)]) as (st & m & o & H & E & Er & Ei).
  { rewrite C0. cbn [forallb snd fst andb]. unfold sizeb. change (Z.of_nat (length x)) with (size x). rewrite Lx. rewrite (Z.mul_comm ratio n), Z.mod_mul by lia. rewrite !andb_true_r. lia. }
  cbn [map concat snd] in Ei. rewrite app_nil_r in Ei.
  assert (Hf : r_filter (o_res o) = FILTER_FIR) by (rewrite Er; reflexivity).
  destruct (reach_fir_any plat _ _ _ _ H E Hf) as [_ Ey]. rewrite Er, Ei in Ey. cbn [built r_mode r_prec r_ratio] in Ey.
  assert (G : stage (A := RA) FILTER_FIR DOWN p false ratio x = zeros h) by (cbn [stage]; apply fir_removed_zero; lia).
  assert (S2 : stage_no 2) by (unfold stage_no; lia). assert (S4 : stage_no 4) by (unfold stage_no; lia).
  assert (Ez : o_out o = zeros n).
  { rewrite Ey. clear - G Eh V Hn FP S2 S4 H2. destruct V as [[->|[->|[->| ->]]] _]; [lia|..]; unfold resample; cbn [Z.eqb Pos.eqb]; rewrite G.
    - f_equal. lia.
    - replace h with (2 * n) by lia. now apply fir_stage_zeros.
    - replace h with (2 * (2 * n)) by lia. rewrite fir_stage_zeros by (assumption || lia). now apply fir_stage_zeros. }
  exists st, m, o. rewrite Ez, Ei, Er. do 7 (split; [first [assumption | reflexivity]|]).
  split; [exact Lx|]. split.
  - assert (size t / 2 <= 26) by (apply Z.div_le_upper_bound; lia). assert (0 <= size t / 2) by (apply Z.div_pos; lia).
    exists (2 * (size t / 2)). split; [lia|]. unfold x. rewrite fir_removed_even by lia. replace (size t / 2 <? h) with true by lia. unfold unit_at. rewrite Z.eqb_refl. apply R1_neq_R0.
  - split; [apply zeros_size; lia|]. intros j. unfold smp, zeros. destruct (j <? 0); [reflexivity|].
    destruct (Nat.lt_ge_cases (Z.to_nat j) (Z.to_nat n)) as [L|L]; [|rewrite nth_overflow by (rewrite repeat_length; exact L); reflexivity].
    rewrite (nth_indep _ _ 0%R) by (rewrite repeat_length; exact L). apply nth_repeat.
Qed.

(** ** The hypotheses can be met *)
Lemma trip_exists plat (sse : bool) (x : list RA) : 0 < size x < 2 ^ 19 -> exists st1 (m1 : mem RA) o1 st2 (m2 : mem RA) o2,
  reach plat st1 m1 /\ st1 0 = Some o1 /\ reach plat st2 m2 /\ st2 1 = Some o2 /\
  r_filter (o_res o1) = FILTER_IIR /\ r_mode (o_res o1) = UP /\ r_filter (o_res o2) = FILTER_IIR /\ r_mode (o_res o2) = DOWN /\
  r_ratio (o_res o1) = 2 /\ r_ratio (o_res o2) = 2 /\ r_prec (o_res o1) = PREC_48DB /\ r_prec (o_res o2) = PREC_48DB /\
  o_in o1 = x /\ o_in o2 = o_out o1.
Proof.
  intros Sx. destruct (some_obj (A := RA) plat UP 2 PREC_48DB sse FILTER_IIR 0 [(0, x)]) as (st1 & m1 & o1 & H1 & E1 & Er1 & Ei1).
  { cbn [forallb snd fst]. change (Z.of_nat (length x)) with (size x). unfold sizeb. rewrite !andb_true_r. cbn. lia. }
  cbn [map concat snd] in Ei1. rewrite app_nil_r in Ei1.
  assert (L : size (o_out o1) = 2 * size x).
  { rewrite (reach_size plat _ _ _ _ H1 E1), Er1, Ei1. cbn [built r_mode r_ratio out_size]. lia. }
  destruct (some_obj (A := RA) plat DOWN 2 PREC_48DB sse FILTER_IIR 1 [(0, o_out o1)]) as (st2 & m2 & o2 & H2 & E2 & Er2 & Ei2).
  { cbn [forallb snd fst]. change (Z.of_nat (length (o_out o1))) with (size (o_out o1)). rewrite L. unfold sizeb. rewrite (Z.mul_comm 2), Z.mod_mul by lia. rewrite !andb_true_r. cbn. lia. }
  cbn [map concat snd] in Ei2. rewrite app_nil_r in Ei2.
  exists st1, m1, o1, st2, m2, o2. rewrite Er1, Er2. repeat split; assumption.
Qed.
(** two different signals, one of them a 1 followed by silence of any length *)
Definition ping (n : nat) : list RA := 1%R :: repeat 0%R n.
Example C85_case plat (sse : bool) n : 0 <= Z.of_nat n < 1000 -> exists st1 (m1 : mem RA) o1 st2 (m2 : mem RA) o2 st3 (m3 : mem RA) o3 st4 (m4 : mem RA) o4,
  (reach plat st1 m1 /\ st1 0 = Some o1 /\ reach plat st2 m2 /\ st2 1 = Some o2 /\
   r_filter (o_res o1) = FILTER_IIR /\ r_mode (o_res o1) = UP /\ r_filter (o_res o2) = FILTER_IIR /\ r_mode (o_res o2) = DOWN /\
   r_ratio (o_res o1) = 2 /\ r_ratio (o_res o2) = 2 /\ r_prec (o_res o1) = PREC_48DB /\ r_prec (o_res o2) = PREC_48DB /\
   o_in o1 = ping n /\ o_in o2 = o_out o1) /\
  (reach plat st3 m3 /\ st3 0 = Some o3 /\ reach plat st4 m4 /\ st4 1 = Some o4 /\
   r_filter (o_res o3) = FILTER_IIR /\ r_mode (o_res o3) = UP /\ r_filter (o_res o4) = FILTER_IIR /\ r_mode (o_res o4) = DOWN /\
   r_ratio (o_res o3) = 2 /\ r_ratio (o_res o4) = 2 /\ r_prec (o_res o3) = PREC_48DB /\ r_prec (o_res o4) = PREC_48DB /\
   o_in o3 = repeat 0%R (S n) /\ o_in o4 = o_out o3) /\
  o_in o1 <> o_in o3 /\ o_out o1 <> o_out o3 /\ o_out o2 <> o_out o4 /\
  (forall k, 0 <= k < size (o_in o1) -> (Rabs (smp (o_in o1) k) <= 1)%R) /\ (forall k, 1 <= k < size (o_in o1) -> smp (o_in o1) k = 0%R) /\
  size (o_in o1) = Z.of_nat n + 1.
Proof.
  intros Hn. assert (Sp : size (ping n) = Z.of_nat n + 1) by (unfold ping; rewrite (size_cons (A := RA)); unfold size; rewrite repeat_length; lia).
  destruct (trip_exists plat sse (ping n) ltac:(rewrite Sp; lia)) as (st1 & m1 & o1 & st2 & m2 & o2 & H1 & E1 & H2 & E2 & A1 & A2 & A3 & A4 & A5 & A6 & A7 & A8 & A9 & A10).
  destruct (trip_exists plat sse (repeat 0%R (S n)) ltac:(unfold size; rewrite repeat_length; lia)) as (st3 & m3 & o3 & st4 & m4 & o4 & H3 & E3 & H4 & E4 & B1 & B2 & B3 & B4 & B5 & B6 & B7 & B8 & B9 & B10).
  assert (N : o_in o1 <> o_in o3) by (rewrite A9, B9; intros Z0; injection Z0 as Z0; lra).
  exists st1, m1, o1, st2, m2, o2, st3, m3, o3, st4, m4, o4.
  split; [tauto|]. split; [tauto|]. split; [exact N|].
  split; [eapply (C85_upsampling_keeps_all plat _ _ _ _ plat _ _ _ _ H1 E1 H3 E3); congruence|].
  split; [eapply (C85_oversampling_keeps_all plat _ _ _ _ plat _ _ _ _ plat _ _ _ _ plat _ _ _ _ H1 E1 H2 E2 H3 E3 H4 E4); congruence|].
  assert (Z : forall k, 1 <= k -> smp (ping n) k = 0%R).
  { intros k Hk. unfold smp, ping. destruct (k <? 0); [reflexivity|]. replace (Z.to_nat k) with (S (Z.to_nat (k - 1))) by lia. cbn [nth]. apply nth_repeat. }
  rewrite A9. split; [|split; [intros k Hk; apply Z; lia | exact Sp]]. intros k Hk. destruct (Z.eq_dec k 0) as [->|].
  - change (Rabs 1 <= 1)%R. rewrite Rabs_R1. lra.
  - rewrite Z by lia. rewrite Rabs_R0. lra.
Qed.
(** the configurations which lose signals *)
Example C85_case_loss : valid FILTER_IIR 8 PREC_144DB /\ 2 <= 8 /\ 1 <= 1000 /\ 8 * 1000 < 2 ^ 20.
Proof. split; [now apply configb_ok | lia]. Qed.

(** an FIR pair in single precision *)
Example C85_fir_case plat (sse : bool) : exists st1 (m1 : mem F32) o1 st2 (m2 : mem F32) o2 D,
  reach plat st1 m1 /\ st1 0 = Some o1 /\ reach plat st2 m2 /\ st2 0 = Some o2 /\
  r_filter (o_res o1) = FILTER_FIR /\ r_mode (o_res o1) = UP /\ r_filter (o_res o2) = FILTER_FIR /\ r_mode (o_res o2) = UP /\
  r_ratio (o_res o1) = 8 /\ r_ratio (o_res o2) = 8 /\ delay_is (o_res o1) D /\ delay_is (o_res o2) D /\
  (D + IZR (8 * 100) < IZR (size (o_out o1)))%R /\ smp (o_in o1) 100 <> smp (o_in o2) 100.
Proof.
  destruct (some_obj (A := F32) plat UP 8 PREC_96DB sse FILTER_FIR 0 [(0, repeat f1 300)] eq_refl) as (st1 & m1 & o1 & H1 & E1 & Er1 & Ei1).
  destruct (some_obj (A := F32) plat UP 8 PREC_96DB sse FILTER_FIR 0 [(3, repeat f0 200); (0, repeat f1 100)] eq_refl) as (st2 & m2 & o2 & H2 & E2 & Er2 & Ei2).
  assert (V : valid FILTER_FIR 8 PREC_96DB) by now apply configb_ok.
  exists st1, m1, o1, st2, m2, o2, (IZR (fir_delay8 UP 8 PREC_96DB) / 8)%R.
  assert (S : size (o_out o1) = 2400) by (rewrite (reach_size plat _ _ _ _ H1 E1), Er1, Ei1; reflexivity).
  rewrite S, Ei1, Ei2, Er1, Er2. do 10 (split; [first [assumption | reflexivity]|]).
  split; [now apply fir_delay_is|]. split; [now apply fir_delay_is|]. split.
  - assert (F : fir_delay8 UP 8 PREC_96DB <= 8 * 1000) by (vm_compute; discriminate). apply IZR_le in F. set (d := IZR (fir_delay8 UP 8 PREC_96DB)) in *. clearbody d. change (IZR (8 * 1000)) with 8000%R in F. change (IZR (8 * 100)) with 800%R. lra.
  - intros Q. change (f1 (a := F32) = f0 (a := F32)) in Q. discriminate Q.
Qed.
Example C85_case_fir_loss : valid FILTER_FIR 4 PREC_72DB /\ 2 <= 4 /\ 54 <= 4 * 1000 < 2 ^ 20.
Proof. split; [now apply configb_ok | lia]. Qed.

(** Not in single precision: the last sample does not reach the output, before it makes a difference there (IIR: 2^-149; FIR:
    1 + 2^-22 instead of 1 after other samples) *)
Definition lost (f : rfilter) : list F32 * list F32 :=
  match f with
  | FILTER_IIR => ([f0], [(b32_dy 1 (-149) : b32) : F32])
  | FILTER_FIR => (repeat f1 13, repeat f1 12 ++ [(b32_dy (2 ^ 22 + 1) (-22) : b32) : F32])
  end.
Lemma same_samples (x z : list F32) : map (fun v : F32 => B2SF (v : b32)) x = map (fun v : F32 => B2SF (v : b32)) z -> x = z.
Proof.
  revert z. induction x as [|a x IH]; intros [|b z] E; try discriminate E; [reflexivity|]. cbn [map] in E. injection E as E1 E2.
  f_equal; [exact (B2SF_inj _ _ _ _ E1) | exact (IH _ E2)].
Qed.
Theorem C85_single_precision_refuted plat f : exists st1 (m1 : mem F32) o1 st2 (m2 : mem F32) o2,
  reach plat st1 m1 /\ st1 0 = Some o1 /\ reach plat st2 m2 /\ st2 0 = Some o2 /\
  let r1 := o_res o1 in let r2 := o_res o2 in
  r_mode r1 = UP /\ r_mode r2 = UP /\ r_filter r1 = f /\ r_filter r2 = f /\ r_ratio r2 = r_ratio r1 /\ r_prec r2 = r_prec r1 /\
  o_in o1 <> o_in o2 /\ o_out o1 = o_out o2.
Proof.
  destruct (some_obj (A := F32) plat UP 2 PREC_48DB false f 0 [(0, fst (lost f))]) as (st1 & m1 & o1 & H1 & E1 & Er1 & Ei1); [destruct f; reflexivity|].
  destruct (some_obj (A := F32) plat UP 2 PREC_48DB false f 0 [(0, snd (lost f))]) as (st2 & m2 & o2 & H2 & E2 & Er2 & Ei2); [destruct f; reflexivity|].
  exists st1, m1, o1, st2, m2, o2. cbv zeta. rewrite Er1, Er2. do 10 (split; [first [assumption | reflexivity]|]).
  assert (V : vector plat f false = false) by (unfold vector; destruct f; apply andb_false_r).
  pose proof (reach_resample plat _ _ _ _ H1 E1) as Y1. pose proof (reach_resample plat _ _ _ _ H2 E2) as Y2. cbv zeta in Y1, Y2.
  rewrite Er1, Ei1 in Y1. rewrite Er2, Ei2 in Y2. rewrite Ei1, Ei2. unfold built in Y1, Y2. cbn [r_filter r_mode r_prec r_ratio r_use_sse] in Y1, Y2. rewrite V in Y1, Y2.
  rewrite (Y1 (fun _ => eq_refl)), (Y2 (fun _ => eq_refl)). clear. split.
  - destruct f; cbn [lost map snd fst concat app repeat]; intros Q; discriminate Q.
  - apply same_samples. destruct f; vm_compute; reflexivity.
Qed.

Print Assumptions C85_upsampling_keeps_all.
Print Assumptions C85_oversampling_keeps_all.
Print Assumptions C85_energy_returns.
Print Assumptions C85_downsampling_loses.
Print Assumptions C85_fir_upsampling_keeps.
Print Assumptions C85_fir_downsampling_loses.
Print Assumptions C85_single_precision_refuted.
