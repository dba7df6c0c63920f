(** * Properties: the example of the documentation (class Saturation) *)
From Coq Require Import ZArith Reals List Lia Lra Bool ZifyNat ZifyBool.
From Flocq Require Import Core BinarySingleNaN Relative.
From Verif Require Import Arith ArithR ArithF Mem FirModel IirModel Tables ResamplerModel Wp Stage Cascade
  ResamplerProof ResamplerOk Spec SpecOk SpecR Client Feed StreamFacts DelayFacts TablesF TableFacts FirReal FloatComm FloatSum FloatFir FloatErr
  Cases PropsStream PropsFir PropsFloat PropsFloatIir FloatFreq PropsFloatFreq ExampleModel ExampleProof.
Import ListNotations.
Open Scope Z_scope.

(** ** C62 *)

(** construction succeeds in every memory *)
Theorem C62_construct {A : arith} plat oversample prec idu idd (m : mem A) : ratio_no oversample -> (2 <= oversample -> fir_prec prec) -> idu <> idd ->
  exists s m', sat_new plat oversample prec idu idd m = Ok ((s, true), m') /\ (forall b i, is_user b -> m' b i = m b i).
Proof.
  intros Vr VT Ne. destruct (sat_new_ok plat oversample prec (fun v => v) idu idd Vr VT (fun _ => None) m (reach_init plat m) eq_refl eq_refl Ne) as (s & m' & st & E & _ & _ & F & _).
  exists s, m'. split; assumption.
Qed.

(** whatever happened before, process terminates without error for every block, also with in = out, and changes
    nothing of the caller except the output *)
Theorem C62_process {A : arith} plat oversample prec f idu idd s x y (m : mem A) addr ndebug gu gd gt k inp b out :
  ratio_no oversample -> (2 <= oversample -> fir_prec prec) -> idu <> idd ->
  sat_run plat oversample prec f idu idd s x y m -> sat_call_ok oversample m addr k inp b out ->
  exists m' z, sat_process oversample f addr ndebug gu gd gt k s inp (len b) out m = Ok (tt, m') /\
    len z = len b /\ has m' out (len b) (nthZ z) /\
    (forall b' i, is_user b' -> b' <> User k -> ~ inr out (len b) b' i -> m' b' i = m b' i) /\
    sat_run plat oversample prec f idu idd s (x ++ b) (y ++ z) m'.
Proof.
  intros Vr VT Ne H K. destruct (sat_run_inv plat oversample prec f idu idd Vr VT Ne s x y m H) as (st & H1 & S).
  destruct (sat_process_ok plat oversample prec f idu idd Vr VT st m s x y addr ndebug gu gd gt k inp b out H1 S K) as (m' & st' & z & E & L & Z & _ & _ & F & _).
  exists m', z. split; [exact E|]. split; [exact L|]. split; [exact Z|]. split; [exact F|]. eapply sr_process; eassumption.
Qed.
Theorem C62_reset {A : arith} plat oversample prec f idu idd s x y (m : mem A) addr :
  ratio_no oversample -> (2 <= oversample -> fir_prec prec) -> idu <> idd ->
  sat_run plat oversample prec f idu idd s x y m -> addr_ok addr ->
  exists m', sat_reset addr s m = Ok (tt, m') /\ (forall b i, is_user b -> m' b i = m b i) /\ sat_run plat oversample prec f idu idd s [] [] m'.
Proof.
  intros Vr VT Ne H AO. destruct (sat_run_inv plat oversample prec f idu idd Vr VT Ne s x y m H) as (st & H1 & S).
  destruct (sat_reset_ok plat oversample prec f idu idd st m s x y addr H1 S AO) as (m' & st' & E & _ & _ & F & _).
  exists m'. split; [exact E|]. split; [exact F|]. eapply sr_reset; eassumption.
Qed.

(** the output is that of upsampling, function and downsampling of the whole input, however it was cut into blocks:
    exactly over R, ... *)
Theorem C62_output plat oversample prec (f : R -> R) idu idd s x y (m : mem RA) :
  ratio_no oversample -> (2 <= oversample -> fir_prec prec) -> idu <> idd ->
  sat_run plat oversample prec (A := RA) f idu idd s x y m ->
  y = resample (A := RA) FILTER_FIR DOWN prec false oversample (map f (resample (A := RA) FILTER_FIR UP prec false oversample x)) /\ size y = size x.
Proof.
  intros Vr VT Ne H. destruct (sat_run_inv plat oversample prec _ idu idd Vr VT Ne s x y m H) as (st & H1 & Bu & Bd & _ & ou & od & Eu & Ed & Ru & Rd & Xi & Xt & Yo).
  pose proof (reach_R plat _ _ _ _ H1 Eu) as R1. pose proof (reach_R plat _ _ _ _ H1 Ed) as R2. cbn zeta in R1, R2.
  rewrite Ru, Bu, Xi in R1. rewrite Rd, Bd, Xt in R2. cbn [built r_filter r_mode r_prec r_ratio] in R1, R2.
  split; [rewrite <- R1, <- Yo; exact R2|].
  rewrite <- Yo, (reach_size plat _ _ _ _ H1 Ed), Rd, Bd, Xt. cbn [built r_mode r_ratio out_size].
  replace (size (map (f : RA -> RA) (o_out ou))) with (size (o_out ou)) by (unfold size; now rewrite map_length).
  rewrite (reach_size plat _ _ _ _ H1 Eu), Ru, Bu, Xi. cbn [built r_mode r_ratio out_size]. apply Z.div_mul. unfold ratio_no in Vr. lia.
Qed.
(** ... and bit by bit in every arithmetic if there is no vector code *)
Theorem C62_bit_exact {A : arith} plat oversample prec (f : A -> A) idu idd s x y (m : mem A) :
  ratio_no oversample -> (2 <= oversample -> fir_prec prec) -> idu <> idd -> sse_available plat = false ->
  sat_run plat oversample prec f idu idd s x y m ->
  y = resample FILTER_FIR DOWN prec false oversample (map f (resample FILTER_FIR UP prec false oversample x)).
Proof.
  intros Vr VT Ne Hp H. destruct (sat_run_inv plat oversample prec _ idu idd Vr VT Ne s x y m H) as (st & H1 & Bu & Bd & _ & ou & od & Eu & Ed & Ru & Rd & Xi & Xt & Yo).
  assert (V : vector plat FILTER_FIR true = false) by (unfold vector, sse_available in *; rewrite Hp; reflexivity).
  pose proof (reach_resample plat _ _ _ _ H1 Eu) as R1. pose proof (reach_resample plat _ _ _ _ H1 Ed) as R2. cbn zeta in R1, R2.
  rewrite Ru, Bu, Xi in R1. rewrite Rd, Bd, Xt in R2. cbn [built r_filter r_mode r_prec r_ratio r_use_sse] in R1, R2. rewrite V in R1, R2.
  rewrite <- (R1 (fun _ => eq_refl)), <- Yo. exact (R2 (fun _ => eq_refl)).
Qed.

(** binary32: the function is accurate up to e, and G-bounded and L-Lipschitz in exact arithmetic *)
Definition float_fun (f : b32 -> b32) (g : R -> R) (e : R) : Prop :=
  forall v, is_finite v = true -> is_finite (f v) = true /\ (Rabs (B2R (f v) - g (B2R v)) <= e)%R.

Lemma near_bound (a b e G : R) : (Rabs (a - b) <= e -> Rabs b <= G -> Rabs a <= G + e)%R.
Proof. intros H1 H2. apply Rabs_le_inv in H1, H2. apply Rabs_le. lra. Qed.
Lemma near_near (a b c e1 e2 : R) : (Rabs (a - b) <= e1 -> Rabs (b - c) <= e2 -> Rabs (a - c) <= e2 + e1)%R.
Proof. intros H1 H2. apply Rabs_le_inv in H1, H2. apply Rabs_le. lra. Qed.

Theorem C62_accuracy plat oversample prec (f : b32 -> b32) (g : R -> R) (e L G M : R) idu idd s x y (m : mem F32) :
  ratio_no oversample -> (2 <= oversample -> fir_prec prec) -> idu <> idd ->
  sat_run plat oversample prec (A := F32) f idu idd s x y m ->
  float_fun f g e -> (forall a b, Rabs (g a - g b) <= L * Rabs (a - b))%R -> (forall a, Rabs (g a) <= G)%R -> (G + e <= 2 ^ 109)%R ->
  (M <= 2 ^ 109)%R -> (forall k, 0 <= k < size x -> is_finite (smp x k : b32) = true /\ (Rabs (B2R (smp x k : b32)) <= M)%R) ->
  let ideal := resample (A := RA) FILTER_FIR DOWN prec false oversample (map g (resample (A := RA) FILTER_FIR UP prec false oversample (vals x))) in
  forall j, 0 <= j < size y -> is_finite (smp y j : b32) = true /\
  (Rabs (B2R (smp y j : b32) - smp ideal j) <=
     fir_bound DOWN oversample * (L * (IZR (fir_units UP oversample prec) * / 2 ^ 24 * M + / 2 ^ 140) + e) +
     (IZR (fir_units DOWN oversample prec) * / 2 ^ 24 * (G + e) + / 2 ^ 140))%R.
Proof.
  intros Vr VT Ne H Hf HL HG HGe HM Hx ideal j Hj.
  destruct (sat_run_inv plat oversample prec _ idu idd Vr VT Ne s x y m H) as (st & H1 & Bu & Bd & _ & ou & od & Eu & Ed & Ru & Rd & Xi & Xt & Yo).
  assert (R1 : 1 <= oversample) by (unfold ratio_no in Vr; lia).
  pose proof (reach_size plat _ _ _ _ H1 Eu) as Su. pose proof (reach_size plat _ _ _ _ H1 Ed) as Sd.
  rewrite Ru, Bu, Xi in Su. rewrite Rd, Bd, Xt in Sd. cbn [built r_mode r_ratio out_size] in Su, Sd.
  assert (Sm : size (map (f : F32 -> F32) (o_out ou)) = size (o_out ou)) by (unfold size; now rewrite map_length). rewrite Sm, Su, Z.div_mul in Sd by lia. rewrite Yo in Sd.
  (* upsampling *)
  assert (Q1 := C07_accuracy plat _ _ _ _ M H1 Eu). cbn zeta in Q1. rewrite Ru, Bu, Xi in Q1. specialize (Q1 eq_refl HM Hx). unfold exact_fir in Q1. cbn [built r_filter r_mode r_prec r_ratio] in Q1.
  set (u := resample (A := RA) FILTER_FIR UP prec false oversample (vals x)) in *.
  assert (MF : forall k, 0 <= k < size (o_out ou) -> smp (map (f : F32 -> F32) (o_out ou)) k = f (smp (o_out ou) k)).
  { intros k Hk. unfold smp. destruct (Z.ltb_spec k 0); [lia|]. rewrite nth_indep with (d' := (f : F32 -> F32) f0) by (rewrite map_length; unfold size in Hk; lia). apply (map_nth (f : F32 -> F32)). }
  destruct (twin_of plat _ _ _ _ (vals x) H1 Eu ltac:(rewrite size_vals, Xi; reflexivity)) as (st1 & m1 & o1 & T1 & T2 & T3 & T4).
  assert (Su' : size u = size (o_out ou)).
  { pose proof (reach_R plat _ _ _ _ T1 T2) as R. cbn zeta in R. rewrite T3, T4, Ru, Bu in R. cbn [built r_filter r_mode r_prec r_ratio] in R. fold u in R. rewrite <- R.
    rewrite (reach_size plat _ _ _ _ T1 T2), T3, T4, Ru, Bu, size_vals. symmetry. exact Su. }
  assert (GU : forall k, 0 <= k < size u -> smp (map (g : RA -> RA) u) k = g (smp u k)).
  { intros k Hk. unfold smp. destruct (Z.ltb_spec k 0); [lia|]. rewrite nth_indep with (d' := (g : RA -> RA) f0) by (rewrite map_length; unfold size in Hk; lia). apply (map_nth (g : RA -> RA)). }
  set (d := (L * (IZR (fir_units UP oversample prec) * / 2 ^ 24 * M + / 2 ^ 140) + e)%R).
  assert (L0 : (0 <= L)%R).
  { pose proof (HL 1 0)%R as Q. pose proof (Rabs_pos (g 1%R - g 0%R)). rewrite Rminus_0_r, (Rabs_pos_eq 1), Rmult_1_r in Q by lra. lra. }
  assert (Hd : forall k, 0 <= k < size u -> (Rabs (B2R (smp (o_in od) k : b32) - smp (map (g : RA -> RA) u) k) <= d)%R).
  { intros k Hk. rewrite Xt, MF, GU by lia. destruct (Q1 k ltac:(lia)) as [F1 B1]. destruct (Hf _ F1) as [F2 B2].
    replace (B2R (f (smp (o_out ou) k)) - g (smp u k))%R with ((B2R (f (smp (o_out ou) k)) - g (B2R (smp (o_out ou) k : b32))) + (g (B2R (smp (o_out ou) k : b32)) - g (smp u k)))%R by ring.
    eapply Rle_trans; [apply Rabs_triang|]. pose proof (HL (B2R (smp (o_out ou) k : b32)) (smp u k)) as B3.
    assert (L * Rabs (B2R (smp (o_out ou) k : b32) - smp u k) <= L * (IZR (fir_units UP oversample prec) * / 2 ^ 24 * M + / 2 ^ 140))%R by (apply Rmult_le_compat_l; assumption).
    unfold d. lra. }
  (* downsampling *)
  assert (J : 0 <= j < size (o_out od)) by (rewrite Yo; exact Hj).
  assert (D0 : (0 <= d)%R).
  { pose proof (Hd 0 ltac:(rewrite Su', Su; nia)) as Q. pose proof (Rabs_pos (B2R (smp (o_in od) 0 : b32) - smp (map (g : RA -> RA) u) 0)). lra. }
  destruct (exact_twin plat _ _ _ _ (map (g : RA -> RA) u) d H1 Ed) as (st2 & m2 & o2 & V1 & V2 & V3 & V4 & V5 & V6).
  { rewrite Xt, Sm, <- Su'. unfold size. now rewrite map_length. }
  { exact D0. }
  { intros k Hk. apply Hd. unfold size in *. rewrite map_length in Hk. exact Hk. }
  cbn zeta in V6. specialize (V6 j J). rewrite Rd, Bd in V6. cbn [built r_filter r_mode r_prec r_ratio filter_bound] in V6.
  pose proof (reach_R plat _ _ _ _ V1 V2) as R2. cbn zeta in R2. rewrite V3, V4, Rd, Bd in R2. cbn [built r_filter r_mode r_prec r_ratio] in R2. fold u ideal in R2. rewrite R2 in V6.
  assert (Q2 := C07_accuracy plat _ _ _ _ (G + e)%R H1 Ed). cbn zeta in Q2. rewrite Rd, Bd in Q2.
  destruct (Q2 eq_refl HGe) with (j := j) as [F3 B3]; [|exact J|].
  { rewrite Xt. intros k Hk. rewrite Sm in Hk. rewrite MF by lia. destruct (Q1 k ltac:(lia)) as [F1 B1]. destruct (Hf _ F1) as [F2 B2]. split; [exact F2|].
    exact (near_bound _ _ _ _ B2 (HG _)). }
  unfold exact_fir in B3. cbn [built r_filter r_mode r_prec r_ratio] in B3. rewrite Yo in F3, B3. split; [exact F3|]. fold d.
  exact (near_near _ _ _ _ _ B3 V6).
Qed.

(** bounded output, whatever went in before the function *)
Theorem C62_bounded plat oversample prec (f : b32 -> b32) (G : R) idu idd s x y (m : mem F32) :
  ratio_no oversample -> (2 <= oversample -> fir_prec prec) -> idu <> idd ->
  sat_run plat oversample prec (A := F32) f idu idd s x y m ->
  (forall v, is_finite (f v) = true /\ Rabs (B2R (f v)) <= G)%R -> (G <= 2 ^ 109)%R ->
  forall j, 0 <= j < size y -> is_finite (smp y j : b32) = true /\
  (Rabs (B2R (smp y j : b32)) <= fir_bound DOWN oversample * G + (IZR (fir_units DOWN oversample prec) * / 2 ^ 24 * G + / 2 ^ 140))%R.
Proof.
  intros Vr VT Ne H Hf HG j Hj.
  destruct (sat_run_inv plat oversample prec _ idu idd Vr VT Ne s x y m H) as (st & H1 & Bu & Bd & _ & ou & od & Eu & Ed & Ru & Rd & Xi & Xt & Yo).
  assert (Bx : forall k, 0 <= k < size (o_in od) -> is_finite (smp (o_in od) k : b32) = true /\ (Rabs (B2R (smp (o_in od) k : b32)) <= G)%R).
  { rewrite Xt. intros k Hk. unfold smp. destruct (Z.ltb_spec k 0); [lia|]. rewrite nth_indep with (d' := (f : F32 -> F32) f0) by (unfold size in Hk; lia). rewrite (map_nth (f : F32 -> F32)). apply Hf. }
  assert (J : 0 <= j < size (o_out od)) by (rewrite Yo; exact Hj).
  assert (Q := C07_accuracy plat _ _ _ _ G H1 Ed). cbn zeta in Q. rewrite Rd, Bd in Q. specialize (Q eq_refl HG Bx j J). unfold exact_fir in Q. cbn [built r_filter r_mode r_prec r_ratio] in Q.
  destruct (twin_of plat _ _ _ _ (vals (o_in od)) H1 Ed (size_vals _)) as (st1 & m1 & o1 & T1 & T2 & T3 & T4).
  pose proof (reach_R plat _ _ _ _ T1 T2) as R. cbn zeta in R. rewrite T3, T4, Rd, Bd in R. cbn [built r_filter r_mode r_prec r_ratio] in R. rewrite <- R in Q.
  assert (G0 : (0 <= G)%R) by (eapply Rle_trans; [apply Rabs_pos | apply (Hf (B754_zero false))]).
  pose proof (C27_bounded plat _ _ _ _ G T1 T2) as B. cbn zeta in B. rewrite T3, T4, Rd, Bd in B. cbn [built r_filter r_mode r_prec r_ratio] in B.
  specialize (B eq_refl G0). assert (B' := B ltac:(intros k Hk; rewrite smp_vals; apply Bx; rewrite size_vals in Hk; exact Hk) j). clear B.
  rewrite Yo in Q. destruct Q as [F Q]. split; [exact F|]. unfold fir_bound.
  exact (near_bound _ _ _ _ Q B').
Qed.

(** silence *)
Theorem C62_silence plat oversample prec (f : b32 -> b32) idu idd s x y (m : mem F32) :
  ratio_no oversample -> (2 <= oversample -> fir_prec prec) -> idu <> idd ->
  sat_run plat oversample prec (A := F32) f idu idd s x y m -> (forall z, exists z', f (B754_zero z) = B754_zero z') ->
  List.Forall (fun v : b32 => exists s, v = B754_zero s) x -> List.Forall (fun v : b32 => exists s, v = B754_zero s) y.
Proof.
  intros Vr VT Ne H Hf Hx.
  destruct (sat_run_inv plat oversample prec _ idu idd Vr VT Ne s x y m H) as (st & H1 & Bu & Bd & _ & ou & od & Eu & Ed & Ru & Rd & Xi & Xt & Yo).
  rewrite <- Yo. apply (C40_silence plat _ _ _ _ H1 Ed). rewrite Xt. rewrite <- Xi in Hx.
  pose proof (C40_silence plat _ _ _ _ H1 Eu Hx) as Hu. rewrite Forall_forall in Hu |- *. intros v Hv. apply in_map_iff in Hv. destruct Hv as (w & <- & Hw).
  destruct (Hu w Hw) as [z ->]. apply Hf.
Qed.

(** the documented class: tanh (3 v).  The result is within 2.5 10^-4 of the exact one for inputs up to 1, if tanhf is accurate to 2^-22 *)
Lemma cosh_pos x : (0 < cosh x)%R.
Proof. unfold cosh. pose proof (exp_pos x). pose proof (exp_pos (- x)). lra. Qed.
Lemma tanh_le1 x : (Rabs (tanh x) <= 1)%R.
Proof.
  unfold tanh. pose proof (cosh_pos x). unfold Rdiv. rewrite Rabs_mult, (Rabs_pos_eq (/ cosh x)) by (apply Rlt_le, Rinv_0_lt_compat; assumption).
  apply Rmult_le_reg_r with (cosh x); [assumption|]. rewrite Rmult_assoc, Rinv_l, Rmult_1_r, Rmult_1_l by lra.
  unfold sinh, cosh. pose proof (exp_pos x). pose proof (exp_pos (- x)). apply Rabs_le. lra.
Qed.
Lemma tanh_deriv x : derivable_pt_lim tanh x (/ (cosh x * cosh x))%R.
Proof.
  pose proof (cosh_pos x). pose proof (derivable_pt_lim_div sinh cosh x _ _ (derivable_pt_lim_sinh x) (derivable_pt_lim_cosh x) ltac:(lra)) as D.
  replace (/ (cosh x * cosh x))%R with ((cosh x * cosh x - sinh x * sinh x) / (cosh x)²)%R; [exact D|].
  replace (cosh x * cosh x - sinh x * sinh x)%R with 1%R; [unfold Rsqr, Rdiv; now rewrite Rmult_1_l|].
  unfold sinh, cosh. assert (E : (exp x * exp (- x) = 1)%R) by (rewrite <- exp_plus, Rplus_opp_r; apply exp_0).
  replace ((exp x + exp (- x)) / 2 * ((exp x + exp (- x)) / 2) - (exp x - exp (- x)) / 2 * ((exp x - exp (- x)) / 2))%R with (exp x * exp (- x))%R by field. now rewrite E.
Qed.
Lemma cosh_ge1 x : (1 <= cosh x)%R.
Proof.
  unfold cosh. assert (E : (exp x * exp (- x) = 1)%R) by (rewrite <- exp_plus, Rplus_opp_r; apply exp_0).
  pose proof (exp_pos x). pose proof (exp_pos (- x)). pose proof (Rle_0_sqr (exp x - exp (- x))) as S. unfold Rsqr in S.
  assert (4 <= (exp x + exp (- x)) * (exp x + exp (- x)))%R by (replace ((exp x + exp (- x)) * (exp x + exp (- x)))%R with ((exp x - exp (- x)) * (exp x - exp (- x)) + 4 * (exp x * exp (- x)))%R by ring; rewrite E; lra).
  destruct (Rle_lt_dec 2 (exp x + exp (- x))) as [|Lt]; [lra|].
  assert ((exp x + exp (- x)) * (exp x + exp (- x)) < 2 * 2)%R by (apply Rmult_le_0_lt_compat; lra). lra.
Qed.
Lemma tanh_lipschitz a b : (Rabs (tanh a - tanh b) <= Rabs (a - b))%R.
Proof.
  assert (Q : forall a b, (a < b -> 0 <= tanh b - tanh a <= b - a)%R).
  { clear. intros a b Hab. destruct (MVT_cor2 tanh (fun x => / (cosh x * cosh x))%R a b Hab) as (c & E & _).
    - intros c _. apply tanh_deriv.
    - rewrite E. pose proof (cosh_ge1 c).
      assert (1 * 1 <= cosh c * cosh c)%R by (apply Rmult_le_compat; lra).
      assert (0 < / (cosh c * cosh c))%R by (apply Rinv_0_lt_compat; lra).
      assert (/ (cosh c * cosh c) <= 1)%R by (rewrite <- Rinv_1; apply Rinv_le_contravar; lra).
      split; [apply Rmult_le_pos; lra|]. rewrite <- (Rmult_1_l (b - a)) at 2. apply Rmult_le_compat_r; lra. }
  destruct (Rtotal_order a b) as [L|[->|L]].
  - pose proof (Q a b L). rewrite (Rabs_left1 (tanh a - tanh b)), (Rabs_left1 (a - b)) by lra. lra.
  - rewrite !Rminus_eq_0. lra.
  - pose proof (Q b a L). rewrite !Rabs_pos_eq by lra. lra.
Qed.

Definition DRIVE : R := 3.
Theorem C62_documented_class plat (f : b32 -> b32) idu idd s x y (m : mem F32) :
  idu <> idd -> sat_run plat OVERSAMPLE PREC (A := F32) f idu idd s x y m ->
  float_fun f (fun v => tanh (v * DRIVE)) (/ 2 ^ 22) ->
  (forall k, 0 <= k < size x -> is_finite (smp x k : b32) = true /\ (Rabs (B2R (smp x k : b32)) <= 1)%R) ->
  let ideal := resample (A := RA) FILTER_FIR DOWN PREC false OVERSAMPLE
                 (map (fun v => tanh (v * DRIVE)) (resample (A := RA) FILTER_FIR UP PREC false OVERSAMPLE (vals x))) in
  forall j, 0 <= j < size y -> is_finite (smp y j : b32) = true /\ (Rabs (B2R (smp y j : b32) - smp ideal j) <= 25 / 100000)%R.
Proof.
  intros Ne H Hf Hx ideal j Hj.
  assert (Vr : ratio_no OVERSAMPLE) by (unfold ratio_no, OVERSAMPLE; auto).
  assert (VT : 2 <= OVERSAMPLE -> fir_prec PREC) by (intros _; unfold fir_prec, PREC, PREC_72DB; auto).
  assert (P : forall n, (1 <= 2 ^ n)%R) by (intros n; apply pow_R1_Rle; lra).
  assert (P9 : (2 <= 2 ^ 109)%R) by (rewrite (pow_IZR 2 109); apply IZR_le; lia).
  destruct (C62_accuracy plat OVERSAMPLE PREC f (fun v => tanh (v * DRIVE)) (/ 2 ^ 22) 3 1 1 idu idd s x y m Vr VT Ne H Hf) with (j := j) as [F B]; [| | | |exact Hx|exact Hj|].
  - intros a b. eapply Rle_trans; [apply tanh_lipschitz|]. unfold DRIVE. replace (a * 3 - b * 3)%R with (3 * (a - b))%R by ring. rewrite Rabs_mult, (Rabs_pos_eq 3) by lra. lra.
  - intros a. apply tanh_le1.
  - assert (/ 2 ^ 22 <= 1)%R by (rewrite <- Rinv_1; apply Rinv_le_contravar; [lra | apply P]). lra.
  - pose proof (P 109%nat). lra.
  - split; [exact F|]. eapply Rle_trans; [exact B|]. unfold fir_bound, OVERSAMPLE. change (fir_units UP 8 PREC) with 403. change (fir_units DOWN 8 PREC) with 179. cbn [Z.eqb Pos.eqb].
    assert (/ 2 ^ 140 <= / 2 ^ 24)%R by (apply Rinv_le_contravar; [apply pow_lt; lra | apply Rle_pow; [lra | lia]]).
    set (q := (/ 2 ^ 140)%R) in *. clearbody q.
    replace (/ 2 ^ 24)%R with (/ 16777216)%R in * by (rewrite (pow_IZR 2 24); reflexivity).
    replace (/ 2 ^ 22)%R with (/ 4194304)%R in * by (rewrite (pow_IZR 2 22); reflexivity). lra.
Qed.

(** non-vacuity: two blocks, in = out, a correctly rounded function; samples 1/8 * (-1)^k *)
Lemma sat_feed {A : arith} plat oversample prec f idu idd s x y (m : mem A) b :
  ratio_no oversample -> (2 <= oversample -> fir_prec prec) -> idu <> idd -> 0 < len b -> len b * oversample < 2 ^ 31 - 4 ->
  sat_run plat oversample prec f idu idd s x y m -> exists z m', sat_run plat oversample prec f idu idd s (x ++ b) (y ++ z) m'.
Proof.
  intros Vr VT Ne L1 L2 H. assert (R1 : 1 <= oversample) by (unfold ratio_no in Vr; lia).
  set (m1 := fun b' i => match b' with User 0 => if (0 <=? i) && (i <? len b) then Some (nthZ b i) else None | _ => m b' i end).
  assert (H1 : sat_run plat oversample prec f idu idd s x y m1).
  { apply (sr_client plat oversample prec f idu idd s x y m m1 H). intros b' i Hu _. unfold m1. destruct b'; try reflexivity. exfalso. apply Hu. now exists k. }
  destruct (C62_process plat oversample prec f idu idd s x y m1 (addr_ex 0 (len b)) false (fun _ _ _ => f0) (fun _ _ _ => f0) (fun _ => f0) 1 (Ptr (User 0) 0) b (Ptr (User 0) 0) Vr VT Ne H1) as (m' & z & _ & _ & _ & _ & R).
  { constructor; try assumption.
    - apply addr_ex_ok.
    - now exists 0.
    - now exists 0.
    - intros k Hk. cbn [pb po m1]. replace (_ && _) with true by lia. reflexivity.
    - intros k Hk. cbn [pb po m1]. replace (_ && _) with true by lia. discriminate.
    - split; discriminate.
    - unfold asep, paddr. cbn [pb po addr_ex]. lia.
    - intros t [->| ->]; unfold asep, paddr; cbn [pb po addr_ex]; lia. }
  now exists z, m'.
Qed.
Definition tanh3 (v : b32) : b32 := b32_round (tanh (B2R v * DRIVE)).
Example C62_case plat : exists s y (m : mem F32) j, sat_run plat OVERSAMPLE PREC (A := F32) tanh3 1 2 s (alternating 50 ++ alternating 23) y m /\
  float_fun tanh3 (fun v => tanh (v * DRIVE)) (/ 2 ^ 22) /\ (forall v, is_finite (tanh3 v) = true /\ Rabs (B2R (tanh3 v)) <= 1 + / 2 ^ 22)%R /\
  (forall k, 0 <= k < size (alternating 50 ++ alternating 23) -> is_finite (smp (alternating 50 ++ alternating 23) k : b32) = true /\ (Rabs (B2R (smp (alternating 50 ++ alternating 23) k : b32)) <= 1)%R) /\
  0 <= j < size y.
Proof.
  assert (Vr : ratio_no OVERSAMPLE) by (unfold ratio_no, OVERSAMPLE; auto).
  assert (VT : 2 <= OVERSAMPLE -> fir_prec PREC) by (intros _; unfold fir_prec, PREC, PREC_72DB; auto).
  destruct (C62_construct (A := F32) plat OVERSAMPLE PREC 1 2 (fun _ _ => None) Vr VT ltac:(lia)) as (s & m0 & E0 & _).
  pose proof (sr_new plat OVERSAMPLE PREC (A := F32) tanh3 1 2 _ s m0 E0) as H0.
  assert (La : forall n, 0 <= n -> len (A := F32) (alternating n) = n) by (intros n Hn; unfold len, alternating, tab; rewrite map_length, seq_length; lia).
  destruct (sat_feed (A := F32) plat OVERSAMPLE PREC tanh3 1 2 s [] [] m0 (alternating 50) Vr VT ltac:(lia)) as (z1 & m1 & H1); [rewrite La by lia; lia | rewrite La by lia; reflexivity | exact H0 |].
  destruct (sat_feed (A := F32) plat OVERSAMPLE PREC tanh3 1 2 s ([] ++ alternating 50) ([] ++ z1) m1 (alternating 23) Vr VT ltac:(lia)) as (z2 & m2 & H2); [rewrite La by lia; lia | rewrite La by lia; reflexivity | exact H1 |].
  assert (TF : float_fun tanh3 (fun v => tanh (v * DRIVE)) (/ 2 ^ 22)).
  { intros v _. unfold tanh3. set (t := tanh (B2R v * DRIVE)). assert (T1 : (Rabs t <= 1)%R) by apply tanh_le1.
    destruct (b32_round_ok t) as [F E]; [eapply Rle_trans; [exact T1 | apply pow_R1_Rle; lra]|]. split; [exact F|]. rewrite E.
    destruct (error_N_FLT radix2 (-149) 24 ltac:(lia) (fun t => negb (Z.even t)) t) as (eps & eta & He & Ht & _ & Ev).
    rewrite Ev. replace (t * (1 + eps) + eta - t)%R with (t * eps + eta)%R by ring.
    eapply Rle_trans; [apply Rabs_triang|]. rewrite Rabs_mult.
    assert (He' : (Rabs eps <= / 16777216)%R) by (eapply Rle_trans; [exact He|]; right; cbn; lra).
    assert (Ht' : (Rabs eta <= / 16777216)%R).
    { eapply Rle_trans; [exact Ht|]. replace (/ 16777216)%R with (/ 2 * bpow radix2 (-23))%R by (cbn; lra). apply Rmult_le_compat_l; [lra|]. apply bpow_le. lia. }
    assert (Rabs t * Rabs eps <= 1 * / 16777216)%R by (apply Rmult_le_compat; try apply Rabs_pos; assumption).
    replace (/ 2 ^ 22)%R with (/ 4194304)%R by (rewrite (pow_IZR 2 22); reflexivity). lra. }
  exists s, (([] ++ z1) ++ z2), m2, 0. split; [exact H2|]. split; [exact TF|]. split; [|split].
  - intros v. assert (Q : is_finite (tanh3 v) = true /\ (Rabs (B2R (tanh3 v) - tanh (B2R v * DRIVE)) <= / 2 ^ 22)%R).
    { destruct (is_finite v) eqn:Fv; [exact (TF v Fv)|]. replace (tanh3 v) with (tanh3 (B754_zero false)); [replace (B2R v) with (B2R (B754_zero false : b32)); [apply TF; reflexivity|]|].
      - destruct v; try discriminate; reflexivity.
      - unfold tanh3. destruct v; try discriminate; reflexivity. }
    destruct Q as [F B]. split; [exact F|]. exact (near_bound _ _ _ _ B (tanh_le1 _)).
  - intros k Hk. pose proof (La 50 ltac:(lia)) as L5. pose proof (La 23 ltac:(lia)) as L2.
    unfold smp. destruct (Z.ltb_spec k 0); [lia|]. unfold len in *.
    destruct (Z_lt_le_dec k 50).
    + rewrite app_nth1 by lia. pose proof (alternating_below 50 k ltac:(unfold size; lia)) as Q. unfold smp in Q. destruct (Z.ltb_spec k 0); [lia|]. exact Q.
    + rewrite app_nth2 by lia. unfold size in Hk. rewrite app_length in Hk. pose proof (alternating_below 23 (k - 50) ltac:(unfold size; lia)) as Q. unfold smp in Q. destruct (Z.ltb_spec (k - 50) 0); [lia|].
      replace (Z.to_nat k - length (alternating 50))%nat with (Z.to_nat (k - 50)) by lia. exact Q.
  - destruct (sat_run_inv plat OVERSAMPLE PREC _ 1 2 Vr VT ltac:(lia) _ _ _ _ H2) as (st & R & Bu & Bd & _ & ou & od & Eu & Ed & Ru & Rd & Xi & Xt & Yo).
    rewrite <- Yo, (reach_size plat _ _ _ _ R Ed), Rd, Bd, Xt. cbn [built r_mode r_ratio out_size].
    replace (size (map (tanh3 : F32 -> F32) (o_out ou))) with (size (o_out ou)) by (unfold size; now rewrite map_length).
    rewrite (reach_size plat _ _ _ _ R Eu), Ru, Bu, Xi. cbn [built r_mode r_ratio out_size]. rewrite Z.div_mul by (unfold OVERSAMPLE; lia).
    pose proof (La 50 ltac:(lia)). unfold size, len in *. rewrite !app_length. lia.
Qed.

Print Assumptions C62_construct.
Print Assumptions C62_process.
Print Assumptions C62_reset.
Print Assumptions C62_output.
Print Assumptions C62_bit_exact.
Print Assumptions C62_accuracy.
Print Assumptions C62_bounded.
Print Assumptions C62_silence.
Print Assumptions C62_documented_class.
