(** * Single precision FIR resamplers against exact arithmetic *)
From Coq Require Import ZArith Reals List Lia Lra Bool ZifyNat ZifyBool.
From Flocq Require Import Core BinarySingleNaN.
From Verif Require Import Arith ArithR ArithF Tables ResamplerModel ResamplerProof ResamplerOk Spec SpecOk SpecR Client Feed
  TablesF TableFacts FirReal FloatComm FloatSum FloatFir.
Import ListNotations.
Open Scope Z_scope.

(** the numbers a list of floats stands for *)
Definition vals (x : list F32) : list RA := map (fun v : b32 => B2R v : RA) x.

Lemma size_vals x : size (vals x) = size x.
Proof. unfold size, vals. now rewrite map_length. Qed.
Lemma smp_vals x i : smp (vals x) i = val (smp x i).
Proof.
  unfold smp. destruct (i <? 0); [reflexivity|]. unfold vals.
  change (@f0 RA) with ((fun v : b32 => B2R v : RA) (@f0 F32)). apply map_nth.
Qed.
Lemma vals_taps md s p : stage_no s -> fir_prec p -> vals (coeffs (A := F32) FILTER_FIR md p s) = coeffs (A := RA) FILTER_FIR md p s.
Proof.
  intros Hs Hp. rewrite fir_coeffs_R by assumption. pose proof (fir_coeffs_F md s p Hs Hp) as F.
  induction F as [|c n l k [_ H] F IH]; cbn; [reflexivity|]. now rewrite H, <- IH.
Qed.

(** sum of the absolute values of the products that make up output j *)
Definition weight (md : rmode) (t x : list RA) (j : Z) : R :=
  let N := size t in
  match md with
  | UP => if Z.even j then sumR (length t) (fun i => (Rabs (smp x (j / 2 - N + 1 + i)) * Rabs (smp t i))%R) else 0%R
  | DOWN => (sumR (length t) (fun i => (Rabs (smp x (2 * (j - N + 1 + i))) * Rabs (smp t i))%R) + / 2 * Rabs (smp x (2 * (j - N / 2) + 1)))%R
  end.

Theorem stage_rounding md p vec s (x y : list F32) j : stage_no s -> fir_prec p ->
  stage_any (A := F32) FILTER_FIR md p vec s x y -> 0 <= j < size y -> fin (smp y j) ->
  let t := coeffs (A := RA) FILTER_FIR md p s in
  (Rabs (val (smp y j) - smp (stage (A := RA) FILTER_FIR md p false s (vals x)) j)
   <= IZR (size t + 6) * bpow radix2 (-24) * weight md t (vals x) j + IZR (size t + 1) * bpow radix2 (-149))%R.
Proof.
  intros Hs Hp H Hj F t. pose proof (vals_taps md s p Hs Hp) as VT. fold t in VT.
  pose proof (ft_facts md s p Hs Hp) as (_ & _ & N2 & N52 & _). fold t in N2, N52.
  set (tf := coeffs (A := F32) FILTER_FIR md p s) in *.
  assert (Sf : size tf = size t) by (rewrite <- VT; symmetry; apply size_vals).
  assert (Tv : forall i, smp t i = val (smp tf i)) by (intros; rewrite <- VT; apply smp_vals).
  assert (LN : length t = Z.to_nat (size t)) by (unfold size; lia).
  pose proof (bpow_gt_0 radix2 (-24)) as B24. pose proof (bpow_gt_0 radix2 (-149)) as B149.
  assert (N149 : (0 <= IZR (size t + 1) * bpow radix2 (-149))%R) by (apply Rmult_le_pos; [apply IZR_le; lia | lra]).
  unfold stage_any in H. unfold stage, weight. fold t. cbn zeta in *. fold tf in H. destruct md; destruct H as [L H].
  - unfold fir_up2. rewrite smp_tab by (rewrite size_vals; lia). unfold fir_up_at.
    pose proof (Z.div_mod j 2 ltac:(lia)). pose proof (Z.mod_pos_bound j 2 ltac:(lia)). pose proof (Zmod_even j) as ME.
    destruct (H (j / 2) ltac:(lia)) as [He Ho]. rewrite Sf in He, Ho. destruct (Z.even j).
    + replace (2 * (j / 2)) with j in He by lia.
      pose proof (ns_sum_of _ _ vec (size t) _ ltac:(lia) He F) as Q. apply near_sum_bound in Q; [|lia].
      rewrite mac_sum, LN.
      rewrite (sumR_ext _ _ (fun i => (val (smp x (j / 2 - size t + 1 + i)) * val (smp tf i))%R)) by (intros; rewrite smp_vals, Tv; reflexivity).
      rewrite (sumR_ext _ (fun i => Rabs _ * Rabs _)%R (fun i => (Rabs (val (smp x (j / 2 - size t + 1 + i))) * Rabs (val (smp tf i)))%R)) by (intros; rewrite smp_vals, Tv; reflexivity).
      eapply Rle_trans; [exact Q|]. set (a := sumR _ (fun i => Rabs _ * Rabs _)%R).
      assert (A0 : (0 <= a)%R).
      { unfold a. rewrite <- (sumR_0 (Z.to_nat (size t))). apply sumR_le. intros. apply Rmult_le_pos; apply Rabs_pos. }
      apply Rplus_le_compat.
      * apply Rmult_le_compat_r; [exact A0|]. apply Rmult_le_compat_r; [lra|]. apply IZR_le. lia.
      * apply Rmult_le_compat_r; [lra|]. apply IZR_le. lia.
    + replace (2 * (j / 2) + 1) with j in Ho by lia. rewrite Ho, smp_vals, Rminus_eq_0, Rabs_R0. lra.
  - unfold fir_down2. rewrite smp_tab by (rewrite size_vals; rewrite L, Z.mul_comm, Z.div_mul; lia). unfold fir_down_at.
    destruct (H j Hj) as (v & Hv & E). rewrite Sf in Hv, E. rewrite E in F |- *. change (fin (b32_plus v (b32_mult (@fhalf F32) (smp x (2 * (j - size t / 2) + 1))))) in F.
    change (@fadd F32) with b32_plus. change (@fmul F32) with b32_mult.
    destruct (plus_fin_inv _ _ F) as [F1 F2].
    pose proof (ns_sum_of _ _ vec (size t) _ ltac:(lia) Hv F1) as Q1. pose proof (ns_mult _ _ F2) as Q2.
    pose proof (ns_plus _ _ _ _ _ _ _ _ _ F Q1 (ns_more 1 (Z.to_nat (size t) + 4) _ _ _ _ Q2 ltac:(lia))) as Q.
    apply near_sum_bound in Q; [|lia]. rewrite half_val in Q.
    rewrite mac_sum, LN.
    rewrite (sumR_ext _ _ (fun i => (val (smp x (2 * (j - size t + 1 + i))) * val (smp tf i))%R)) by (intros; rewrite smp_vals, Tv; reflexivity).
    rewrite (sumR_ext _ (fun i => Rabs _ * Rabs _)%R (fun i => (Rabs (val (smp x (2 * (j - size t + 1 + i)))) * Rabs (val (smp tf i)))%R)) by (intros; rewrite smp_vals, Tv; reflexivity).
    rewrite smp_vals. rewrite (Rabs_pos_eq (1 / 2)) in Q by lra.
    change (@fadd RA) with Rplus. change (@fmul RA) with Rmult. change (@fhalf RA) with (/ 2)%R.
    replace (1 / 2)%R with (/ 2)%R in Q by lra.
    eapply Rle_trans; [exact Q|]. rewrite (plus_IZR (size t) 1). apply Rplus_le_compat; [|lra].
    replace (Z.of_nat (S (Z.to_nat (size t) + 4)) + 1) with (size t + 6) by lia. lra.
Qed.

(** ** Through the cascade *)

(** y holds the numbers Y up to an error e, and is at most M *)
Definition tracks (y : list F32) (Y : list RA) (e M : R) : Prop :=
  size y = size Y /\ forall j, (Rabs (val (smp y j) - smp Y j) <= e /\ Rabs (val (smp y j)) <= M)%R.

Definition stage_norm (md : rmode) (s : Z) : R := match md with UP => stage_gain s | DOWN => (stage_gain s / 2 + / 2)%R end.

Lemma weight_bound md s p (x : list RA) M j : stage_no s -> fir_prec p -> (0 <= M)%R -> bounded x M ->
  (0 <= weight md (coeffs (A := RA) FILTER_FIR md p s) x j <= stage_norm md s * M)%R.
Proof.
  intros Hs Hp HM H. set (t := coeffs (A := RA) FILTER_FIR md p s).
  pose proof (ft_abs md s p Hs Hp) as HK. fold t in HK.
  assert (K1 : (1 <= stage_gain s)%R) by (unfold stage_gain, gain100; destruct (s =? 2), (s =? 4); lra).
  assert (W : forall w : Z -> R, (forall i, (Rabs (w i) <= M)%R) ->
    (0 <= sumR (length t) (fun i => (Rabs (w i) * Rabs (smp t i))%R) <= half md * stage_gain s * M)%R).
  { intros w Hw. split.
    - rewrite <- (sumR_0 (length t)). apply sumR_le. intros. apply Rmult_le_pos; apply Rabs_pos.
    - eapply Rle_trans; [|apply Rmult_le_compat_r; [exact HM | exact HK]]. rewrite Rmult_comm, <- sumR_scal. apply sumR_le.
      intros i _. apply Rmult_le_compat_r; [apply Rabs_pos | apply Hw]. }
  unfold weight, stage_norm. destruct md; unfold half in *.
  - destruct (Z.even j); [|assert (1 * M <= stage_gain s * M)%R by (apply Rmult_le_compat_r; lra); lra].
    specialize (W (fun i => smp x (j / 2 - size t + 1 + i)) ltac:(intros; apply H)). lra.
  - specialize (W (fun i => smp x (2 * (j - size t + 1 + i))) ltac:(intros; apply H)).
    pose proof (H (2 * (j - size t / 2) + 1)). pose proof (Rabs_pos (smp x (2 * (j - size t / 2) + 1))). lra.
Qed.

Lemma stage_size md s p (x : list RA) : size (stage (A := RA) FILTER_FIR md p false s x) = match md with UP => 2 * size x | DOWN => size x / 2 end.
Proof.
  assert (0 <= size x) by (unfold size; lia). pose proof (Z.div_pos (size x) 2 ltac:(lia) ltac:(lia)).
  unfold stage, fir_up2, fir_down2. destruct md; rewrite size_tab; lia.
Qed.
Lemma stage_diff md s p (x x' : list RA) e j : stage_no s -> fir_prec p -> (0 <= e)%R -> size x = size x' ->
  (forall i, (Rabs (smp x i - smp x' i) <= e)%R) ->
  (Rabs (smp (stage (A := RA) FILTER_FIR md p false s x) j - smp (stage (A := RA) FILTER_FIR md p false s x') j) <= stage_norm md s * e)%R.
Proof.
  intros Hs Hp He Hx H. set (t := coeffs (A := RA) FILTER_FIR md p s).
  pose proof (ft_abs md s p Hs Hp) as HK. fold t in HK.
  assert (K1 : (1 <= stage_gain s)%R) by (unfold stage_gain, gain100; destruct (s =? 2), (s =? 4); lra).
  assert (1 * e <= stage_gain s * e)%R by (apply Rmult_le_compat_r; lra).
  pose proof (stage_size md s p x) as Sz. pose proof (stage_size md s p x') as Sz'. rewrite <- Hx in Sz'.
  assert (N0 : (0 <= stage_norm md s * e)%R) by (unfold stage_norm; destruct md; lra).
  destruct (Z_lt_le_dec j 0); [rewrite !smp_neg by lia; cbn; rewrite Rminus_eq_0, Rabs_R0; lra|].
  destruct (Z_lt_le_dec j (match md with UP => 2 * size x | DOWN => size x / 2 end));
    [|rewrite !smp_over by (rewrite ?Sz, ?Sz'; lia); cbn; rewrite Rminus_eq_0, Rabs_R0; lra].
  unfold stage. fold t. destruct md; unfold stage_norm, half in *.
  - unfold fir_up2. rewrite <- Hx, !smp_tab by lia. unfold fir_up_at. destruct (Z.even j).
    + rewrite !mac_sum, <- sumR_minus. rewrite (sumR_ext _ _ (fun i => ((smp x (j / 2 - size t + 1 + i) - smp x' (j / 2 - size t + 1 + i)) * smp t i)%R))
        by (intros; lra).
      eapply Rle_trans; [eapply window_bound; [exact HK | exact He | intros; apply H] | lra].
    + eapply Rle_trans; [apply H | lra].
  - unfold fir_down2. rewrite <- Hx, !smp_tab by lia. unfold fir_down_at.
    change (@fadd RA) with Rplus. change (@fmul RA) with Rmult. change (@fhalf RA) with (/ 2)%R.
    rewrite !mac_sum. set (w := smp x (2 * (j - size t / 2) + 1)). set (w' := smp x' (2 * (j - size t / 2) + 1)).
    replace (sumR (length t) (fun i => smp x (2 * (j - size t + 1 + i)) * smp t i) + / 2 * w -
      (sumR (length t) (fun i => smp x' (2 * (j - size t + 1 + i)) * smp t i) + / 2 * w'))%R
      with ((sumR (length t) (fun i => smp x (2 * (j - size t + 1 + i)) * smp t i) - sumR (length t) (fun i => smp x' (2 * (j - size t + 1 + i)) * smp t i)) + / 2 * (w - w'))%R by (change (T RA) with R in *; lra).
    rewrite <- sumR_minus. rewrite (sumR_ext _ _ (fun i => ((smp x (2 * (j - size t + 1 + i)) - smp x' (2 * (j - size t + 1 + i))) * smp t i)%R))
      by (intros; lra).
    eapply Rle_trans; [apply Rabs_triang|]. pose proof (H (2 * (j - size t / 2) + 1)) as Hw. fold w w' in Hw.
    rewrite (Rabs_mult (/ 2)), (Rabs_pos_eq (/ 2)) by lra.
    assert (Rabs (sumR (length t) (fun i => ((smp x (2 * (j - size t + 1 + i)) - smp x' (2 * (j - size t + 1 + i))) * smp t i)%R)) <= / 2 * stage_gain s * e)%R
      by (eapply window_bound; [exact HK | exact He | intros; apply H]). lra.
Qed.

Lemma stage_tracks md s p vec (x y : list F32) (X : list RA) e M : stage_no s -> fir_prec p -> (0 <= e)%R -> (0 <= M)%R ->
  tracks x X e M -> stage_any (A := F32) FILTER_FIR md p vec s x y -> (forall j, fin (smp y j)) ->
  let E := (IZR (size (coeffs (A := RA) FILTER_FIR md p s) + 6) * bpow radix2 (-24) * (stage_norm md s * M) + bpow radix2 (-143))%R in
  tracks y (stage (A := RA) FILTER_FIR md p false s X) (stage_norm md s * e + E) (stage_norm md s * M + E).
Proof.
  intros Hs Hp He HM [Sx Hx] H F E.
  assert (Bx : bounded (vals x) M) by (intros k; rewrite smp_vals; apply Hx).
  assert (K1 : (1 <= stage_gain s)%R) by (unfold stage_gain, gain100; destruct (s =? 2), (s =? 4); lra).
  assert (N1 : (1 <= stage_norm md s)%R) by (unfold stage_norm; destruct md; lra).
  assert (0 <= stage_norm md s * e)%R by (apply Rmult_le_pos; lra). assert (0 <= stage_norm md s * M)%R by (apply Rmult_le_pos; lra).
  pose proof (bpow_gt_0 radix2 (-143)). pose proof (bpow_gt_0 radix2 (-24)). pose proof (bpow_gt_0 radix2 (-149)).
  pose proof (ft_facts md s p Hs Hp) as (_ & _ & N2 & N52 & _). set (t := coeffs (A := RA) FILTER_FIR md p s) in *.
  assert (K0 : (0 <= IZR (size t + 6) * bpow radix2 (-24))%R) by (apply Rmult_le_pos; [apply IZR_le; lia | lra]).
  assert (E0 : (0 <= E)%R) by (unfold E; assert (0 <= IZR (size t + 6) * bpow radix2 (-24) * (stage_norm md s * M))%R by (apply Rmult_le_pos; lra); lra).
  assert (Sy : size y = match md with UP => 2 * size x | DOWN => size x / 2 end).
  { destruct md; destruct H as [L _]; [exact L|]. rewrite L, Z.mul_comm, Z.div_mul; lia. }
  assert (R : forall j, (Rabs (val (smp y j) - smp (stage (A := RA) FILTER_FIR md p false s (vals x)) j) <= E)%R).
  { intros j. pose proof (stage_size md s p (vals x)) as Sz. rewrite size_vals in Sz.
    destruct (Z_lt_le_dec j 0); [rewrite !smp_neg by lia; cbn; rewrite Rminus_eq_0, Rabs_R0; lra|].
    destruct (Z_lt_le_dec j (size y)); [|rewrite !smp_over by (rewrite ?Sz; lia); cbn; rewrite Rminus_eq_0, Rabs_R0; lra].
    eapply Rle_trans; [apply (stage_rounding md p vec s x y j Hs Hp H ltac:(lia) (F j))|]. fold t. unfold E.
    pose proof (weight_bound md s p (vals x) M j Hs Hp HM Bx) as W. fold t in W.
    apply Rplus_le_compat.
    - apply Rmult_le_compat_l; [exact K0 | apply W].
    - change (-143) with (6 + -149). rewrite bpow_plus. apply Rmult_le_compat_r; [lra|]. change (bpow radix2 6) with (IZR 64). apply IZR_le. lia. }
  split.
  - rewrite stage_size, <- Sx. exact Sy.
  - intros j. specialize (R j). split.
    + pose proof (stage_diff md s p (vals x) X e j Hs Hp He ltac:(rewrite size_vals; exact Sx) ltac:(intros; rewrite smp_vals; apply Hx)) as D.
      replace (val (smp y j) - smp (stage (A := RA) FILTER_FIR md p false s X) j)%R with
        ((smp (stage (A := RA) FILTER_FIR md p false s (vals x)) j - smp (stage (A := RA) FILTER_FIR md p false s X) j) +
         (val (smp y j) - smp (stage (A := RA) FILTER_FIR md p false s (vals x)) j))%R by (change (T RA) with R; lra).
      eapply Rle_trans; [apply Rabs_triang|]. lra.
    + assert (B : bounded (stage (A := RA) FILTER_FIR md p false s (vals x)) (stage_norm md s * M)).
      { destruct md; [now apply up_bounded | now apply down_bounded]. }
      specialize (B j). replace (val (smp y j)) with
        (smp (stage (A := RA) FILTER_FIR md p false s (vals x)) j + (val (smp y j) - smp (stage (A := RA) FILTER_FIR md p false s (vals x)) j))%R by (change (T RA) with R; lra).
      eapply Rle_trans; [apply Rabs_triang|]. lra.
Qed.

(** rounding error in units of 2^-24 times the largest input, per precision *)
Definition pick (p u1 u8 u12 u16 u20 u24 : Z) : Z :=
  if p =? 1 then u1 else if p =? 8 then u8 else if p =? 12 then u12 else if p =? 16 then u16 else if p =? 20 then u20 else u24.
Definition fir_units (md : rmode) (ratio p : Z) : Z :=
  if ratio =? 1 then 0 else
  match md with
  | UP => if ratio =? 2 then pick p 21 56 76 96 121 146 else if ratio =? 4 then pick p 72 152 197 242 304 358 else pick p 173 317 403 490 605 705
  | DOWN => if ratio =? 2 then pick p 15 39 53 67 85 102 else if ratio =? 4 then pick p 40 83 108 132 166 196 else pick p 77 141 179 217 268 312
  end.
Lemma ft_len md s p : stage_no s -> fir_prec p ->
  size (coeffs (A := RA) FILTER_FIR md p s) = if s =? 2 then pick p 2 16 24 32 42 52 else if s =? 4 then pick p 2 6 8 10 14 16 else pick p 2 4 6 8 10 12.
Proof. intros Hs Hp. rewrite ft_size by assumption. destruct Hs as [->|[->| ->]], Hp as [->|[->|[->|[->|[->| ->]]]]]; reflexivity. Qed.

Theorem resample_tracks md p vec ratio (x y : list F32) M : valid FILTER_FIR ratio p -> (M <= bpow radix2 109)%R ->
  (forall i, fin (smp x i) /\ (Rabs (val (smp x i)) <= M)%R) -> resample_any (A := F32) FILTER_FIR md p vec ratio x y ->
  forall j, fin (smp y j) /\
    (Rabs (val (smp y j) - smp (resample (A := RA) FILTER_FIR md p false ratio (vals x)) j) <= IZR (fir_units md ratio p) * bpow radix2 (-24) * M + bpow radix2 (-140))%R.
Proof.
  intros [Hr HT] HM Hx H.
  assert (S2 : stage_no 2) by (unfold stage_no; auto). assert (S4 : stage_no 4) by (unfold stage_no; auto).
  assert (S8 : stage_no 8) by (unfold stage_no; auto).
  assert (M0 : (0 <= M)%R) by (destruct (Hx 0) as [_ B]; eapply Rle_trans; [apply Rabs_pos | exact B]).
  assert (Hx' : forall i, atmost 1 109 (smp x i)).
  { intros i. destruct (Hx i) as [F B]. split; [exact F | lra]. }
  assert (T0 : tracks x (vals x) 0 M).
  { split; [now rewrite size_vals|]. intros j. rewrite smp_vals, Rminus_eq_0, Rabs_R0. split; [lra | apply Hx]. }
  set (u := bpow radix2 (-24)). set (n := bpow radix2 (-143)).
  assert (U : (0 < u /\ u <= / 10000000)%R).
  { unfold u. split; [apply bpow_gt_0|]. cbn. apply Rinv_le_contravar; lra. }
  assert (N : (0 < n)%R) by apply bpow_gt_0. assert (N8 : bpow radix2 (-140) = (8 * n)%R).
  { unfold n. change (-140) with (3 + -143). rewrite bpow_plus. reflexivity. }
  rewrite N8. destruct U as [U0 U1].
  assert (UN : (0 <= u * n <= / 10000000 * n)%R) by (split; [apply Rmult_le_pos; lra | apply Rmult_le_compat_r; lra]).
  assert (UM : (0 <= u * M)%R) by (apply Rmult_le_pos; lra).
  assert (UUM : (0 <= u * (u * M) <= / 10000000 * (u * M))%R) by (split; [apply Rmult_le_pos; lra | apply Rmult_le_compat_r; lra]).
  assert (UUUM : (0 <= u * (u * (u * M)) <= / 10000000 * (/ 10000000 * (u * M)))%R).
  { split; [apply Rmult_le_pos; lra |]. apply Rmult_le_compat; lra. }
  assert (UUN : (0 <= u * (u * n) <= / 10000000 * (/ 10000000 * n))%R).
  { split; [apply Rmult_le_pos; lra |]. apply Rmult_le_compat; lra. }
  destruct Hr as [->|Hr].
  - unfold resample_any in H. cbn [Z.eqb Pos.eqb] in H. assert (y = x) as -> by (destruct md; exact H). intros j. split; [apply Hx|].
    replace (resample (A := RA) FILTER_FIR md p false 1 (vals x)) with (vals x) by (destruct md; reflexivity).
    rewrite smp_vals, Rminus_eq_0, Rabs_R0. change (fir_units md 1 p) with 0. lra.
  - assert (HP : fir_prec p) by (apply HT; lia). clear HT.
    pose proof (fun md s e x y Hs He => stage_no_overflow md p vec s e x y Hs HP He) as SO.
    pose proof (fun s x y X e M Hs He HM Ht Hy Hf => stage_tracks md s p vec x y X e M Hs HP He HM Ht Hy Hf) as ST. cbn zeta in ST. fold u n in ST.
    assert (ST' : forall s x y X e M, stage_no s -> (0 <= e)%R -> (0 <= M)%R -> tracks x X e M -> stage_any (A := F32) FILTER_FIR md p vec s x y -> (forall j, fin (smp y j)) ->
      let E := (IZR (if s =? 2 then pick p 8 22 30 38 48 58 else if s =? 4 then pick p 8 12 14 16 20 22 else pick p 8 10 12 14 16 18) * u * (stage_norm md s * M) + n)%R in
      tracks y (stage (A := RA) FILTER_FIR md p false s X) (stage_norm md s * e + E) (stage_norm md s * M + E)).
    { intros s x0 y0 X e M1 Hs. replace (if s =? 2 then pick p 8 22 30 38 48 58 else if s =? 4 then pick p 8 12 14 16 20 22 else pick p 8 10 12 14 16 18)
        with (size (coeffs (A := RA) FILTER_FIR md p s) + 6); [now apply ST|]. rewrite (ft_len md s p Hs HP).
      unfold pick. destruct Hs as [->|[->| ->]], HP as [->|[->|[->|[->|[->| ->]]]]]; reflexivity. }
    clear ST. rename ST' into ST. cbn zeta in ST.
    assert (G2 : stage_norm md 2 = match md with UP => 251 / 100 | DOWN => 351 / 200 end%R) by (destruct md; cbn; unfold stage_gain, gain100; cbn; lra).
    assert (G4 : stage_norm md 4 = match md with UP => 178 / 100 | DOWN => 278 / 200 end%R) by (destruct md; cbn; unfold stage_gain, gain100; cbn; lra).
    assert (G8 : stage_norm md 8 = match md with UP => 161 / 100 | DOWN => 261 / 200 end%R) by (destruct md; cbn; unfold stage_gain, gain100; cbn; lra).
    assert (Fin : forall e (z : list F32), (forall j, atmost 1 e (smp z j)) -> forall j, fin (smp z j)) by (intros e z Hz j; apply Hz).
    clear N8.
    destruct md; cbn iota in G2, G4, G8;
    destruct HP as [->|[->|[->|[->|[->| ->]]]]];
    pose proof (ST 2) as T2; pose proof (ST 4) as T4; pose proof (ST 8) as T8; clear ST;
    unfold pick in T2, T4, T8; cbn [Z.eqb Pos.eqb] in T2, T4, T8; rewrite G2 in T2; rewrite G4 in T4; rewrite G8 in T8;
    destruct Hr as [->|[->| ->]]; unfold resample_any, resample, fir_units, pick in *; cbn [Z.eqb Pos.eqb] in *;
    lazymatch type of H with
    | ex (fun a => ex _) => destruct H as (a & b & H1 & H2 & H3);
      assert (B1 : forall j, atmost 1 115 (smp a j)) by (refine (SO _ _ 109 x a _ _ Hx' H1); [assumption | lia]);
      assert (B2 : forall j, atmost 1 121 (smp b j)) by (refine (SO _ _ 115 a b _ _ B1 H2); [assumption | lia]);
      assert (B3 : forall j, atmost 1 127 (smp y j)) by (refine (SO _ _ 121 b y _ _ B2 H3); [assumption | lia]);
      lazymatch type of H1 with stage_any _ _ _ _ 2 _ _ => pose proof (T2 x a _ 0%R M S2 (Rle_refl 0) M0 T0 H1 (Fin _ _ B1)) as Q1 | _ => pose proof (T8 x a _ 0%R M S8 (Rle_refl 0) M0 T0 H1 (Fin _ _ B1)) as Q1 end;
      refine (_ (T4 a b _ _ _ S4 _ _ Q1 H2 (Fin _ _ B2))); [intros Q2 | lra | lra];
      lazymatch type of H3 with stage_any _ _ _ _ 2 _ _ => refine (_ (T2 b y _ _ _ S2 _ _ Q2 H3 (Fin _ _ B3))); [intros [_ Q] | lra | lra] | _ => refine (_ (T8 b y _ _ _ S8 _ _ Q2 H3 (Fin _ _ B3))); [intros [_ Q] | lra | lra] end;
      intros j; (split; [apply B3|]); destruct (Q j) as [Q3 _]; lra
    | ex _ => destruct H as (a & H1 & H2);
      assert (B1 : forall j, atmost 1 115 (smp a j)) by (refine (SO _ _ 109 x a _ _ Hx' H1); [assumption | lia]);
      assert (B2 : forall j, atmost 1 121 (smp y j)) by (refine (SO _ _ 115 a y _ _ B1 H2); [assumption | lia]);
      lazymatch type of H1 with stage_any _ _ _ _ 2 _ _ => pose proof (T2 x a _ 0%R M S2 (Rle_refl 0) M0 T0 H1 (Fin _ _ B1)) as Q1 | _ => pose proof (T4 x a _ 0%R M S4 (Rle_refl 0) M0 T0 H1 (Fin _ _ B1)) as Q1 end;
      lazymatch type of H2 with stage_any _ _ _ _ 2 _ _ => refine (_ (T2 a y _ _ _ S2 _ _ Q1 H2 (Fin _ _ B2))); [intros [_ Q] | lra | lra] | _ => refine (_ (T4 a y _ _ _ S4 _ _ Q1 H2 (Fin _ _ B2))); [intros [_ Q] | lra | lra] end;
      intros j; (split; [apply B2|]); destruct (Q j) as [Q2 _]; lra
    | _ => assert (B1 : forall j, atmost 1 115 (smp y j)) by (refine (SO _ _ 109 x y _ _ Hx' H); [assumption | lia]);
      destruct (T2 x y _ 0%R M S2 ltac:(lra) M0 T0 H (Fin _ _ B1)) as [_ Q]; intros j; (split; [apply B1|]); destruct (Q j) as [Q1 _]; lra
    end.
Qed.
