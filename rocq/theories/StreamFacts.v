(** * Consequences of the refinement for whole streams *)
From Coq Require Import ZArith Reals List Lia Lra Bool ZifyNat ZifyBool.
From Verif Require Import Arith ArithR Mem FirModel IirModel Tables ResamplerModel Wp FirKernel Stage Cascade
  ResamplerProof ResamplerOk Spec SpecOk SpecR Client Feed Twin.
Import ListNotations.
Open Scope Z_scope.

Section Facts.
Context {A : arith} (plat : platform).
Implicit Types (m : mem A) (o : obj (A := A)).

Lemma reach_built st m id o : reach plat st m -> st id = Some o -> let r := o_res o in
  r = built plat id (r_mode r) (r_ratio r) (r_prec r) (r_use_sse r) (r_filter r) /\ valid (r_filter r) (r_ratio r) (r_prec r).
Proof. intros H E. destruct (reach_inv plat _ _ H _ _ E) as (H1 & H2 & H3 & _). split; [exact H1 | split; assumption]. Qed.

Lemma built_order id md ratio prec use_sse f : valid f ratio prec -> 2 <= ratio ->
  order (built plat id md ratio prec use_sse f) = Ok (size (coeffs (A := A) f md prec 2)).
Proof.
  intros [Hr HT] H2. rewrite coeffs_size. specialize (HT H2). unfold order, built, stage_impl. cbn [impl_x2].
  destruct (Z.ltb_spec ratio 2); [lia|]. destruct f.
  - destruct (iir_table_some 2 prec ltac:(unfold stage_no; auto) HT) as (t & gd & ->).
    destruct (has_sse plat && use_sse), md; reflexivity.
  - destruct (fir_table_some 2 prec ltac:(unfold stage_no; auto) HT) as (t & -> & _). destruct md; reflexivity.
Qed.

Lemma reach_order st m id o : reach plat st m -> st id = Some o -> let r := o_res o in 2 <= r_ratio r ->
  order r = Ok (size (coeffs (A := A) (r_filter r) (r_mode r) (r_prec r) 2)).
Proof.
  intros H E r H2. destruct (reach_built _ _ _ _ H E) as [B V]. fold r in B, V. rewrite B at 1. now apply built_order.
Qed.

(** sizes *)
Lemma reach_size st m id o : reach plat st m -> st id = Some o ->
  size (o_out o) = out_size (r_mode (o_res o)) (r_ratio (o_res o)) (size (o_in o)).
Proof.
  intros H E. eapply resample_any_size; [|eapply reach_resample_any; eassumption].
  apply (reach_built _ _ _ _ H E).
Qed.

Lemma trace_sizes r log out m : trace plat r log out m ->
  Forall (fun e => size_ok (r_filter r) (r_mode r) (r_ratio r) (len (e_block e))) log.
Proof.
  induction 1 as [m | log out m q b z m' _ IH K | ]; [constructor | | assumption].
  apply Forall_app. split; [exact IH|]. constructor; [|constructor]. apply K.
Qed.

Lemma size_ok_mod f ratio n : ratio_no ratio -> size_ok f DOWN ratio n -> n mod ratio = 0.
Proof. intros [->|[->|[->| ->]]]; cbn; [intros _; apply Z.mod_1_r | destruct f; tauto | destruct f; auto | destruct f; auto]. Qed.

Lemma reach_multiple st m id o : reach plat st m -> st id = Some o ->
  r_mode (o_res o) = DOWN -> size (o_in o) mod r_ratio (o_res o) = 0.
Proof.
  intros H E Hm. destruct (reach_built _ _ _ _ H E) as [_ [V _]].
  pose proof (trace_sizes _ _ _ _ (reach_trace plat _ _ H _ _ E)) as F. rewrite Hm in F.
  unfold o_in. induction F as [|e log Hs F IH]; cbn [map concat]; [apply Z.mod_0_l; destruct V as [?|[?|[?|?]]]; lia|].
  unfold size. rewrite app_length, Nat2Z.inj_add.
  rewrite Z.add_mod by (destruct V as [?|[?|[?|?]]]; lia).
  unfold size in IH. rewrite IH. apply size_ok_mod in Hs; [|exact V]. unfold len in Hs. rewrite Hs.
  apply Z.mod_0_l. destruct V as [?|[?|[?|?]]]; lia.
Qed.

(** pass-through *)
Lemma fir_up_pass prec vec s (x y : list A) k : fir_prec prec -> stage_no s ->
  stage_any FILTER_FIR UP prec vec s x y ->
  let N := size (coeffs (A := A) FILTER_FIR UP prec s) in
  0 <= k -> N - 1 + 2 * k < size y -> smp y (N - 1 + 2 * k) = smp x k.
Proof.
  intros Hp Hs [L H] N Hk Hy. destruct (fir_size_even (A := A) prec UP s Hp Hs) as [Ev N2]. fold N in Ev, N2.
  apply Z.even_spec in Ev. destruct Ev as [h Eh].
  destruct (H (h - 1 + k) ltac:(lia)) as [_ H2]. fold N in H2.
  replace (N - 1 + 2 * k) with (2 * (h - 1 + k) + 1) by lia. rewrite H2. f_equal.
  rewrite Eh, Z.mul_comm, Z.div_mul by lia. lia.
Qed.

Lemma resample_up_pass prec vec ratio (x y : list A) : valid FILTER_FIR ratio prec -> 2 <= ratio ->
  resample_any FILTER_FIR UP prec vec ratio x y ->
  let N s := size (coeffs (A := A) FILTER_FIR UP prec s) in
  let D := if ratio =? 2 then N 2 - 1 else if ratio =? 4 then 2 * (N 2 - 1) + (N 4 - 1)
           else 2 * (2 * (N 2 - 1) + (N 4 - 1)) + (N 8 - 1) in
  forall k, 0 <= k -> D + ratio * k < size y -> smp y (D + ratio * k) = smp x k.
Proof.
  intros [Hr HT] H2 R N D k Hk Hy. specialize (HT H2).
  assert (P : forall s (a b : list A) j, stage_no s -> stage_any FILTER_FIR UP prec vec s a b -> 0 <= j -> N s - 1 + 2 * j < size b ->
    size b = 2 * size a /\ smp b (N s - 1 + 2 * j) = smp a j).
  { intros s a b j Hs Q Hj Hb. split; [apply (stage_any_size _ _ _ _ _ _ _ Q)|]. eapply fir_up_pass; eassumption. }
  assert (S2 : stage_no 2) by (unfold stage_no; auto). assert (S4 : stage_no 4) by (unfold stage_no; auto).
  assert (S8 : stage_no 8) by (unfold stage_no; auto).
  assert (N2 : 2 <= N 2) by (apply fir_size_even; assumption).
  assert (N4 : 2 <= N 4) by (apply fir_size_even; assumption).
  assert (N8 : 2 <= N 8) by (apply fir_size_even; assumption).
  unfold resample_any in R. unfold D in *. clear D.
  destruct Hr as [->|[->|[->| ->]]]; [lia| | |]; cbn [Z.eqb Pos.eqb] in *.
  - now destruct (P 2 x y k S2 R Hk Hy) as [_ ->].
  - destruct R as (a & R1 & R2).
    replace (2 * (N 2 - 1) + (N 4 - 1) + 4 * k) with (N 4 - 1 + 2 * (N 2 - 1 + 2 * k)) in * by lia.
    destruct (P 4 a y (N 2 - 1 + 2 * k) S4 R2 ltac:(lia) Hy) as [L ->].
    now destruct (P 2 x a k S2 R1 ltac:(lia) ltac:(lia)) as [_ ->].
  - destruct R as (a & b & R1 & R2 & R3).
    replace (2 * (2 * (N 2 - 1) + (N 4 - 1)) + (N 8 - 1) + 8 * k)
      with (N 8 - 1 + 2 * (N 4 - 1 + 2 * (N 2 - 1 + 2 * k))) in * by lia.
    destruct (P 8 b y (N 4 - 1 + 2 * (N 2 - 1 + 2 * k)) S8 R3 ltac:(lia) Hy) as [L8 ->].
    destruct (P 4 a b (N 2 - 1 + 2 * k) S4 R2 ltac:(lia) ltac:(lia)) as [L4 ->].
    now destruct (P 2 x a k S2 R1 ltac:(lia) ltac:(lia)) as [_ ->].
Qed.

(** FIR forgetting: outputs only depend on the samples from P on, if the window starts there *)
Lemma fir_up2_local t (x x' : list A) P : size x = size x' -> (forall k, P <= k -> smp x k = smp x' k) -> 2 <= size t ->
  forall j, 2 * (P + size t - 1) <= j -> smp (fir_up2 t x) j = smp (fir_up2 t x') j.
Proof.
  intros L H Ht j Hj. unfold fir_up2. rewrite L. pose proof (Nat2Z.is_nonneg (length x')).
  destruct (Z_lt_le_dec j 0); [now rewrite !smp_neg by lia|].
  destruct (Z_lt_le_dec j (2 * size x')).
  - rewrite !smp_tab by lia. unfold fir_up_at. pose proof (Z.div_mod j 2 ltac:(lia)). pose proof (Z.mod_pos_bound j 2 ltac:(lia)).
    destruct (Z.even j).
    + apply mac_ext; intros i Hi; [|reflexivity]. apply H. unfold size in *. lia.
    + apply H. pose proof (Z.div_mod (size t) 2 ltac:(lia)). pose proof (Z.mod_pos_bound (size t) 2 ltac:(lia)). lia.
  - rewrite !smp_over by (rewrite size_tab by (unfold size in *; lia); lia). reflexivity.
Qed.

Lemma fir_down2_local t (x x' : list A) P : size x = size x' -> (forall k, 2 * P <= k -> smp x k = smp x' k) -> 2 <= size t ->
  forall n, P + size t - 1 <= n -> smp (fir_down2 t x) n = smp (fir_down2 t x') n.
Proof.
  intros L H Ht j Hj. unfold fir_down2. rewrite L. pose proof (Nat2Z.is_nonneg (length x')).
  destruct (Z_lt_le_dec j 0); [now rewrite !smp_neg by lia|].
  destruct (Z_lt_le_dec j (size x' / 2)).
  - rewrite !smp_tab by lia. unfold fir_down_at. f_equal.
    + apply mac_ext; intros i Hi; [|reflexivity]. apply H. unfold size in *. lia.
    + f_equal. apply H. pose proof (Z.div_mod (size t) 2 ltac:(lia)). pose proof (Z.mod_pos_bound (size t) 2 ltac:(lia)). lia.
  - assert (0 <= size x' / 2) by (apply Z.div_pos; unfold size; lia).
    rewrite !smp_over by (rewrite size_tab by lia; lia). reflexivity.
Qed.
End Facts.

Lemma reach_R plat st (m : mem RA) id o : reach plat st m -> st id = Some o -> let r := o_res o in
  o_out o = resample (r_filter r) (r_mode r) (r_prec r) false (r_ratio r) (o_in o).
Proof. intros H E r. eapply resample_any_R, reach_resample_any; eassumption. Qed.
