(** * IIR ratio 2: too short blocks and the reads behind the input *)
From Coq Require Import ZArith List Lia Bool ZifyNat ZifyBool.
From Verif Require Import Arith Mem FirModel IirModel Tables ResamplerModel Wp FirKernel Stage Cascade
  IirProof IirStage IirSseStage ResamplerProof ResamplerOk Spec SpecOk Client Feed Twin StreamFacts CallFacts.
Import ListNotations.
Open Scope Z_scope.
Open Scope m_scope.

Section Short.
Context {A : arith} (plat : platform).
Implicit Types (m : mem A).

(** the same call with another number of samples *)
Definition with_n (q : call (A := A)) (n : Z) : call :=
  Call (c_addr q) (c_ndebug q) (c_garbage q) (c_input q) n (c_output q).

Lemma fpu_up_empty addr o out inp : fpu_up_process_block (A := A) addr true o out inp 0 = fpu_up_process_block addr true o out inp 1.
Proof. reflexivity. Qed.
Lemma fpu_down_empty addr o out inp : fpu_down_process_block (A := A) addr true o out inp 0 = fpu_down_process_block addr true o out inp 1.
Proof. reflexivity. Qed.

Lemma iir_impl st m id o : reach plat st m -> st id = Some o -> let r := o_res o in
  r_filter r = FILTER_IIR -> r_ratio r = 2 ->
  exists io gd, 0 <= i_nc io /\ i_tag io = 16 * id + 2 /\ impl_x2 r = Some (
    if vector plat FILTER_IIR (r_use_sse r) then match r_mode r with UP => IirUpSse io gd | DOWN => IirDownSse io gd end
    else match r_mode r with UP => IirUp io gd | DOWN => IirDown io gd end).
Proof.
  intros H E r Hf R2. destruct (reach_built plat _ _ _ _ H E) as [B [Vr VT]]. fold r in B, Vr, VT. rewrite Hf in VT.
  specialize (VT ltac:(lia)). cbn in VT.
  destruct (iir_table_some 2 (r_prec r) ltac:(unfold stage_no; auto) VT) as (t & gd & Et).
  eexists _, _. rewrite B. cbn [built impl_x2]. rewrite R2, Hf. cbn [Z.ltb Z.compare Pos.compare Pos.compare_cont].
  cbn [built r_use_sse r_mode]. unfold stage_impl. rewrite Et. unfold vector. split; [|split; [|reflexivity]]; [cbn [i_nc]; lia|reflexivity].
Qed.

Lemma run_call_2 r q i m : r_ratio r = 2 -> impl_x2 r = Some i ->
  run_call r q m = impl_process_block (c_addr q) (c_ndebug q) (c_garbage q (c_n q)) i (c_input q) (c_n q) (c_output q) m.
Proof. intros R2 Ei. unfold run_call, process_block. rewrite R2. cbn [Z.eqb Pos.eqb]. unfold call_impl. now rewrite Ei. Qed.

(** the empty block is processed like a block of one (two) samples *)
Theorem empty_up_is_one st m id o q : reach plat st m -> st id = Some o -> let r := o_res o in
  r_filter r = FILTER_IIR -> r_ratio r = 2 -> r_mode r = UP -> vector plat FILTER_IIR (r_use_sse r) = false ->
  c_ndebug q = true -> c_n q = 0 -> run_call r q m = run_call r (with_n q 1) m.
Proof.
  intros H E r Hf R2 Hm V ND N0. destruct (iir_impl _ _ _ _ H E Hf R2) as (io & gd & _ & _ & Ei). fold r in Ei.
  rewrite V, Hm in Ei. rewrite !(run_call_2 _ _ _ _ R2 Ei). cbn [impl_process_block with_n c_ndebug c_addr c_input c_output c_n].
  now rewrite ND, N0, fpu_up_empty.
Qed.
Theorem short_down_is_two st m id o q : reach plat st m -> st id = Some o -> let r := o_res o in
  r_filter r = FILTER_IIR -> r_ratio r = 2 -> r_mode r = DOWN -> vector plat FILTER_IIR (r_use_sse r) = false ->
  c_ndebug q = true -> c_n q = 0 \/ c_n q = 1 -> run_call r q m = run_call r (with_n q 2) m.
Proof.
  intros H E r Hf R2 Hm V ND N0. destruct (iir_impl _ _ _ _ H E Hf R2) as (io & gd & _ & _ & Ei). fold r in Ei.
  rewrite V, Hm in Ei. rewrite !(run_call_2 _ _ _ _ R2 Ei). cbn [impl_process_block with_n c_ndebug c_addr c_input c_output c_n].
  rewrite ND. replace (c_n q / 2) with 0 by (destruct N0 as [->| ->]; reflexivity).
  change (2 / 2) with 1. now rewrite fpu_down_empty.
Qed.

Theorem short_assert st m id o q : reach plat st m -> st id = Some o -> let r := o_res o in
  r_filter r = FILTER_IIR -> r_ratio r = 2 -> c_ndebug q = false ->
  (r_mode r = UP -> c_n q = 0) -> (r_mode r = DOWN -> c_n q = 0 \/ c_n q = 1) ->
  run_call r q m = Err AssertFail.
Proof.
  intros H E r Hf R2 ND Nu Nd. destruct (iir_impl _ _ _ _ H E Hf R2) as (io & gd & _ & _ & Ei). fold r in Ei.
  rewrite (run_call_2 _ _ _ _ R2 Ei). rewrite ND. destruct (r_mode r).
  - rewrite (Nu eq_refl). destruct (vector plat FILTER_IIR (r_use_sse r)); cbn [impl_process_block];
      [unfold sse_up_process_block | unfold fpu_up_process_block];
      unfold assert_ at 1, bind at 1; destruct (_ || (_ || _)); reflexivity.
  - replace (c_n q / 2) with 0 by (destruct (Nd eq_refl) as [->| ->]; reflexivity).
    destruct (vector plat FILTER_IIR (r_use_sse r)); cbn [impl_process_block];
      replace (c_n q / 2) with 0 by (destruct (Nd eq_refl) as [->| ->]; reflexivity);
      [unfold sse_down_process_block | unfold fpu_down_process_block];
      unfold assert_ at 1, bind at 1; destruct (_ || (_ || _)); reflexivity.
Qed.

(** *** Memory accessed for a too short block *)
Lemma stage_fpu_safe (o : iir) : forall n : nat, Z.of_nat n <= i_nc o -> forall a b m,
  (forall i, 2 <= i < i_nc o + 2 -> m (FCoef (i_tag o)) i <> None) ->
  (forall i, 0 <= i < i_nc o + 2 -> m (FMem (i_tag o)) i <> None) ->
  runs (stage_fpu_pos o n a b) m (fun _ m' => forall b i, b <> FMem (i_tag o) -> m' b i = m b i).
Proof.
  intros n. induction n as [n IH] using (well_founded_induction lt_wf). intros Hn a b m C Mm.
  assert (Ld : forall X p (k : A -> M A X) m' Q, m' (pb p) (po p) <> None -> (forall v, runs (k v) m' Q) ->
    runs (v <- load p ;; k v) m' Q).
  { intros X p k m' Q Hp Hk. apply runs_bind. destruct (m' (pb p) (po p)) as [v|] eqn:Ev; [|contradiction].
    eapply runs_load; [exact Ev | apply Hk]. }
  assert (Fr : forall m0 i v, (forall b' i', b' <> FMem (i_tag o) -> m0 b' i' = m b' i') ->
    forall b' i', b' <> FMem (i_tag o) -> upd m0 (FMem (i_tag o)) i v b' i' = m b' i').
  { intros m0 i v F b' i' Hb. rewrite upd_other by (left; exact Hb). now apply F. }
  destruct n as [|[|n]]; cbn [stage_fpu_pos].
  - apply runs_bind, runs_store; [cbn [fmem pb po]; apply Mm; lia|]. cbn [fmem pb po].
    apply runs_bind, runs_store; [cbn [fmem pb po]; apply mapped_upd_any, Mm; lia|]. cbn [fmem pb po].
    apply runs_ret. intros b' i' Hb. rewrite !upd_other by (left; exact Hb). reflexivity.
  - apply Ld; [cbn [fmem pb po]; apply Mm; lia|]. intros v1.
    apply Ld; [cbn [fcoef pb po]; apply C; lia|]. intros v2.
    apply Ld; [cbn [fmem pb po]; apply Mm; lia|]. intros v3.
    apply runs_bind, runs_store; [cbn [fmem pb po]; apply Mm; lia|]. cbn [fmem pb po].
    apply runs_bind, runs_store; [cbn [fmem pb po]; apply mapped_upd_any, Mm; lia|]. cbn [fmem pb po].
    apply runs_bind, runs_store; [cbn [fmem pb po]; apply mapped_upd_any, mapped_upd_any, Mm; lia|]. cbn [fmem pb po].
    apply runs_ret. intros b' i' Hb. rewrite !upd_other by (left; exact Hb). reflexivity.
  - apply Ld; [cbn [fmem pb po]; apply Mm; lia|]. intros v1.
    apply Ld; [cbn [fcoef pb po]; apply C; lia|]. intros v2.
    apply Ld; [cbn [fmem pb po]; apply Mm; lia|]. intros v3.
    apply Ld; [cbn [fmem pb po]; apply Mm; lia|]. intros v4.
    apply Ld; [cbn [fcoef pb po]; apply C; lia|]. intros v5.
    apply Ld; [cbn [fmem pb po]; apply Mm; lia|]. intros v6.
    apply runs_bind, runs_store; [cbn [fmem pb po]; apply Mm; lia|]. cbn [fmem pb po].
    apply runs_bind, runs_store; [cbn [fmem pb po]; apply mapped_upd_any, Mm; lia|]. cbn [fmem pb po].
    eapply runs_mono; [apply IH; [lia | lia | |]|].
    + intros i Hi. rewrite !upd_other by (left; discriminate). apply C. exact Hi.
    + intros i Hi. apply mapped_upd_any, mapped_upd_any, Mm. exact Hi.
    + cbn beta. intros _ m' F b' i' Hb. rewrite F by exact Hb. rewrite !upd_other by (left; exact Hb). reflexivity.
Qed.

Lemma fpu_mapped st m id o io gd : reach plat st m -> st id = Some o -> let r := o_res o in
  r_filter r = FILTER_IIR -> r_ratio r = 2 ->
  impl_x2 r = Some (IirUp io gd) \/ impl_x2 r = Some (IirDown io gd) ->
  (forall i, 2 <= i < i_nc io + 2 -> m (FCoef (i_tag io)) i <> None) /\
  (forall i, 0 <= i < i_nc io + 2 -> m (FMem (i_tag io)) i <> None).
Proof.
  intros H E r Hf R2 Ei. destruct (reach_own_inv plat _ _ _ _ H E) as [S _]. fold r in S.
  unfold res_S in S. rewrite R2 in S. cbn [Z.eqb Pos.eqb] in S.
  assert (X : exists V, fcoef_ok io (res_coefs r 2) m /\ fpu_stt io m V).
  { destruct Ei as [Ei|Ei]; rewrite Ei in S; destruct S as [[C S] _]; eauto. }
  destruct X as (V & C & S'). split; intros i Hi.
  - replace i with ((i - 2) + 2) by lia. rewrite (C (i - 2)) by lia. discriminate.
  - rewrite (S' i) by lia. discriminate.
Qed.

Lemma bind_ok {X Y} (c : M A X) (k : X -> M A Y) m x m' : c m = Ok (x, m') -> bind c k m = k x m'.
Proof. intros E. unfold bind. now rewrite E. Qed.
Lemma bind_err {X Y} (c : M A X) (k : X -> M A Y) m e : c m = Err e -> bind c k m = Err e.
Proof. intros E. unfold bind. now rewrite E. Qed.
Lemma load_ok p m v : m (pb p) (po p) = Some v -> load p m = Ok (v, m).
Proof. intros E. unfold load. now rewrite E. Qed.
Lemma load_err p m : m (pb p) (po p) = None -> load p m = Err OobRead.
Proof. intros E. unfold load. now rewrite E. Qed.
Lemma store_ok p v m : m (pb p) (po p) <> None -> store p v m = Ok (tt, upd m (pb p) (po p) v).
Proof. intros E. unfold store. now destruct (m (pb p) (po p)). Qed.
Lemma store_err p v m : m (pb p) (po p) = None -> store p v m = Err OobWrite.
Proof. intros E. unfold store. now rewrite E. Qed.

(** UP, no samples: reads input[0] and writes output[0], output[1] *)
Theorem empty_up_oob st m id o q : reach plat st m -> st id = Some o -> let r := o_res o in
  r_filter r = FILTER_IIR -> r_ratio r = 2 -> r_mode r = UP -> vector plat FILTER_IIR (r_use_sse r) = false ->
  c_ndebug q = true -> c_n q = 0 -> is_user (pb (c_output q)) ->
  (~ mapped m (c_input q) 1 -> run_call r q m = Err OobRead) /\
  (mapped m (c_input q) 1 -> ~ mapped m (c_output q) 2 -> run_call r q m = Err OobWrite).
Proof.
  intros H E r Hf R2 Hm V ND N0 Ho. destruct (iir_impl _ _ _ _ H E Hf R2) as (io & gd & Hnc & _ & Ei). fold r in Ei.
  rewrite V, Hm in Ei. destruct (fpu_mapped _ _ _ _ io gd H E Hf R2 (or_introl Ei)) as [C Mm].
  rewrite (run_call_2 _ _ _ _ R2 Ei). cbn [impl_process_block]. rewrite ND, N0.
  unfold fpu_up_process_block, assert_. cbn [orb]. unfold do_while_pos.
  erewrite bind_ok by reflexivity. erewrite bind_ok by reflexivity. split; [intros Ni | intros Mi No]; apply bind_err.
  - destruct (m (pb (c_input q)) (po (c_input q) + 0)) as [v|] eqn:Ev; [|now apply bind_err, load_err].
    exfalso. apply Ni. intros k Hk. replace k with 0 by lia. rewrite Ev. discriminate.
  - specialize (Mi 0 ltac:(lia)).
    destruct (m (pb (c_input q)) (po (c_input q) + 0)) as [v|] eqn:Ev; [|contradiction].
    erewrite bind_ok by (apply load_ok; exact Ev).
    unfold fpu_up_process_sample.
    pose proof (stage_fpu_safe io (Z.to_nat (i_nc io)) ltac:(lia) v v m C Mm) as R. apply runs_inv in R.
    destruct R as (x & m' & R & F). erewrite bind_ok by exact R.
    change (0 * 2) with 0. change (0 + 1) with 1.
    destruct Ho as [u Eu].
    destruct (m (pb (c_output q)) (po (c_output q) + 0)) as [w|] eqn:Ew.
    + assert (M0 : m' (pb (c_output q)) (po (c_output q) + 0) <> None) by (rewrite F, Ew by (rewrite Eu; discriminate); discriminate).
      erewrite bind_ok by (apply store_ok; exact M0).
      destruct (m (pb (c_output q)) (po (c_output q) + 1)) as [w'|] eqn:Ew'.
      * exfalso. apply No. intros k Hk. assert (D : k = 0 \/ k = 1) by lia.
        destruct D as [->| ->]; congruence.
      * apply store_err. cbn [padd pb po]. rewrite upd_other by (right; lia). rewrite F by (rewrite Eu; discriminate). exact Ew'.
    + apply bind_err, store_err. cbn [padd pb po]. rewrite F by (rewrite Eu; discriminate). exact Ew.
Qed.

(** DOWN, less than two samples: reads input[0] and input[1], writes output[0] *)
Theorem short_down_oob st m id o q : reach plat st m -> st id = Some o -> let r := o_res o in
  r_filter r = FILTER_IIR -> r_ratio r = 2 -> r_mode r = DOWN -> vector plat FILTER_IIR (r_use_sse r) = false ->
  c_ndebug q = true -> c_n q = 0 \/ c_n q = 1 -> is_user (pb (c_output q)) ->
  (~ mapped m (c_input q) 2 -> run_call r q m = Err OobRead) /\
  (mapped m (c_input q) 2 -> ~ mapped m (c_output q) 1 -> run_call r q m = Err OobWrite).
Proof.
  intros H E r Hf R2 Hm V ND N0 Ho. destruct (iir_impl _ _ _ _ H E Hf R2) as (io & gd & Hnc & _ & Ei). fold r in Ei.
  rewrite V, Hm in Ei. destruct (fpu_mapped _ _ _ _ io gd H E Hf R2 (or_intror Ei)) as [C Mm].
  rewrite (run_call_2 _ _ _ _ R2 Ei). cbn [impl_process_block]. rewrite ND.
  replace (c_n q / 2) with 0 by (destruct N0 as [->| ->]; reflexivity).
  unfold fpu_down_process_block, assert_. cbn [orb]. unfold do_while_pos, fpu_down_process_sample.
  erewrite bind_ok by reflexivity. erewrite bind_ok by reflexivity. split; [intros Ni | intros Mi No]; apply bind_err.
  - apply bind_err.
    destruct (m (pb (c_input q)) (po (c_input q) + 0 * 2 + 1)) as [v1|] eqn:E1; [|now apply bind_err, load_err].
    erewrite bind_ok by (apply load_ok; exact E1).
    destruct (m (pb (c_input q)) (po (c_input q) + 0 * 2 + 0)) as [v0|] eqn:E0; [|now apply bind_err, load_err].
    exfalso. apply Ni. intros k Hk. assert (D : k = 0 \/ k = 1) by lia. change (0 * 2) with 0 in *. rewrite !Z.add_0_r in *.
    destruct D as [->| ->]; rewrite ?Z.add_0_r; congruence.
  - pose proof (Mi 0 ltac:(lia)) as M0. pose proof (Mi 1 ltac:(lia)) as M1.
    change (0 * 2) with 0. rewrite padd_0.
    destruct (m (pb (c_input q)) (po (c_input q) + 1)) as [v1|] eqn:E1; [|contradiction].
    destruct (m (pb (c_input q)) (po (c_input q) + 0)) as [v0|] eqn:E0; [|contradiction].
    pose proof (stage_fpu_safe io (Z.to_nat (i_nc io)) ltac:(lia) v1 v0 m C Mm) as R. apply runs_inv in R.
    destruct R as (x & m' & R & F).
    erewrite bind_ok.
    2: { erewrite bind_ok by (apply load_ok; exact E1). erewrite bind_ok by (apply load_ok; exact E0).
         erewrite bind_ok by exact R. reflexivity. }
    apply store_err. cbn [padd pb po]. destruct Ho as [u Eu]. rewrite F by (rewrite Eu; discriminate).
    destruct (m (pb (c_output q)) (po (c_output q) + 0)) as [w|] eqn:Ew; [|reflexivity].
    exfalso. apply No. intros k Hk. replace k with 0 by lia. rewrite Ew. discriminate.
Qed.

(** the SSE version with asserts disabled does nothing *)
Theorem short_sse st m id o q : reach plat st m -> st id = Some o -> let r := o_res o in
  r_filter r = FILTER_IIR -> r_ratio r = 2 -> vector plat FILTER_IIR (r_use_sse r) = true -> c_ndebug q = true ->
  (r_mode r = UP -> c_n q = 0) -> (r_mode r = DOWN -> c_n q = 0 \/ c_n q = 1) ->
  run_call r q m = Ok (tt, m).
Proof.
  intros H E r Hf R2 V ND Nu Nd. destruct (iir_impl _ _ _ _ H E Hf R2) as (io & gd & _ & _ & Ei). fold r in Ei.
  rewrite (run_call_2 _ _ _ _ R2 Ei). rewrite ND, V. destruct (r_mode r).
  - rewrite (Nu eq_refl). reflexivity.
  - cbn [impl_process_block]. replace (c_n q / 2) with 0 by (destruct (Nd eq_refl) as [->| ->]; reflexivity). reflexivity.
Qed.

(** *** Reads behind the input *)
Lemma for_up_last {X} n i (body : Z -> X -> M A X) x m :
  for_up (S n) i body x m = (y <- for_up n i body x ;; body (i + Z.of_nat n) y) m.
Proof.
  revert i x m. induction n as [|n IH]; intros i x m.
  - cbn. unfold bind, ret. rewrite Z.add_0_r. destruct (body i x m) as [[y m']|e]; reflexivity.
  - change (for_up (S (S n)) i body x m) with (bind (body i x) (fun x' => for_up (S n) (i + 1) body x') m).
    change (for_up (S n) i body x) with (bind (body i x) (fun x' => for_up n (i + 1) body x')).
    destruct (body i x m) as [[y m']|e] eqn:Eb.
    + rewrite (bind_ok _ _ _ _ _ Eb), IH. unfold bind. rewrite Eb.
      replace (i + Z.of_nat (S n)) with (i + 1 + Z.of_nat n) by lia. reflexivity.
    + unfold bind. now rewrite Eb.
Qed.

Theorem down_over_read st m id o q b : reach plat st m -> st id = Some o -> let r := o_res o in
  r_filter r = FILTER_IIR -> r_ratio r = 2 -> r_mode r = DOWN -> vector plat FILTER_IIR (r_use_sse r) = true ->
  call_ok plat r m q b ->
  forall m1, (forall b' i, ~ inr (padd (c_input q) (len b)) 2 b' i -> m1 b' i = m b' i) ->
  ~ mapped m1 (padd (c_input q) (len b)) 2 -> run_call r q m1 = Err OobRead.
Proof.
  intros H E r Hf R2 Hm V K m1 F1 Nm. destruct (iir_impl _ _ _ _ H E Hf R2) as (io & gd & _ & _ & Ei). fold r in Ei.
  rewrite V, Hm in Ei.
  pose proof (co_size _ _ _ _ _ K) as Sz. fold r in Sz. rewrite Hf, Hm, R2 in Sz. destruct Sz as [Lp Lev].
  assert (Ov : r_over plat r = 2) by (unfold r_over; rewrite Hf, V, Hm, R2; reflexivity).
  assert (Ro : forall n, r_out r n = n / 2) by (intros n; unfold r_out; rewrite Hm, R2; reflexivity).
  set (k := len b / 2 - 1). assert (Lb : len b = 2 * k + 2) by (pose proof (Z.div_mod (len b) 2); lia).
  assert (H1 : reach plat st m1).
  { apply reach_client with m; [exact H|]. intros b' i Hu _. apply F1. intros [-> _]. apply Hu. apply K. }
  pose proof (co_in _ _ _ _ _ K) as In. pose proof (co_disj _ _ _ _ _ K) as Dj. rewrite Ov, Ro in Dj.
  assert (In1 : has m1 (c_input q) (len b) (nthZ b)).
  { intros j Hj. rewrite F1; [now apply In|]. intros [_ X]. cbn [padd po] in X. lia. }
  assert (Out1 : mapped m1 (c_output q) (len b / 2)).
  { intros j Hj. rewrite F1; [apply (co_out _ _ _ _ _ K); rewrite Ro; exact Hj|]. intros [Eb X]. cbn [padd pb po] in Eb, X.
    destruct Dj as [[Dj|Dj]|(_ & Dj & Dj')]; [congruence | lia | lia]. }
  (* everything before the last pair *)
  assert (P : exists m2, for_up (A := A) (Z.to_nat k) 0
      (fun pos _ => v <- loadu4 (padd (c_input q) (pos * 2)) ;; x <- stage_sse_pos (c_addr q) io v ;;
         store (padd (c_output q) pos) (fmul (fadd (l0 x) (l1 x)) fhalf)) tt m1 = Ok (tt, m2) /\
      forall b' i, is_user b' -> ~ inr (c_output q) (len b / 2) b' i -> m2 b' i = m1 b' i).
  { destruct (Z.eq_dec k 0) as [->|Hk].
    - exists m1. split; reflexivity.
    - set (b1 := firstn (Z.to_nat (2 * k)) b).
      assert (L1 : len b1 = 2 * k) by (unfold b1, len in *; rewrite firstn_length; lia).
      assert (N1 : forall j, j < 2 * k -> nthZ b1 j = nthZ b j).
      { intros j Hj. unfold nthZ, b1. destruct (Z_lt_dec j 0).
        - replace (Z.to_nat j) with 0%nat by lia. destruct b as [|x b']; [reflexivity|].
          replace (Z.to_nat (2 * k)) with (S (Z.to_nat (2 * k) - 1)) by lia. reflexivity.
        - clear - Hj n. revert j Hj n. generalize (2 * k). intros w j Hj n.
          assert (D : (Z.to_nat j < Z.to_nat w)%nat) by lia. revert D. generalize (Z.to_nat j), (Z.to_nat w). clear.
          induction b as [|x b IH]; intros [|j] [|w] D; cbn; try reflexivity; try lia. apply IH. lia. }
      set (q1 := Call (c_addr q) true (c_garbage q) (c_input q) (2 * k) (c_output q) : call (A := A)).
      assert (K1 : call_ok plat r m1 q1 b1).
      { destruct K as [Ka Kn Ks Kiu Kou Ki Ksl Ko Kd Kse Kst]. constructor; cbn [q1 c_addr c_input c_output c_n]; try assumption.
        - exact (eq_sym L1).
        - rewrite Hf, Hm, R2, L1. cbn [size_ok]. split; [lia|]. rewrite Z.mul_comm. apply Z.mod_mul. lia.
        - intros j Hj. rewrite L1 in Hj. rewrite N1 by lia. apply In1. lia.
        - rewrite Ov, L1. intros j Hj. cbn [padd pb po]. rewrite <- Z.add_assoc, In1 by lia. discriminate.
        - rewrite Ro, L1. intros j Hj. apply Out1. replace (2 * k / 2) with k in Hj by (rewrite Z.mul_comm, Z.div_mul; lia). lia.
        - rewrite Ov, Ro, L1. replace (2 * k / 2) with k by (rewrite Z.mul_comm, Z.div_mul; lia).
          destruct Dj as [[Dj|Dj]|Dj]; [left; left; exact Dj | left; right; lia | right; exact Dj].
        - intros _. specialize (Kse ltac:(lia)). rewrite Ro in *. rewrite L1.
          replace (2 * k / 2) with k by (rewrite Z.mul_comm, Z.div_mul; lia).
          destruct Kse as [Kse|Kse]; [left; unfold asep in *; lia | right; exact Kse].
        - intros t Ht. specialize (Kst t Ht). rewrite Ov, Ro in *. rewrite L1.
          replace (2 * k / 2) with k by (rewrite Z.mul_comm, Z.div_mul; lia). unfold asep in *. lia. }
      destruct (reach_call_progress plat st m1 id o q1 b1 H1 E K1) as (m2 & z & R & Lz & _ & Fz & _).
      fold r in R. rewrite (run_call_2 _ _ _ _ R2 Ei) in R. cbn [impl_process_block q1 c_addr c_ndebug c_n c_input c_output] in R.
      unfold sse_down_process_block, assert_ in R. cbn [orb] in R. unfold bind at 1, ret at 1 in R. unfold bind at 1, ret at 1 in R.
      replace (2 * k / 2) with k in R by (rewrite Z.mul_comm, Z.div_mul; lia).
      exists m2. split; [exact R|]. intros b' i Hu Hn. apply Fz; [exact Hu|]. cbn [q1 c_output].
      fold r in Lz. rewrite Ro, L1 in Lz. replace (2 * k / 2) with k in Lz by (rewrite Z.mul_comm, Z.div_mul; lia).
      rewrite Lz. intros [X1 X2]. apply Hn. split; [exact X1 | lia]. }
  destruct P as (m2 & P & F2).
  rewrite (run_call_2 _ _ _ _ R2 Ei). cbn [impl_process_block]. rewrite (co_n _ _ _ _ _ K).
  unfold sse_down_process_block. unfold bind at 1, assert_ at 1.
  replace (c_ndebug q || _) with true.
  2: { symmetry. apply orb_true_intro. right. pose proof (co_sep _ _ _ _ _ K ltac:(lia)) as Se. unfold asep in Se.
       fold r in Se. rewrite Ro in Se. unfold paddr in *.
       destruct Se as [[Se|Se]|(_ & Se & Se')]; [lia | lia | rewrite Se; lia]. }
  unfold ret at 1. unfold bind at 1, assert_ at 1. replace (c_ndebug q || _) with true.
  2: { symmetry. apply orb_true_intro. right. lia. }
  unfold ret at 1. replace (Z.to_nat (len b / 2)) with (S (Z.to_nat k)) by lia.
  rewrite for_up_last. unfold bind at 1. rewrite P. cbn [Z.add].
  replace (Z.of_nat (Z.to_nat k)) with k by lia. unfold bind at 1.
  destruct (co_in_user _ _ _ _ _ K) as [u Eu].
  assert (Beh : forall j, 0 <= j < 2 -> m1 (pb (c_input q)) (po (c_input q) + len b + j) = None ->
    m2 (pb (c_input q)) (po (c_input q) + (2 * k + 2 + j)) = None).
  { intros j Hj Ej. rewrite F2; [rewrite <- Ej; f_equal; lia | now exists u |].
    intros [Eb X]. apply (Out1 (po (c_input q) + (2 * k + 2 + j) - po (c_output q)) ltac:(lia)).
    rewrite <- Eb, <- Ej. f_equal. lia. }
  unfold loadu4, bind, load. cbn [padd pb po].
  destruct (m2 (pb (c_input q)) (po (c_input q) + k * 2)); [|reflexivity].
  destruct (m2 (pb (c_input q)) (po (c_input q) + k * 2 + 1)); [|reflexivity].
  destruct (m2 (pb (c_input q)) (po (c_input q) + k * 2 + 2)) as [v2|] eqn:E2; [|reflexivity].
  destruct (m2 (pb (c_input q)) (po (c_input q) + k * 2 + 3)) as [v3|] eqn:E3; [|reflexivity].
  exfalso. apply Nm. intros j Hj Ej. cbn [padd pb po] in Ej. specialize (Beh j Hj Ej).
  assert (D : j = 0 \/ j = 1) by lia. destruct D as [->| ->];
    [replace (po (c_input q) + (2 * k + 2 + 0)) with (po (c_input q) + k * 2 + 2) in Beh by lia
    |replace (po (c_input q) + (2 * k + 2 + 1)) with (po (c_input q) + k * 2 + 3) in Beh by lia]; congruence.
Qed.
End Short.
