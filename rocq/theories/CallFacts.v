(** * Single calls: empty and odd blocks, ratio 1 *)
From Coq Require Import ZArith List Lia Bool ZifyNat ZifyBool.
From Verif Require Import Arith Mem FirModel IirModel Tables ResamplerModel Wp FirKernel Stage Cascade
  FirUpStage FirDownStage ResamplerProof ResamplerOk Spec SpecOk Client Feed Twin StreamFacts.
Import ListNotations.
Open Scope Z_scope.

Section Calls.
Context {A : arith} (plat : platform).
Implicit Types (m : mem A) (o : obj (A := A)).

(** copying cells onto themselves *)
Lemma store_same_list p (l : list A) m : has m p (len l) (nthZ l) ->
  runs (store_list p l) m (fun _ m' => forall b i, m' b i = m b i).
Proof.
  intros H. assert (Mp : mapped m p (len l)) by (eapply has_mapped, H).
  eapply runs_mono; [apply store_list_runs, Mp|]. intros _ m' [Hm F] b i.
  destruct (blk_eqb_spec b (pb p)) as [->|Hb].
  - destruct (Z_le_dec (po p) i), (Z_lt_dec i (po p + len l));
      try (apply F; unfold inr; lia).
    specialize (Hm (i - po p) ltac:(lia)). specialize (H (i - po p) ltac:(lia)).
    replace (po p + (i - po p)) with i in Hm, H by lia. congruence.
  - apply F. intros [E _]. contradiction.
Qed.
Lemma memmove_self p n m : 0 <= n -> mapped m p n ->
  runs (memmove_f p p n) m (fun _ m' => forall b i, m' b i = m b i).
Proof.
  intros Hn Mp. unfold memmove_f. apply runs_bind.
  set (X := fun k => match m (pb p) (po p + k) with Some v => v | None => f0 end).
  assert (H : has m p n X).
  { intros k Hk. unfold X. specialize (Mp k Hk). now destruct (m (pb p) (po p + k)). }
  eapply runs_eq; [apply load_list_runs with (X := X); rewrite Z2Nat.id by lia; exact H|].
  assert (E : len (map (fun i => X (Z.of_nat i)) (seq 0 (Z.to_nat n))) = n).
  { unfold len. rewrite map_length, seq_length. lia. }
  apply store_same_list. rewrite E. eapply has_ext; [exact H|]. intros k Hk. symmetry. apply nthZ_map_seq. lia.
Qed.
Lemma copy_fwd_self p n m : mapped m p n ->
  runs (copy_fwd p n p) m (fun _ m' => forall b i, m' b i = m b i).
Proof.
  intros Mp. unfold copy_fwd.
  apply runs_for with (Inv := fun _ _ m' => forall b i, m' b i = m b i).
  - reflexivity.
  - intros k y m' Hk F. apply runs_bind. specialize (Mp k ltac:(lia)).
    destruct (m (pb p) (po p + k)) as [v|] eqn:E; [|contradiction].
    eapply runs_load; [cbn [padd pb po]; rewrite F; exact E|]. apply runs_store; cbn [padd pb po].
    + rewrite F, E. discriminate.
    + intros b i. unfold upd. destruct (blk_eqb_spec b (pb p)) as [->|]; cbn [andb]; [|apply F].
      destruct (Z.eqb_spec i (po p + k)) as [->|]; [now rewrite E | apply F].
  - auto.
Qed.

(** *** The object of a program *)
Lemma reach_own_inv st m id o : reach plat st m -> st id = Some o ->
  res_S (o_res o) (res_coefs (o_res o)) m (o_in o) (o_out o) /\ good (o_res o).
Proof. intros H E. destruct (reach_inv plat _ _ H _ _ E) as (_ & _ & _ & G & S). auto. Qed.

Lemma fir_stage_impl id md prec use_sse s : stage_no s -> fir_prec prec ->
  exists N sse, 2 <= N /\ stage_impl plat id FILTER_FIR md prec use_sse s =
    Some (match md with UP => FirUp (Fir N sse (16 * id + s)) | DOWN => FirDown (Fir N sse (16 * id + s)) end).
Proof.
  intros Hs Hp. destruct (fir_table_some s prec Hs Hp) as (t & E & L). unfold stage_impl. rewrite E.
  eexists _, _. split; [|reflexivity]. lia.
Qed.

(** nothing but stack memory changes, so the program is where it was *)
Lemma reach_unchanged st m m' : reach plat st m -> (forall b i, ~ scratch b -> m' b i = m b i) -> reach plat st m'.
Proof. intros H F. apply reach_client with m; [exact H|]. intros b i _ Hs. now apply F. Qed.

Theorem empty_call st m id o q : reach plat st m -> st id = Some o -> let r := o_res o in c_n q = 0 ->
  (r_filter r = FILTER_IIR -> r_ratio r = 2 ->
     c_ndebug q = true /\ vector plat FILTER_IIR (r_use_sse r) = true) ->
  exists m', run_call r q m = Ok (tt, m') /\ (forall b i, ~ scratch b -> m' b i = m b i) /\ reach plat st m'.
Proof.
  intros H E r N0 HI. destruct (reach_built plat _ _ _ _ H E) as [B [Vr VT]]. fold r in B, Vr, VT.
  destruct (reach_own_inv _ _ _ _ H E) as [S G]. fold r in S, G.
  enough (R : runs (run_call r q) m (fun _ m' => forall b i, ~ scratch b -> m' b i = m b i)).
  { apply runs_inv in R. destruct R as ([] & m' & R & F). exists m'. split; [exact R|]. split; [exact F|].
    eapply reach_unchanged; eassumption. }
  unfold run_call, process_block. rewrite N0. destruct (Z.eqb_spec (r_ratio r) 2) as [R2|R2].
  - unfold call_impl. destruct G as (_ & G2 & _). destruct (G2 ltac:(lia)) as (i & Ei & _).
    rewrite Ei. cbn [deref]. apply runs_bind, runs_ret.
    assert (Es : stage_impl plat id (r_filter r) (r_mode r) (r_prec r) (r_use_sse r) 2 = Some i).
    { rewrite B in Ei. cbn [built impl_x2] in Ei. rewrite R2 in Ei. exact Ei. }
    assert (S' : impl_S i (res_coefs r 2) m (o_in o) (o_out o)).
    { unfold res_S in S. rewrite R2, Ei in S. exact S. }
    destruct (r_filter r) eqn:Ef.
    + destruct (HI eq_refl R2) as [ND V]. unfold vector in V. specialize (VT ltac:(lia)). cbn in VT.
      destruct (iir_table_some 2 (r_prec r) ltac:(unfold stage_no; auto) VT) as (t & gd & Et).
      unfold stage_impl in Es. rewrite Et, V in Es.
      destruct (r_mode r); injection Es as <-; cbn [impl_process_block]; rewrite ND;
        unfold sse_up_process_block, sse_down_process_block, assert_; cbn [orb];
        repeat (apply runs_bind, runs_ret); apply runs_ret; reflexivity.
    + destruct (fir_stage_impl id (r_mode r) (r_prec r) (r_use_sse r) 2 ltac:(unfold stage_no; auto) (VT ltac:(lia)))
        as (N & sse & HN & Es'). rewrite Es in Es'.
      destruct (r_mode r); injection Es' as ->; cbn [impl_process_block].
      * unfold up_process_block. cbn [f_order f_tag]. replace (Z.min 0 (N - 1)) with 0 by lia.
        change (0 <? 0) with false. unfold copy_fwd, up_process_block_aligned. cbn [f_sse Z.to_nat for_up while].
        apply runs_bind, runs_ret. apply runs_bind, runs_bind.
        replace (if sse then _ else _) with (ret (A := A) 0)
          by (destruct sse; reflexivity).
        apply runs_ret. apply runs_bind, runs_ret, runs_ret.
        destruct S' as [(_ & Mp & _) _]. cbn [f_order f_tag] in Mp.
        eapply runs_mono; [apply memmove_self; [lia | intros k Hk; apply Mp; lia]|]. auto.
      * apply runs_bind. unfold down_process_block. change (0 mod 2 =? 0) with true. cbn [negb].
        apply runs_bind. eapply runs_eq; [reflexivity|]. cbn [Z.to_nat while Z.eqb negb].
        apply runs_bind, runs_ret. apply runs_bind. eapply runs_eq; [reflexivity|]. apply runs_ret, runs_ret.
        intros b i Hs. destruct (blk_eqb_spec b DBlock) as [->|]; [exfalso; apply Hs; left; reflexivity|reflexivity].
  - destruct (Z.eqb_spec (r_ratio r) 1).
    + unfold copy_fwd. cbn [Z.to_nat for_up]. apply runs_ret. reflexivity.
    + cbn [Z.to_nat while Z.eqb negb]. apply runs_bind, runs_ret, runs_ret. reflexivity.
Qed.

Theorem odd_call st m id o q : reach plat st m -> st id = Some o -> let r := o_res o in
  r_filter r = FILTER_FIR -> r_mode r = DOWN -> r_ratio r = 2 -> c_n q mod 2 <> 0 ->
  run_call r q m = Ok (tt, m).
Proof.
  intros H E r Hf Hm R2 Hodd. destruct (reach_built plat _ _ _ _ H E) as [B [Vr VT]]. fold r in B, Vr, VT.
  rewrite Hf in VT. unfold run_call, process_block. rewrite R2. cbn [Z.eqb Pos.eqb].
  destruct (fir_stage_impl id (r_mode r) (r_prec r) (r_use_sse r) 2 ltac:(unfold stage_no; auto) (VT ltac:(lia)))
    as (N & sse & HN & Es). rewrite Hm in Es.
  assert (Ei : impl_x2 r = Some (FirDown (Fir N sse (16 * id + 2)))).
  { rewrite B. cbn [built impl_x2]. rewrite R2, Hf, Hm. exact Es. }
  unfold call_impl. rewrite Ei. unfold deref, bind, ret. cbn [impl_process_block]. unfold down_process_block, bind, ret.
  destruct (Z.eqb_spec (c_n q mod 2) 0); [contradiction | reflexivity].
Qed.

(** *** Ratio 1 *)
Theorem in_place_copy r q m : r_ratio r = 1 -> c_output q = c_input q -> mapped m (c_input q) (c_n q) ->
  exists m', run_call r q m = Ok (tt, m') /\ forall b i, m' b i = m b i.
Proof.
  intros R1 Eo Mp. pose proof (copy_fwd_self (c_input q) (c_n q) m Mp) as R. apply runs_inv in R.
  destruct R as ([] & m' & R & F). exists m'. split; [|exact F].
  unfold run_call, process_block. rewrite R1. cbn [Z.eqb Pos.eqb]. rewrite Eo. exact R.
Qed.
Lemma reset1 addr r m : r_ratio r = 1 -> reset addr r m = Ok (tt, m).
Proof. intros R1. unfold reset. rewrite R1. reflexivity. Qed.

(** *** Which caller memory is accessed *)
(** the caller has nothing but the input samples, [over] floats behind it and the room for the output *)
Definition bare (q : call (A := A)) (over out : Z) m : mem A := fun b i =>
  match b with
  | User _ => if (blk_eqb b (pb (c_input q)) && (po (c_input q) <=? i) && (i <? po (c_input q) + c_n q + over))
                 || (blk_eqb b (pb (c_output q)) && (po (c_output q) <=? i) && (i <? po (c_output q) + out))
              then m b i else None
  | _ => m b i
  end.

Theorem bare_call st m id o q b : reach plat st m -> st id = Some o -> let r := o_res o in
  call_ok plat r m q b ->
  exists m' z, run_call r q (bare q (r_over plat r) (r_out r (len b)) m) = Ok (tt, m') /\
    len z = r_out r (len b) /\ has m' (c_output q) (len z) (nthZ z).
Proof.
  intros H E r K. set (m0 := bare _ _ _ m).
  assert (H0 : reach plat st m0).
  { apply reach_client with m; [exact H|]. intros b' i Hu _. unfold m0, bare.
    destruct b'; try reflexivity. exfalso. apply Hu. now exists k. }
  assert (Hov : 0 <= r_over plat r) by apply over_range.
  pose proof (len_nonneg b) as Lb.
  assert (Ein : forall k, 0 <= k < len b + r_over plat r ->
    m0 (pb (c_input q)) (po (c_input q) + k) = m (pb (c_input q)) (po (c_input q) + k)).
  { intros k Hk. destruct (co_in_user _ _ _ _ _ K) as [u Eu]. unfold m0, bare. rewrite Eu at 1.
    rewrite Eu, blk_eqb_refl, (co_n _ _ _ _ _ K). cbn [andb].
    replace (_ || _) with true; [reflexivity|]. symmetry. apply orb_true_intro. left. lia. }
  assert (Eout : forall k, 0 <= k < r_out r (len b) ->
    m0 (pb (c_output q)) (po (c_output q) + k) = m (pb (c_output q)) (po (c_output q) + k)).
  { intros k Hk. destruct (co_out_user _ _ _ _ _ K) as [u Eu]. unfold m0, bare. rewrite Eu at 1.
    rewrite Eu, blk_eqb_refl. cbn [andb].
    replace (_ || _) with true; [reflexivity|]. symmetry. apply orb_true_intro. right. lia. }
  assert (K0 : call_ok plat r m0 q b).
  { destruct K. constructor; try assumption.
    - intros k Hk. rewrite Ein by lia. now apply co_in.
    - intros k Hk. cbn [padd pb po]. rewrite <- Z.add_assoc, Ein by lia. rewrite Z.add_assoc.
      now apply co_slack.
    - intros k Hk. rewrite Eout by lia. now apply co_out. }
  destruct (reach_call_progress plat st m0 id o q b H0 E K0) as (m' & z & R & L & Hz & _).
  exists m', z. auto.
Qed.

(** *** Nothing but the block decides about the output *)
Theorem call_det st1 m1 st2 m2 id o q1 q2 b m1' m2' z1 z2 :
  reach plat st1 m1 -> reach plat st2 m2 -> st1 id = Some o -> st2 id = Some o -> let r := o_res o in
  call_ok plat r m1 q1 b -> call_ok plat r m2 q2 b ->
  c_input q1 = c_input q2 -> c_output q1 = c_output q2 -> c_addr q1 = c_addr q2 ->
  run_call r q1 m1 = Ok (tt, m1') -> run_call r q2 m2 = Ok (tt, m2') ->
  len z1 = r_out r (len b) -> len z2 = r_out r (len b) ->
  has m1' (c_output q1) (len z1) (nthZ z1) -> has m2' (c_output q2) (len z2) (nthZ z2) -> z1 = z2.
Proof.
  intros H1 H2 E1 E2 r K1 K2 Ei Eo Ea R1 R2 L1 L2 Z1 Z2.
  pose proof (reach_call plat _ _ _ _ _ _ z1 _ H1 E1 K1 R1 L1 Z1) as C1.
  pose proof (reach_call plat _ _ _ _ _ _ z2 _ H2 E2 K2 R2 L2 Z2) as C2.
  assert (D : o_out (obj_call o q1 b z1) = o_out (obj_call o q2 b z2)).
  { eapply (reach_det plat _ _ _ _ id id _ _ C1 C2); [apply set_obj_same | apply set_obj_same | reflexivity |].
    cbn [obj_call o_log]. apply Forall2_app.
    - clear. induction (o_log o); constructor; auto using same_entry_refl.
    - constructor; [|constructor]. unfold entry_of, same_entry. cbn. rewrite Ei, Eo, Ea. auto. }
  cbn [obj_call o_out] in D. now apply app_inv_head in D.
Qed.
End Calls.
