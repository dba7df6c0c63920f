(** * Properties: upsampling blocks of more than 2^31 samples *)
From Coq Require Import ZArith Reals List Lia Lra Bool ZifyNat ZifyBool.
From Verif Require Import Arith ArithR ArithF Mem FirModel IirModel Tables ResamplerModel Wp FirKernel FirUpProof Stage
  FirUpStage Cascade ResamplerProof ResamplerOk Spec SpecOk SpecR Client Feed StreamFacts DelayFacts CallFacts Cases BigBlock.
Import ListNotations.
Open Scope Z_scope.

(** ** C76 *)

(** A FIR upsampler of ratio 2 computes the positions of its output samples as unsigned int.
    A block of n samples therefore gets at most 2^32 + 2 (order + 2) output samples, although
    2 n are asked for; the call returns normally, and the rest of the output array keeps what
    it contained.  Input and output may be any arrays large enough (they may even overlap). *)
Theorem C76_large_block {A : arith} plat st (m : mem A) id o q N :
  reach plat st m -> st id = Some o ->
  let r := o_res o in
  r_filter r = FILTER_FIR -> r_mode r = UP -> r_ratio r = 2 -> order r = Ok N ->
  addr_ok (c_addr q) -> c_addr q (pb (c_input q)) mod 4 = 0 ->
  N <= c_n q < 2 ^ 32 - 6 ->
  is_user (pb (c_input q)) -> is_user (pb (c_output q)) ->
  mapped m (c_input q) (c_n q) -> mapped m (c_output q) (2 * c_n q) ->
  exists m', run_call r q m = Ok (tt, m') /\
    (forall b i, is_user b -> ~ inr (c_output q) (Z.min (2 * c_n q) (2 ^ 32 + 2 * (N + 2))) b i -> m' b i = m b i) /\
    (forall j, 2 ^ 32 + 2 * (N + 2) <= j < 2 * c_n q ->
       m' (pb (c_output q)) (po (c_output q) + j) = m (pb (c_output q)) (po (c_output q) + j)).
Proof.
  intros H E r Hf Hm R2 HN AO A4 Hn Ui Uo Mi Mo.
  destruct (reach_built plat _ _ _ _ H E) as [B [Vr VT]]. fold r in B, Vr, VT. rewrite Hf in VT.
  destruct (reach_own_inv plat _ _ _ _ H E) as [S G]. fold r in S, G.
  destruct (fir_stage_impl plat id (r_mode r) (r_prec r) (r_use_sse r) 2 ltac:(unfold stage_no; auto) (VT ltac:(lia)))
    as (N' & sse & HN' & Es). rewrite Hm in Es.
  assert (Ei : impl_x2 r = Some (FirUp (Fir N' sse (16 * id + 2)))).
  { rewrite B. cbn [built impl_x2]. rewrite R2, Hf, Hm. exact Es. }
  assert (N' = N) by (unfold order in HN; rewrite Ei in HN; cbn in HN; congruence). subst N'.
  destruct G as (_ & G2 & _). destruct (G2 ltac:(lia)) as (i & Ei' & _ & _ & W).
  rewrite Ei in Ei'. injection Ei' as <-. cbn [impl_wf f_order] in W.
  unfold res_S in S. rewrite R2, Ei in S. cbn [Z.eqb Pos.eqb oS] in S. destruct S as [((T1 & T2) & Mh & _) _].
  assert (T : taps_there (c_addr q) (Fir N sse (16 * id + 2)) m).
  { split; [exact (has_mapped _ _ _ _ T1)|]. split; [|split; [exact Mh | split; apply AO]].
    intros k Hk. apply (has_mapped _ _ _ _ T2). unfold groups. cbn [f_order] in *. lia. }
  pose proof (up_big (c_addr q) (Fir N sse (16 * id + 2)) m (c_input q) (c_n q) (c_output q) ltac:(cbn; lia) T A4 ltac:(cbn; lia) Mi Mo) as R.
  apply runs_inv in R. destruct R as ([] & m' & R & F). cbn [f_order f_tag] in F.
  assert (F' : forall b i, is_user b -> ~ inr (c_output q) (Z.min (2 * c_n q) (2 ^ 32 + 2 * (N + 2))) b i -> m' b i = m b i).
  { intros b i [k ->] Hb. apply F; [discriminate | exact Hb]. }
  exists m'. split.
  - unfold run_call, process_block. rewrite R2. cbn [Z.eqb Pos.eqb]. rewrite Ei. exact R.
  - split; [exact F'|]. intros j Hj. apply F'; [exact Uo|]. intros [_ X]. lia.
Qed.

(** In particular a block of 2^31 + 5 samples, all 1, is not interpolated linearly: the last
    output sample is not written. *)
Definition ones_and_zeros {A : arith} : mem A :=
  fun b i => match b with User 0 => Some f1 | User 1 => Some f0 | _ => None end.

Theorem C76_large_block_refuted :
  exists plat st (m : mem RA) o q,
    reach plat st m /\ st 0 = Some o /\
    let r := o_res o in let n := c_n q in
    r = built plat 0 UP 2 PREC_LINEAR true FILTER_FIR /\ o_in o = [] /\
    n = 2 ^ 31 + 5 /\ addr_ok (c_addr q) /\
    has m (c_input q) n (fun _ => 1%R) /\ mapped m (c_output q) (2 * n) /\
    disj (c_input q) n (c_output q) (2 * n) /\
    exists m', run_call r q m = Ok (tt, m') /\
      m' (pb (c_output q)) (po (c_output q) + (2 * n - 1)) = Some 0%R.
Proof.
  set (plat := Platform true true).
  destruct (reach_new_progress plat (fun _ => None) (ones_and_zeros (A := RA)) 0 UP 2 PREC_LINEAR true FILTER_FIR
    (reach_init plat _) eq_refl ltac:(right; left; reflexivity) ltac:(intros _; left; reflexivity)) as (m & _ & Fm & H).
  set (q := Call (A := RA) (addr_ex 0 0) false (fun _ _ _ => 0%R) (Ptr (User 0) 0) (2 ^ 31 + 5) (Ptr (User 1) 0)).
  assert (Mi : has m (c_input q) (2 ^ 31 + 5) (fun _ => 1%R)).
  { intros k _. cbn [q c_input pb po]. rewrite Fm by (exists 0; reflexivity). reflexivity. }
  assert (Mo : mapped m (c_output q) (2 * (2 ^ 31 + 5))).
  { intros k _. cbn [q c_output pb po]. rewrite Fm by (exists 1; reflexivity). discriminate. }
  destruct (C76_large_block plat _ m 0 (Obj (built plat 0 UP 2 PREC_LINEAR true FILTER_FIR) [] []) q 2 H
    ltac:(unfold set_obj; reflexivity) eq_refl eq_refl eq_refl eq_refl (addr_ex_ok 0 0) eq_refl
    ltac:(cbn [q c_n]; lia) ltac:(exists 0; reflexivity) ltac:(exists 1; reflexivity) (has_mapped _ _ _ _ Mi) Mo)
    as (m' & R & _ & F).
  eexists plat, _, m, _, q. split; [exact H|]. split; [reflexivity|]. cbv zeta. cbn [o_res].
  split; [reflexivity|]. split; [reflexivity|]. split; [reflexivity|]. split; [apply addr_ex_ok|].
  split; [exact Mi|]. split; [exact Mo|]. split; [left; discriminate|].
  exists m'. split; [exact R|]. rewrite F by (cbn [q c_n]; lia).
  cbn [q c_output pb]. rewrite Fm by (exists 1; reflexivity). reflexivity.
Qed.

(** whereas this is what the sample should be *)
Example C76_expected (x : list RA) n : size x = n -> (forall k, 0 <= k < n -> smp x k = 1%R) -> 4 <= n ->
  smp (resample FILTER_FIR UP PREC_LINEAR false 2 x) (2 * n - 1) = 1%R.
Proof.
  intros Sx Hx Hn. change (resample FILTER_FIR UP PREC_LINEAR false 2 x) with (fir_up2 (coeffs (A := RA) FILTER_FIR UP PREC_LINEAR 2) x).
  rewrite linear_up by (left; reflexivity). unfold fir_up2. rewrite smp_tab by lia. unfold fir_up_at.
  replace (2 * n - 1) with (1 + 2 * (n - 1)) by lia. rewrite Z.even_add_mul_2. cbn [Z.even].
  replace ((1 + 2 * (n - 1)) / 2) with (n - 1) by (rewrite Z.mul_comm, Z.div_add by lia; reflexivity).
  apply Hx. change (size (A := RA) [(1 / 2)%R; (1 / 2)%R]) with 2. change (2 / 2) with 1. lia.
Qed.

Print Assumptions C76_large_block.
Print Assumptions C76_large_block_refuted.
