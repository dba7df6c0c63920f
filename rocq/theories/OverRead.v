(** * Reads behind the input of IIR downsamplers that use vector code, for every ratio and block size *)
From Coq Require Import ZArith List Lia Bool ZifyNat ZifyBool.
From Verif Require Import Arith Mem FirModel IirModel Tables ResamplerModel Wp Stage IirSseStage Cascade
  ResamplerProof ResamplerOk Spec SpecOk Client Feed StreamFacts DelayFacts CallFacts IirCalls.
Import ListNotations.
Open Scope Z_scope.
Open Scope m_scope.

(** ** One stage *)
Section Stage.
Context {A : arith} (addr : blk -> Z) (ndebug : bool).
Implicit Types m : mem A.

Lemma prefix_nth (b : list A) k j : 0 <= j < k -> k <= len b -> nthZ (firstn (Z.to_nat k) b) j = nthZ b j.
Proof.
  intros Hj Hk. unfold nthZ. assert (D : (Z.to_nat j < Z.to_nat k)%nat) by lia. revert D. generalize (Z.to_nat j), (Z.to_nat k). clear.
  induction b as [|x b IH]; intros [|j] [|w] D; cbn; try reflexivity; try lia. apply IH. lia.
Qed.
Lemma prefix_len (b : list A) k : 0 <= k <= len b -> len (firstn (Z.to_nat k) b) = k.
Proof. intros H. unfold len in *. rewrite firstn_length. lia. Qed.

Lemma stage_over_read g io gd (c : Z -> A) m l yl b input output :
  let i := IirDownSse io gd in impl_wf i -> impl_aligned addr i -> impl_S i c m l yl ->
  0 < len b -> len b mod 2 = 0 -> is_data (pb input) -> is_data (pb output) ->
  has m input (len b) (nthZ b) -> ~ mapped m (padd input (len b)) 2 ->
  mapped m output (len b / 2) -> pb output <> pb input -> asep addr input (len b) output (len b / 2) ->
  impl_process_block addr ndebug g i input (len b) output m = Err OobRead.
Proof.
  intros i W Al [I R] L0 Lev Di Do In Nm Out Nb Sep.
  set (k := len b / 2 - 1). assert (Lb : len b = 2 * k + 2) by (pose proof (Z.div_mod (len b) 2); lia).
  assert (P : exists m2, for_up (A := A) (Z.to_nat k) 0
      (fun pos _ => v <- loadu4 (padd input (pos * 2)) ;; x <- stage_sse_pos addr io v ;;
         store (padd output pos) (fmul (fadd (l0 x) (l1 x)) fhalf)) tt m = Ok (tt, m2) /\
      forall j, m2 (pb input) j = m (pb input) j).
  { destruct (Z.eq_dec k 0) as [->|Hk].
    - exists m. split; reflexivity.
    - set (b1 := firstn (Z.to_nat (2 * k)) b).
      assert (L1 : len b1 = 2 * k) by (apply prefix_len; lia).
      assert (D2 : 2 * k / 2 = k) by (rewrite Z.mul_comm, Z.div_mul; lia).
      pose proof (impl_stage_ok addr true g i c W Al m l yl b1 input output I R) as X. cbn [i impl_okn impl_outn impl_slack impl_mode impl_ip] in X.
      rewrite L1, D2 in X.
      assert (Y : runs (impl_process_block addr true g (IirDownSse io gd) input (2 * k) output) m (fun _ m' => forall j, m' (pb input) j = m (pb input) j)).
      { eapply runs_mono; [apply X|].
        - split; [lia|]. rewrite Z.mul_comm. apply Z.mod_mul. lia.
        - exact Di.
        - exact Do.
        - intros j Hj. unfold b1. rewrite prefix_nth by lia. apply In. lia.
        - intros j Hj. cbn [padd pb po]. rewrite <- Z.add_assoc, In by lia. discriminate.
        - intros j Hj. apply Out. lia.
        - left. left. congruence.
        - intros _. left. unfold asep in *. lia.
        - intros u m' (y & _ & _ & _ & _ & F) j. apply F; [now apply data_not_priv|]. intros [Q _]. congruence. }
      apply runs_inv in Y. destruct Y as ([] & m2 & Y & F). cbn [impl_process_block] in Y.
      unfold sse_down_process_block, IirModel.assert_ in Y. cbn [orb] in Y. unfold bind at 1, ret at 1 in Y. unfold bind at 1, ret at 1 in Y.
      rewrite D2 in Y. exists m2. split; [exact Y | exact F]. }
  destruct P as (m2 & P & F2).
  cbn [i impl_process_block]. unfold sse_down_process_block. unfold bind at 1, IirModel.assert_ at 1.
  replace (ndebug || _) with true.
  2: { symmetry. apply orb_true_intro. right. unfold asep in Sep. lia. }
  unfold ret at 1. unfold bind at 1, IirModel.assert_ at 1. replace (ndebug || _) with true.
  2: { symmetry. apply orb_true_intro. right. lia. }
  unfold ret at 1. replace (Z.to_nat (len b / 2)) with (S (Z.to_nat k)) by lia.
  rewrite for_up_last. unfold bind at 1. rewrite P. cbn [Z.add].
  replace (Z.of_nat (Z.to_nat k)) with k by lia. unfold bind at 1.
  unfold loadu4, bind, load. cbn [padd pb po].
  destruct (m2 (pb input) (po input + k * 2)); [|reflexivity].
  destruct (m2 (pb input) (po input + k * 2 + 1)); [|reflexivity].
  destruct (m2 (pb input) (po input + k * 2 + 2)) as [v2|] eqn:E2; [|reflexivity].
  destruct (m2 (pb input) (po input + k * 2 + 3)) as [v3|] eqn:E3; [|reflexivity].
  rewrite F2 in E2, E3. exfalso. apply Nm. intros j Hj. cbn [padd pb po].
  assert (D : j = 0 \/ j = 1) by lia. destruct D as [->| ->];
    [replace (po input + len b + 0) with (po input + k * 2 + 2) by lia
    |replace (po input + len b + 1) with (po input + k * 2 + 3) by lia]; congruence.
Qed.
End Stage.

(** ** All calls *)
Section Calls.
Context {A : arith} (plat : platform).
Implicit Types m : mem A.

(** the implementation of a stage *)
Lemma vec_impl id prec use_sse s : stage_no s -> iir_prec prec -> vector plat FILTER_IIR use_sse = true ->
  exists io gd, stage_impl plat id FILTER_IIR DOWN prec use_sse s = Some (IirDownSse io gd).
Proof.
  intros Hs Hp V. destruct (iir_table_some s prec Hs Hp) as (t & gd & Et). unfold stage_impl. rewrite Et.
  unfold vector in V. rewrite V. eexists _, _. reflexivity.
Qed.

Lemma bind_inv {X Y} (c : M A X) (k : X -> M A Y) m y m' : bind c k m = Ok (y, m') ->
  exists x m1, c m = Ok (x, m1) /\ k x m1 = Ok (y, m').
Proof. unfold bind. destruct (c m) as [[x m1]|e]; [|discriminate]. intros E. exists x, m1. auto. Qed.

Lemma chunk_pointer addr ndebug g r input n output m o' m' : r_mode r = DOWN ->
  cascade_chunk (A := A) addr ndebug g r input n output m = Ok (o', m') -> o' = padd output (n / r_ratio r).
Proof.
  intros Hm. unfold cascade_chunk. rewrite Hm. intros E.
  apply bind_inv in E. destruct E as (? & ? & _ & E). apply bind_inv in E. destruct E as (? & ? & _ & E).
  apply bind_inv in E. destruct E as (o & m1 & E1 & E). apply bind_inv in E1. destruct E1 as (? & ? & _ & E1).
  apply bind_inv in E. destruct E as (? & ? & _ & E). apply bind_inv in E. destruct E as (? & ? & _ & E).
  unfold ret in E1, E. congruence.
Qed.

(** the first stage of the cascade reads behind the chunk *)
Lemma chunk_over_read st m id o addr ndebug g b input output : reach plat st m -> st id = Some o -> let r := o_res o in
  r_filter r = FILTER_IIR -> r_ratio r = 4 \/ r_ratio r = 8 -> r_mode r = DOWN -> vector plat FILTER_IIR (r_use_sse r) = true ->
  addr_ok addr -> 0 < len b <= 1024 -> len b mod r_ratio r = 0 -> is_user (pb input) ->
  has m input (len b) (nthZ b) -> ~ mapped m (padd input (len b)) 2 -> asep addr input (len b) (Ptr Tmp 0) 4096 ->
  cascade_chunk addr ndebug g r input (len b) output m = Err OobRead.
Proof.
  intros H E r Hf R4 Hm V HA L Lm [u Eu] In Nm Sep.
  destruct (reach_built plat _ _ _ _ H E) as [B [Vr VT]]. fold r in B, Vr, VT. rewrite Hf in VT. specialize (VT ltac:(lia)). cbn [has_tables] in VT.
  destruct (reach_own_inv plat _ _ _ _ H E) as [S G]. fold r in S, G.
  destruct (res_S_stages r _ m _ _ G S) as (_ & S4 & S8). destruct G as (_ & _ & G4 & G8).
  set (m0 := fun b i => if blk_eqb b Tmp2 then (if (0 <=? i) && (i <? 1024 * 4) then Some (g 1 i) else None) else
    if blk_eqb b Tmp then (if (0 <=? i) && (i <? 1024 * 4) then Some (g 0 i) else None) else m b i).
  assert (X : forall s oi, stage_no s -> oi = stage_impl plat id FILTER_IIR DOWN (r_prec r) (r_use_sse r) s -> stage_good r s oi -> oI oi (res_coefs r s) m ->
    call_impl addr ndebug g oi input (len b) (Ptr Tmp 0) m0 = Err OobRead).
  { intros s oi Hs -> (i & Ei & _ & _ & W) (l & y & SS). destruct (vec_impl id (r_prec r) (r_use_sse r) s Hs VT V) as (io & gd & Es).
    rewrite Es in Ei, SS |- *. injection Ei as <-. cbn [oS] in SS. unfold call_impl. cbn [deref]. unfold bind, ret.
    apply (stage_over_read addr ndebug g io gd (res_coefs r s) m0 l y b input (Ptr Tmp 0)).
    - exact W.
    - exact (addr_ok_impl addr (IirDownSse io gd) HA).
    - eapply impl_owned; [|exact SS]. intros bb k Hb. destruct (tmp_untagged _ _ Hb). unfold m0. destruct (blk_eqb_spec bb Tmp2), (blk_eqb_spec bb Tmp); try contradiction. reflexivity.
    - lia.
    - destruct R4 as [R|R]; rewrite R in Lm; lia.
    - rewrite Eu. exact I.
    - exact I.
    - intros k Hk. unfold m0. rewrite Eu. cbn [blk_eqb]. rewrite <- Eu. now apply In.
    - intros Q. apply Nm. intros k Hk. specialize (Q k Hk). unfold m0 in Q. cbn [padd pb] in *. rewrite Eu in *. exact Q.
    - intros k Hk. cbn [pb po]. unfold m0. cbn [blk_eqb]. replace ((0 <=? 0 + k) && (0 + k <? 1024 * 4)) with true by lia. discriminate.
    - rewrite Eu. discriminate.
    - unfold asep in *. lia. }
  unfold cascade_chunk. rewrite Hm. unfold bind at 1, alloc at 1. unfold bind at 1, alloc at 1.
  match goal with |- bind _ _ ?x = _ => change x with m0 end. cbv zeta.
  apply bind_err, bind_err. destruct R4 as [R|R]; rewrite R; cbn [Z.eqb Pos.eqb].
  - apply bind_err. apply (X 4); [unfold stage_no; auto | | apply G4; lia | apply S4; lia]. rewrite B at 1. cbn [built impl_x4]. now rewrite R, Hf, Hm.
  - apply bind_err. apply (X 8); [unfold stage_no; auto | | apply G8; lia | apply S8; lia]. rewrite B at 1. cbn [built impl_x8]. now rewrite R, Hf, Hm.
Qed.

Definition chunk_loop (fuel : nat) (q : call (A := A)) (r : resampler) : M A (Z * ptr * ptr) :=
  while fuel (fun s => let '(n, _, _) := s in negb (n =? 0))
      (fun s => let '(n, inp, outp) := s in
         let n_todo_samples := Z.min 1024 n in
         outp' <- cascade_chunk (c_addr q) (c_ndebug q) (c_garbage q n) r inp n_todo_samples outp ;;
         ret (n - n_todo_samples, padd inp n_todo_samples, outp'))
      (c_n q, c_input q, c_output q).

Lemma run_call_loop r q : r_ratio r = 4 \/ r_ratio r = 8 ->
  run_call r q = (chunk_loop (Z.to_nat (c_n q)) q r ;;; ret tt).
Proof. intros [R|R]; unfold run_call, process_block; rewrite R; reflexivity. Qed.

(** one more chunk *)
Lemma loop_step fuel q r : c_n q <> 0 -> forall m,
  chunk_loop (S fuel) q r m =
  bind (cascade_chunk (c_addr q) (c_ndebug q) (c_garbage q (c_n q)) r (c_input q) (Z.min 1024 (c_n q)) (c_output q))
    (fun o' => chunk_loop fuel (Call (c_addr q) (c_ndebug q) (c_garbage q) (padd (c_input q) (Z.min 1024 (c_n q))) (c_n q - Z.min 1024 (c_n q)) o') r) m.
Proof.
  intros N m. unfold chunk_loop at 1. cbn [while]. destruct (Z.eqb_spec (c_n q) 0); [contradiction|]. cbn [negb]. cbv zeta.
  unfold bind. destruct (cascade_chunk _ _ _ _ _ _ _ m) as [[o' m']|e]; reflexivity.
Qed.

Lemma loop_over_read id (r : resampler) :
  r_filter r = FILTER_IIR -> r_ratio r = 4 \/ r_ratio r = 8 -> r_mode r = DOWN -> vector plat FILTER_IIR (r_use_sse r) = true ->
  forall k st m o q b, reach plat st m -> st id = Some o -> o_res o = r -> call_ok plat r m q b -> 0 < len b -> (Z.to_nat (len b) <= 1024 * k)%nat ->
  forall m1, (forall b' i, ~ inr (padd (c_input q) (len b)) 2 b' i -> m1 b' i = m b' i) ->
  ~ mapped m1 (padd (c_input q) (len b)) 2 -> forall fuel, (Z.to_nat (len b) <= fuel)%nat -> chunk_loop fuel q r m1 = Err OobRead.
Proof.
  intros Hf R4 Hm V.
  assert (Ov : r_over plat r = 2) by (unfold r_over; rewrite Hf, V, Hm; destruct R4 as [R|R]; rewrite R; reflexivity).
  assert (Ro : forall n, r_out r n = n / r_ratio r) by (intros n; unfold r_out; rewrite Hm; reflexivity).
  induction k as [|k IH]; intros st m o q b H E Er K L0 Lk m1 F1 Nm fuel Lf; [lia|].
  pose proof (co_size _ _ _ _ _ K) as Sz. rewrite Hf, Hm in Sz.
  assert (Lm : len b mod r_ratio r = 0) by (destruct R4 as [R|R]; rewrite R in Sz |- *; exact Sz). clear Sz.
  destruct fuel as [|fuel]; [lia|]. rewrite loop_step by (rewrite (co_n _ _ _ _ _ K); lia). rewrite (co_n _ _ _ _ _ K).
  assert (H1 : reach plat st m1).
  { apply reach_client with m; [exact H|]. intros b' i Hu _. apply F1. intros [-> _]. apply Hu. apply K. }
  pose proof (co_in _ _ _ _ _ K) as In. pose proof (co_disj _ _ _ _ _ K) as Dj. rewrite Ov, Ro in Dj.
  pose proof (co_out _ _ _ _ _ K) as Out. rewrite Ro in Out.
  assert (In1 : has m1 (c_input q) (len b) (nthZ b)).
  { intros j Hj. rewrite F1; [now apply In|]. intros [_ X]. cbn [padd po] in X. lia. }
  assert (Nlap : forall i, po (c_output q) <= i < po (c_output q) + len b / r_ratio r -> pb (c_output q) = pb (c_input q) ->
    i < po (c_input q) + len b / r_ratio r \/ po (c_input q) + len b + 2 <= i).
  { intros i Hi Q. destruct Dj as [[Dj|Dj]|(_ & Dj & Dj')]; [congruence | lia | lia]. }
  assert (Out1 : mapped m1 (c_output q) (len b / r_ratio r)).
  { intros j Hj. rewrite F1; [apply Out; exact Hj|]. intros [Eb X]. cbn [padd pb po] in Eb, X.
    destruct (Nlap (po (c_output q) + j) ltac:(lia) Eb) as [Y|Y]; [|lia]. destruct R4 as [R|R]; rewrite R in Y; lia. }
  destruct (Z_le_gt_dec (len b) 1024) as [Le|Gt].
  - (* the last chunk *)
    rewrite Z.min_r by exact Le. apply bind_err. rewrite <- Er.
    apply (chunk_over_read st m1 id o); rewrite ?Er; try assumption; try lia.
    + apply K.
    + apply K.
    + eapply asep_sub0; [apply (co_stack _ _ _ _ _ K); auto | rewrite Ov; lia | lia].
  - rewrite Z.min_l by lia.
    set (b1 := firstn (Z.to_nat 1024) b). set (b2 := skipn (Z.to_nat 1024) b).
    assert (L1 : len b1 = 1024) by (apply prefix_len; lia).
    assert (L2 : len b2 = len b - 1024) by (unfold b2, len in *; rewrite skipn_length; lia).
    assert (N2 : forall j, 0 <= j -> nthZ b2 j = nthZ b (1024 + j)).
    { intros j Hj. rewrite <- (firstn_skipn (Z.to_nat 1024) b). fold b1 b2. rewrite <- L1, nthZ_app2 by lia. reflexivity. }
    assert (DR : 0 <= 1024 / r_ratio r <= 256 /\ 1024 mod r_ratio r = 0 /\ (len b - 1024) mod r_ratio r = 0 /\ (len b - 1024) / r_ratio r = len b / r_ratio r - 1024 / r_ratio r /\ 1024 / r_ratio r <= len b / r_ratio r).
    { destruct R4 as [R|R]; rewrite R in *; change (1024 / 4) with 256; change (1024 / 8) with 128; lia. }
    destruct DR as (D1 & D2 & D3 & D4 & D5).
    set (q1 := Call (c_addr q) (c_ndebug q) (fun _ => c_garbage q (len b)) (c_input q) 1024 (c_output q) : call (A := A)).
    assert (K1 : call_ok plat r m1 q1 b1).
    { destruct K as [Ka Kn Ks Kiu Kou Ki Ksl Ko Kd Kse Kst]. constructor; cbn [q1 c_addr c_input c_output c_n]; try assumption; rewrite ?L1, ?Ov, ?Ro.
      - reflexivity.
      - rewrite Hf, Hm. destruct R4 as [R|R]; rewrite R; reflexivity.
      - intros j Hj. unfold b1. rewrite prefix_nth by lia. apply In1. lia.
      - intros j Hj. cbn [padd pb po]. rewrite <- Z.add_assoc, In1 by (destruct R4 as [R|R]; rewrite R in *; lia). discriminate.
      - intros j Hj. apply Out1. lia.
      - destruct Dj as [[Dj|Dj]|Dj]; [left; left; exact Dj | left; right; lia | right; exact Dj].
      - intros _. specialize (Kse L0). rewrite Ro in Kse.
        destruct Kse as [Kse|Kse]; [left; unfold asep in *; lia | right; exact Kse].
      - intros t Ht. specialize (Kst t Ht). rewrite Ov, Ro in *. unfold asep in *. lia. }
    rewrite <- Er in K1. destruct (reach_call_progress plat st m1 id o q1 b1 H1 E K1) as (m2 & z & R & Lz & _ & Fz & H2).
    rewrite Er in R, Lz. rewrite Ro, L1 in Lz.
    rewrite run_call_loop in R by exact R4. apply bind_inv in R. destruct R as ([[n' i'] o'] & mm & R & Rm). unfold ret in Rm. assert (mm = m2) by congruence. subst mm.
    cbn [q1 c_n] in R. change (Z.to_nat 1024) with (S 1023) in R. rewrite loop_step in R by (cbn; lia). apply bind_inv in R. destruct R as (op & m3 & R & Rm').
    cbn [q1 c_addr c_ndebug c_garbage c_n c_input c_output] in R, Rm'. change (Z.min 1024 1024) with 1024 in *.
    pose proof (chunk_pointer _ _ _ _ _ _ _ _ _ _ Hm R) as Ep. subst op.
    assert (m3 = m2). { unfold chunk_loop in Rm'. cbn [c_n while] in Rm'. change (1024 - 1024) with 0 in Rm'. cbn [Z.eqb negb ret] in Rm'. unfold ret in Rm'. congruence. } subst m3.
    unfold bind. rewrite R.
    set (q2 := Call (c_addr q) (c_ndebug q) (c_garbage q) (padd (c_input q) 1024) (len b - 1024) (padd (c_output q) (1024 / r_ratio r)) : call (A := A)).
    set (mx := fun b' i => if blk_eqb b' (pb (c_input q)) && ((po (c_input q) + len b <=? i) && (i <? po (c_input q) + len b + 2)) then m b' i else m2 b' i).
    assert (Fq : forall b' i, is_user b' -> ~ inr (c_output q) (1024 / r_ratio r) b' i -> m2 b' i = m1 b' i).
    { intros b' i U Ni. apply Fz; [exact U|]. rewrite Lz. exact Ni. }
    pose proof (co_in_user _ _ _ _ _ K) as Ui. pose proof (co_out_user _ _ _ _ _ K) as Uo.
    assert (Slk : forall i, po (c_input q) + len b <= i < po (c_input q) + len b + 2 -> m2 (pb (c_input q)) i = m1 (pb (c_input q)) i).
    { intros i Hi. apply Fq; [exact Ui|]. intros [Q Hi']. destruct (Nlap i ltac:(lia) (eq_sym Q)) as [Y|Y]; [|lia]. destruct R4 as [R'|R']; rewrite R' in *; lia. }
    assert (Ex : 1024 + len b2 = len b) by lia.
    assert (Pi : forall i, padd (padd (c_input q) 1024) i = padd (c_input q) (1024 + i)) by (intros i; unfold padd; cbn [pb po]; f_equal; lia).
    apply (IH (set_obj st id (Some (obj_call o q1 b1 z))) mx (obj_call o q1 b1 z) q2 b2).
    + apply (reach_client plat _ m2 mx H2). intros b' i NU _. unfold mx. destruct (blk_eqb_spec b' (pb (c_input q))) as [->|]; [contradiction | reflexivity].
    + unfold set_obj. now rewrite Z.eqb_refl.
    + exact Er.
    + destruct K as [Ka Kn Ks Kiu Kou Ki Ksl Ko Kd Kse Kst]. constructor; cbn [q2 c_addr c_input c_output c_n]; rewrite ?L2, ?Ov, ?Ro, ?D4; try assumption.
      * reflexivity.
      * rewrite Hf, Hm. destruct R4 as [R'|R']; rewrite R' in *; exact D3.
      * intros j Hj. cbn [padd pb po]. rewrite N2 by lia. unfold mx.
        replace ((po (c_input q) + len b <=? po (c_input q) + 1024 + j) && (po (c_input q) + 1024 + j <? po (c_input q) + len b + 2)) with false by lia.
        rewrite andb_false_r. rewrite Fq; [|exact Kiu|]. { rewrite <- Z.add_assoc. apply In1. lia. }
        intros [Q Hj']. destruct Dj as [[Dj|Dj]|(_ & Dj & Dj')]; [congruence | clear - Dj Hj Hj' D5; lia | clear - Dj' Hj Hj' D1; lia].
      * intros j Hj. cbn [padd pb po]. unfold mx. rewrite blk_eqb_refl.
        replace ((po (c_input q) + len b <=? po (c_input q) + 1024 + (len b - 1024) + j) && (po (c_input q) + 1024 + (len b - 1024) + j <? po (c_input q) + len b + 2)) with true by lia.
        cbn [andb]. replace (po (c_input q) + 1024 + (len b - 1024) + j) with (po (c_input q) + len b + j) by lia. apply (Ksl j). rewrite Ov. exact Hj.
      * intros j Hj. cbn [padd pb po]. unfold mx. destruct (blk_eqb (pb (c_output q)) (pb (c_input q)) && _) eqn:C.
        { rewrite <- Z.add_assoc. apply Out. clear - Hj D1; lia. }
        rewrite Fq; [|exact Kou|intros [_ Q]; clear - Hj Q; lia]. rewrite <- Z.add_assoc. apply Out1. clear - Hj D1; lia.
      * cbn [padd pb po]. destruct Dj as [[Dj|Dj]|(Ip & Dj & Dj')]; [left; left; exact Dj | left; right; cbn [padd pb po]; clear - Dj D1 D5 Gt; lia | right; split; [exact Ip | split; [exact Dj | cbn; clear - Dj' D1; lia]]].
      * intros _. specialize (Kse L0). rewrite Ro in Kse.
        destruct Kse as [Kse|(Ip & Kse & Kse')]; [left; unfold asep, paddr in *; cbn [padd pb po]; clear - Kse D1 D5 Gt; lia | right; split; [exact Ip | split; [exact Kse | cbn [q2 c_output c_input padd pb po]; clear - Kse' D1; lia]]].
      * intros t Ht. specialize (Kst t Ht). rewrite Ov, Ro in *. unfold asep, paddr in *. cbn [padd pb po] in *. clear - Kst D1 D5 Gt. repeat match goal with H : _ /\ _ |- _ => destruct H end. split; lia.
    + lia.
    + lia.
    + intros b' i NI. cbn [q2 c_input] in NI. rewrite Pi, Ex in NI. unfold mx. destruct (blk_eqb_spec b' (pb (c_input q))) as [->|]; [|reflexivity]. cbn [andb].
      destruct ((po (c_input q) + len b <=? i) && (i <? po (c_input q) + len b + 2)) eqn:C; [|reflexivity]. exfalso. apply NI. split; [reflexivity | cbn [padd po]; lia].
    + cbn [q2 c_input]. rewrite Pi, Ex. intros Q. apply Nm. intros j Hj. specialize (Q j Hj). cbn [padd pb po] in *. rewrite <- Slk by lia. exact Q.
    + lia.
Qed.

Theorem down_over_read_all st m id o q b : reach plat st m -> st id = Some o -> let r := o_res o in
  r_filter r = FILTER_IIR -> 2 <= r_ratio r -> r_mode r = DOWN -> vector plat FILTER_IIR (r_use_sse r) = true ->
  call_ok plat r m q b -> 0 < len b ->
  forall m1, (forall b' i, ~ inr (padd (c_input q) (len b)) 2 b' i -> m1 b' i = m b' i) ->
  ~ mapped m1 (padd (c_input q) (len b)) 2 -> run_call r q m1 = Err OobRead.
Proof.
  intros H E r Hf R2 Hm V K L0 m1 F1 Nm. destruct (reach_built plat _ _ _ _ H E) as [B [Vr VT]]. fold r in B, Vr, VT.
  destruct (Z.eq_dec (r_ratio r) 2) as [E2|N2].
  - exact (down_over_read plat st m id o q b H E Hf E2 Hm V K m1 F1 Nm).
  - assert (R4 : r_ratio r = 4 \/ r_ratio r = 8) by (unfold ratio_no in Vr; lia).
    rewrite run_call_loop by exact R4. apply bind_err. rewrite (co_n _ _ _ _ _ K).
    apply (loop_over_read id r Hf R4 Hm V (Z.to_nat (len b)) st m o q b H E eq_refl K L0 ltac:(lia) m1 F1 Nm). lia.
Qed.
End Calls.
