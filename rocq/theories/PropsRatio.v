(** * Properties: unsupported ratios

    The constructor only prints a message for a ratio other than 1, 2, 4, 8 (C18). *)
From Coq Require Import ZArith Reals List Lia Lra Bool ZifyNat ZifyBool String.
From Verif Require Import Arith ArithF Mem FirModel IirModel Tables ResamplerModel Wp Cascade
  ResamplerProof ResamplerOk Spec SpecOk Client Feed DelayFacts ConfigFacts PropsConfig.
Import ListNotations.
Open Scope Z_scope.
Open Scope m_scope.

(** ** C63 *)

(** a ratio of 0, 3, 5, 6 or 7: no call with samples returns *)
Theorem C63_below_8 {A : arith} plat id md ratio prec use_sse f (m : mem A) r ok m' q (m2 : mem A) :
  construct plat id md ratio prec use_sse f m = Ok ((r, ok), m') ->
  0 <= ratio < 8 -> ~ ratio_no ratio -> 1 <= c_n q ->
  ok = false /\ exists e, run_call r q m2 = Err e.
Proof.
  intros E Hr Hn Hq. destruct (construct_any plat id md ratio prec use_sse f m) as (m1 & E1 & _). rewrite E in E1.
  assert (Er : r = built plat id md ratio prec use_sse f) by congruence. unfold ratio_no in Hn.
  assert (Ek : ok = ((ratio =? 1) || (ratio =? 2) || (ratio =? 4) || (ratio =? 8)) && ((ratio <? 2) || if has_tables_dec f prec then true else false)) by congruence.
  split; [rewrite Ek; replace (_ || _) with false by lia; reflexivity|].
  assert (X8 : impl_x8 r = None) by (rewrite Er; unfold built; cbn [impl_x8]; replace (ratio <? 8) with true by lia; reflexivity).
  assert (Rr : r_ratio r = ratio) by (rewrite Er; reflexivity). clear Er.
  unfold run_call, process_block. rewrite Rr. replace (ratio =? 2) with false by lia. replace (ratio =? 1) with false by lia.
  destruct (Z.to_nat (c_n q)) as [|k] eqn:Ek1; [lia|]. cbn [while]. replace (negb (c_n q =? 0)) with true by lia.
  assert (C : forall g inp n out m3, exists e, cascade_chunk (A := A) (c_addr q) (c_ndebug q) g r inp n out m3 = Err e).
  { intros g inp n out m3. unfold cascade_chunk. rewrite Rr, X8. replace (ratio =? 4) with false by lia. unfold bind, alloc. cbv beta iota zeta.
    destruct (r_mode r).
    - match goal with |- exists e, match match match ?c with _ => _ end with _ => _ end with _ => _ end = _ => destruct c as [[? ?]|] end; [|eexists; reflexivity].
      match goal with |- exists e, match match match ?c with _ => _ end with _ => _ end with _ => _ end = _ => destruct c as [[? ?]|] end; eexists; reflexivity.
    - eexists. reflexivity. }
  unfold bind at 1. unfold bind at 1. unfold bind at 1. match goal with |- exists e, match match match ?c with _ => _ end with _ => _ end with _ => _ end = _ => assert (exists e, c = Err e) as [e ->] by apply C end.
  eexists. reflexivity.
Qed.
Example C63_below_8_case : exists r m', construct (A := F32) (Platform true false) 0 UP 6 PREC_96DB true FILTER_FIR (fun _ _ => None) = Ok ((r, false), m') /\ ~ ratio_no 6.
Proof.
  destruct (construct_any (A := F32) (Platform true false) 0 UP 6 PREC_96DB true FILTER_FIR (fun _ _ => None)) as (m' & E & _).
  eexists _, m'. split; [exact E | unfold ratio_no; lia].
Qed.

(** a ratio above 8: the object is that of ratio 8, except that process_block advances the output by the wrong
    number of samples after each 1024 samples of input *)
Definition as_8 (r : resampler) : resampler :=
  Resampler (r_id r) (r_mode r) 8 (r_prec r) (r_use_sse r) (r_filter r) (impl_x2 r) (impl_x4 r) (impl_x8 r).

Theorem C63_above_8_construct {A : arith} plat id md ratio prec use_sse f (m : mem A) r ok m' :
  construct plat id md ratio prec use_sse f m = Ok ((r, ok), m') -> 8 < ratio ->
  ok = false /\ exists ok8, construct plat id md 8 prec use_sse f m = Ok ((as_8 r, ok8), m').
Proof.
  intros E Hr. split.
  - destruct (construct_any plat id md ratio prec use_sse f m) as (m1 & E1 & _). rewrite E in E1.
    assert (Ek : ok = ((ratio =? 1) || (ratio =? 2) || (ratio =? 4) || (ratio =? 8)) && ((ratio <? 2) || if has_tables_dec f prec then true else false)) by congruence.
    rewrite Ek. replace (_ || _) with false by lia. reflexivity.
  - assert (I : forall s (m0 : mem A), s <= 8 -> init_stage plat id md ratio prec use_sse f s m0 = init_stage plat id md 8 prec use_sse f s m0).
    { intros s m0 Hs. unfold init_stage. replace (ratio <? s) with false by lia. replace (8 <? s) with false by lia. reflexivity. }
    unfold construct, bind, ret in *. rewrite I in E by lia. destruct (init_stage plat id md 8 prec use_sse f 2 m) as [[i2 m1]|]; [|discriminate].
    rewrite I in E by lia. destruct (init_stage plat id md 8 prec use_sse f 4 m1) as [[i4 m2]|]; [|discriminate].
    rewrite I in E by lia. destruct (init_stage plat id md 8 prec use_sse f 8 m2) as [[i8 m3]|]; [|discriminate].
    injection E as <- _ <-. eexists. reflexivity.
Qed.

Lemma chunk_as_8 {A : arith} addr ndebug (g : Z -> Z -> A) r inp n out m : 8 < r_ratio r ->
  cascade_chunk addr ndebug g r inp n out m =
    match cascade_chunk addr ndebug g (as_8 r) inp n out m with
    | Ok (_, m') => Ok (padd out (match r_mode r with UP => u32 (n * r_ratio r) | DOWN => n / r_ratio r end), m')
    | Err e => Err e end.
Proof.
  intros Hr. unfold cascade_chunk, bind, alloc, free, ret. cbn [as_8 r_mode r_ratio impl_x2 impl_x4 impl_x8]. replace (r_ratio r =? 4) with false by lia. cbn [Z.eqb Pos.eqb].
  destruct (r_mode r).
  - match goal with |- match match match ?c with _ => _ end with _ => _ end with _ => _ end = _ => destruct c as [[[] m1]|]; [|reflexivity] end.
    match goal with |- match match match ?c with _ => _ end with _ => _ end with _ => _ end = _ => destruct c as [[[] m2]|]; [|reflexivity] end.
    match goal with |- match match ?c with _ => _ end with _ => _ end = _ => destruct c as [[[] m3]|]; reflexivity end.
  - match goal with |- match match match ?c with _ => _ end with _ => _ end with _ => _ end = _ => destruct c as [[[] m1]|]; [|reflexivity] end.
    match goal with |- match match match ?c with _ => _ end with _ => _ end with _ => _ end = _ => destruct c as [[[] m2]|]; [|reflexivity] end.
    match goal with |- match match ?c with _ => _ end with _ => _ end = _ => destruct c as [[[] m3]|]; reflexivity end.
Qed.

(** the loop of process_block *)
Definition blocks_from {A : arith} addr ndebug (g : Z -> Z -> Z -> A) r fuel s :=
  while fuel (fun s => let '(n, _, _) := s in negb (n =? 0))
      (fun s => let '(n, inp, outp) := s in
         let n_todo_samples := Z.min 1024 n in
         outp' <- cascade_chunk addr ndebug (g n) r inp n_todo_samples outp ;;
         ret (n - n_todo_samples, padd inp n_todo_samples, outp')) s.
Lemma blocks_fuel {A : arith} addr ndebug (g : Z -> Z -> Z -> A) r fuel fuel' n inp out m : 0 <= n -> n <= Z.of_nat fuel -> n <= Z.of_nat fuel' ->
  blocks_from addr ndebug g r fuel (n, inp, out) m = blocks_from addr ndebug g r fuel' (n, inp, out) m.
Proof.
  revert fuel' n inp out m. induction fuel as [|fuel IH]; intros fuel' n inp out m H0 H1 H2.
  - assert (n = 0) by lia. subst n. destruct fuel'; reflexivity.
  - unfold blocks_from. cbn [while]. destruct (Z.eqb_spec n 0) as [->|Hn]; [destruct fuel'; reflexivity|].
    destruct fuel' as [|fuel']; [lia|]. cbn [while]. replace (n =? 0) with false by lia. cbn [negb].
    unfold bind. destruct (cascade_chunk addr ndebug (g n) r inp (Z.min 1024 n) out m) as [[o1 m1]|]; [|reflexivity]. cbn [ret].
    apply (IH fuel'); lia.
Qed.
Lemma process_blocks {A : arith} addr ndebug (g : Z -> Z -> Z -> A) r inp n out m : r_ratio r <> 2 -> r_ratio r <> 1 ->
  process_block addr ndebug g r inp n out m = match blocks_from addr ndebug g r (Z.to_nat n) (n, inp, out) m with Ok (_, m') => Ok (tt, m') | Err e => Err e end.
Proof.
  intros H2 H1. unfold process_block. replace (r_ratio r =? 2) with false by lia. replace (r_ratio r =? 1) with false by lia. reflexivity.
Qed.

(** up to 1024 samples: as for ratio 8 *)
Theorem C63_above_8_small_blocks {A : arith} addr ndebug (g : Z -> Z -> Z -> A) r inp n out m : 8 < r_ratio r -> 0 <= n <= 1024 ->
  process_block addr ndebug g r inp n out m = process_block addr ndebug g (as_8 r) inp n out m.
Proof.
  intros Hr Hn. rewrite !process_blocks by (cbn [as_8 r_ratio]; lia).
  destruct (Z.eq_dec n 0) as [->|H0]; [reflexivity|].
  unfold blocks_from. destruct (Z.to_nat n) as [|k] eqn:Ek; [lia|]. cbn [while]. replace (n =? 0) with false by lia. cbn [negb]. unfold bind.
  rewrite Z.min_r by lia. rewrite chunk_as_8 by exact Hr.
  destruct (cascade_chunk addr ndebug (g n) (as_8 r) inp n out m) as [[o1 m1]|]; [|reflexivity]. cbn [ret]. rewrite Z.sub_diag.
  destruct k; reflexivity.
Qed.
(** more: 1024 samples as for ratio 8, then the rest with the output at a wrong place *)
Theorem C63_above_8_large_blocks {A : arith} addr ndebug (g : Z -> Z -> Z -> A) r inp n out m : 8 < r_ratio r -> 1024 < n ->
  process_block addr ndebug g r inp n out m =
    (process_block addr ndebug (fun _ => g n) (as_8 r) inp 1024 out ;;;
     process_block addr ndebug g r (padd inp 1024) (n - 1024)
       (padd out (match r_mode r with UP => u32 (1024 * r_ratio r) | DOWN => 1024 / r_ratio r end))) m.
Proof.
  intros Hr Hn. unfold bind. rewrite process_blocks by lia. rewrite (process_blocks _ _ _ (as_8 r)) by (cbn [as_8 r_ratio]; lia).
  unfold blocks_from at 1 2. destruct (Z.to_nat n) as [|k] eqn:Ek; [lia|]. destruct (Z.to_nat 1024) as [|k8] eqn:Ek8; [lia|]. cbn [while].
  replace (n =? 0) with false by lia. replace (1024 =? 0) with false by reflexivity. cbn [negb]. unfold bind. rewrite Z.min_l by lia. rewrite Z.min_id.
  rewrite chunk_as_8 by exact Hr. destruct (cascade_chunk addr ndebug (g n) (as_8 r) inp 1024 out m) as [[o1 m1]|]; [|reflexivity]. cbn [ret].
  set (o2 := padd out _). rewrite Z.sub_diag.
  transitivity (match blocks_from addr ndebug g r k (n - 1024, padd inp 1024, o2) m1 with Ok (_, m') => Ok (tt, m') | Err e => Err e end); [reflexivity|].
  transitivity (process_block addr ndebug g r (padd inp 1024) (n - 1024) o2 m1); [|destruct k8; reflexivity].
  rewrite process_blocks by lia. rewrite (blocks_fuel addr ndebug g r (Z.to_nat (n - 1024)) k) by lia. reflexivity.
Qed.

(** delay() and reset() are those of ratio 8 *)
Theorem C63_above_8_delay r : 8 < r_ratio r -> delay r = delay (as_8 r).
Proof.
  intros Hr. unfold delay. cbn [as_8 r_mode r_ratio impl_x2 impl_x4 impl_x8].
  replace (2 <=? r_ratio r) with true by lia. replace (4 <=? r_ratio r) with true by lia. replace (8 <=? r_ratio r) with true by lia. reflexivity.
Qed.
Theorem C63_above_8_reset {A : arith} addr r (m : mem A) : 8 < r_ratio r -> reset addr r m = reset addr (as_8 r) m.
Proof.
  intros Hr. unfold reset. cbn [as_8 r_mode r_ratio impl_x2 impl_x4 impl_x8].
  replace (2 <=? r_ratio r) with true by lia. replace (4 <=? r_ratio r) with true by lia. replace (8 <=? r_ratio r) with true by lia. reflexivity.
Qed.

(** the wrong place: between 1025 and 2048 samples in one call leave a gap in the output of an upsampler, although
    the output has room for the number of samples the ratio promises *)
Theorem C63_gap {A : arith} plat st (m : mem A) id r8 addr ndebug g ratio inp out b :
  reach plat st m -> st id = Some r8 -> r_mode (o_res r8) = UP -> r_ratio (o_res r8) = 8 -> 8 < ratio -> 1024 * ratio < 2 ^ 32 ->
  let r := Resampler (r_id (o_res r8)) UP ratio (r_prec (o_res r8)) (r_use_sse (o_res r8)) (r_filter (o_res r8)) (impl_x2 (o_res r8)) (impl_x4 (o_res r8)) (impl_x8 (o_res r8)) in
  1024 < len b <= 2048 -> addr_ok addr -> is_user (pb inp) -> is_user (pb out) -> pb inp <> pb out ->
  has m inp (len b) (nthZ b) -> mapped m out (len b * ratio) ->
  Stage.asep addr inp (len b) out (len b * ratio) ->
  (forall t, t = Tmp \/ t = Tmp2 -> Stage.asep addr inp (len b) (Ptr t 0) 4096 /\ Stage.asep addr out (len b * ratio) (Ptr t 0) 4096) ->
  exists m', process_block addr ndebug g r inp (len b) out m = Ok (tt, m') /\
    forall i, 8192 <= i < 1024 * ratio \/ 1024 * ratio + 8 * (len b - 1024) <= i -> m' (pb out) (po out + i) = m (pb out) (po out + i).
Proof.
  intros H E Hm H8 Hr HR r Lb AO IU OU Ne HI MO S1 SK.
  assert (E8 : as_8 r = o_res r8).
  { unfold as_8, r. cbn [r_id r_mode r_prec r_use_sse r_filter impl_x2 impl_x4 impl_x8]. destruct (o_res r8). cbn in *. subst. reflexivity. }
  assert (Ov : r_over plat (o_res r8) = 0) by (unfold r_over, over_read; rewrite Hm; destruct (r_filter (o_res r8)); reflexivity).
  assert (Ro : forall n, r_out (o_res r8) n = n * 8) by (intros n; unfold r_out; rewrite Hm, H8; reflexivity).
  assert (Sz : forall n, size_ok (r_filter (o_res r8)) (r_mode (o_res r8)) (r_ratio (o_res r8)) n) by (intros n; rewrite Hm, H8; destruct (r_filter (o_res r8)); exact I).
  set (b1 := firstn 1024 b). set (b2 := skipn 1024 b).
  assert (L1 : len b1 = 1024) by (unfold b1, len in *; rewrite firstn_length; lia).
  assert (L2 : len b2 = len b - 1024) by (unfold b2, len in *; rewrite skipn_length; lia).
  assert (N1 : forall k, 0 <= k < 1024 -> nthZ b1 k = nthZ b k).
  { intros k Hk. unfold nthZ, b1. rewrite <- (firstn_skipn 1024 b) at 2. rewrite app_nth1; [reflexivity|]. rewrite firstn_length. unfold len in *. lia. }
  assert (N2 : forall k, 0 <= k < len b - 1024 -> nthZ b2 k = nthZ b (1024 + k)).
  { intros k Hk. unfold nthZ, b2. rewrite <- (firstn_skipn 1024 b) at 2. rewrite app_nth2; rewrite firstn_length; unfold len in *; [f_equal; lia | lia]. }
  set (q1 := Call (A := A) addr ndebug (fun _ => g (len b)) inp 1024 out).
  assert (K1 : call_ok plat (o_res r8) m q1 b1).
  { constructor; cbn [q1 c_addr c_n c_input c_output]; rewrite ?L1, ?Ov, ?Ro, ?Z.add_0_r; try assumption.
    - reflexivity.
    - apply Sz.
    - intros k Hk. rewrite N1 by lia. apply HI. lia.
    - intros k Hk. lia.
    - intros k Hk. apply MO. nia.
    - left. left. exact Ne.
    - intros _. left. unfold Stage.asep in *. nia.
    - intros t Ht. destruct (SK t Ht) as [T1 T2]. unfold Stage.asep in *. nia. }
  destruct (reach_call_progress plat st m id r8 q1 b1 H E K1) as (m1 & z1 & E1 & Lz1 & Z1 & F1 & H1). rewrite Ro, L1 in Lz1.
  unfold run_call in E1. cbn [q1 c_addr c_ndebug c_garbage c_input c_n c_output] in E1, F1.
  set (q2 := Call (A := A) addr ndebug g (padd inp 1024) (len b - 1024) (padd out (1024 * ratio))).
  set (st1 := set_obj st id (Some (obj_call r8 q1 b1 z1))) in *.
  assert (Est1 : st1 id = Some (obj_call r8 q1 b1 z1)) by (unfold st1, set_obj; now rewrite Z.eqb_refl).
  assert (K2 : call_ok plat (o_res (obj_call r8 q1 b1 z1)) m1 q2 b2).
  { cbn [obj_call o_res]. constructor; cbn [q2 c_addr c_n c_input c_output pb po padd]; rewrite ?L2, ?Ov, ?Ro, ?Z.add_0_r; try assumption.
    - reflexivity.
    - apply Sz.
    - intros k Hk. cbn [pb po padd]. rewrite F1; [|exact IU|intros [Q _]; apply Ne, Q]. rewrite N2 by lia. rewrite <- HI by lia. f_equal. lia.
    - intros k Hk. lia.
    - intros k Hk. cbn [pb po padd]. rewrite F1; [|exact OU|intros [_ Q]; rewrite Lz1 in Q; cbn [po] in Q; lia]. replace (po out + 1024 * ratio + k) with (po out + (1024 * ratio + k)) by lia. apply MO. nia.
    - left. left. exact Ne.
    - intros _. left. unfold Stage.asep, paddr in *. cbn [pb po padd] in *. nia.
    - intros t Ht. destruct (SK t Ht) as [T1 T2]. unfold Stage.asep, paddr in *. cbn [pb po padd] in *. nia. }
  destruct (reach_call_progress plat st1 m1 id _ q2 b2 H1 Est1 K2) as (m2 & z2 & E2 & Lz2 & Z2 & F2 & H2). cbn [obj_call o_res] in E2, Lz2. rewrite Ro, L2 in Lz2.
  unfold run_call in E2. cbn [q2 c_addr c_ndebug c_garbage c_input c_n c_output] in E2, F2.
  exists m2. split.
  - rewrite C63_above_8_large_blocks by (cbn [r r_ratio]; lia). unfold bind. rewrite E8, E1. cbn [r r_mode r_ratio]. fold r.
    replace (u32 (1024 * ratio)) with (1024 * ratio) by (unfold u32; rewrite Z.mod_small; lia).
    rewrite C63_above_8_small_blocks by (cbn [r r_ratio]; lia). rewrite E8. exact E2.
  - intros i Hi. rewrite F2; [|exact OU|intros [_ Q]; cbn [po padd] in Q; lia]. apply F1; [exact OU|]. intros [_ Q]. lia.
Qed.
Example C63_gap_case plat : exists st (m : mem F32) r8 addr b, reach plat st m /\ st 0 = Some r8 /\ r_mode (o_res r8) = UP /\ r_ratio (o_res r8) = 8 /\
  addr_ok addr /\ len b = 1500 /\ has m (Ptr (User 0) 0) (len b) (nthZ b) /\ mapped m (Ptr (User 1) 0) (len b * 16) /\
  Stage.asep addr (Ptr (User 0) 0) (len b) (Ptr (User 1) 0) (len b * 16) /\
  (forall t, t = Tmp \/ t = Tmp2 -> Stage.asep addr (Ptr (User 0) 0) (len b) (Ptr t 0) 4096 /\ Stage.asep addr (Ptr (User 1) 0) (len b * 16) (Ptr t 0) 4096).
Proof.
  destruct (feed (A := F32) plat UP 8 PREC_96DB true FILTER_FIR 0 []) as (st & m & o & H & E & Er & Ei).
  { split; [unfold ratio_no; auto | intros _; cbn; unfold fir_prec, PREC_96DB; auto]. }
  { constructor. }
  set (b := repeat (f0 : F32) 1500). assert (Lb : len b = 1500) by (unfold len, b; rewrite repeat_length; reflexivity).
  exists st, (prepare b 0 (len b * 16) m), o, (addr_ex 0 (len b)), b. rewrite Lb. split.
  { apply (reach_client plat st m _ H). intros b' i Hu _. unfold prepare. destruct b'; try reflexivity. exfalso. apply Hu. now exists k. }
  split; [exact E|]. rewrite Er. repeat (split; [reflexivity|]). split; [apply addr_ex_ok|]. split; [reflexivity|]. split; [|split; [|split]].
  - intros k Hk. cbn [pb po prepare]. rewrite ?Lb. replace (_ && _) with true by lia. reflexivity.
  - intros k Hk. cbn [pb po prepare]. rewrite ?Lb. replace (_ && _) with true by lia. discriminate.
  - unfold Stage.asep, paddr. cbn [pb po addr_ex]. lia.
  - intros t [->| ->]; unfold Stage.asep, paddr; cbn [pb po addr_ex]; lia.
Qed.

Print Assumptions C63_below_8.
Print Assumptions C63_above_8_construct.
Print Assumptions C63_above_8_small_blocks.
Print Assumptions C63_above_8_large_blocks.
Print Assumptions C63_above_8_delay.
Print Assumptions C63_above_8_reset.
Print Assumptions C63_gap.
