(** * Runs of testmultiperf.cc, testsimple.cc, testdownmulti.cc, testdistort.cc *)
From Coq Require Import ZArith Reals List Lia Bool String ZifyNat ZifyBool.
From Verif Require Import Arith Mem FirModel IirModel Tables ResamplerModel Wp Stage Cascade
  ResamplerProof ResamplerOk Spec SpecOk Client Feed StreamFacts DelayFacts ConfigFacts CallFacts IirCalls OverRead
  AccuracyModel AccuracyProof ExampleProof MultiModel MultiProof ToolsModel.
Import ListNotations.
Open Scope string_scope.
Open Scope Z_scope.
Open Scope m_scope.

(** ** testmultiperf.cc *)
Section Perf.
Context {A : arith} (plat : platform) (addr : blk -> Z) (garbage : Z -> Z -> Z -> Z -> Z -> A) (nassert ndebug : bool).
Implicit Types m : mem A.

(** different arrays have different addresses; [slack] floats behind out *)
Record far_perf (slack : Z) : Prop := {
  fp_ok : addr_ok addr;
  fp_io : asep addr (Ptr in_a 0) 128 (Ptr out_a 0) 1024;
  fp_s : forall t, t = Tmp \/ t = Tmp2 -> asep addr (Ptr in_a 0) 128 (Ptr t 0) 4096 /\ asep addr (Ptr out_a 0) (1024 + slack) (Ptr t 0) 4096 }.

Context (up down : bool) (ratio prec : Z) (sse : bool) (f : rfilter).
Notation U := (built plat 0 UP ratio prec sse f).
Notation D := (built plat 1 DOWN ratio prec sse f).

(** the two objects and the two arrays *)
Definition perf_inv (st : state (A := A)) m : Prop :=
  reach plat st m /\ (exists ou, st 0 = Some ou /\ o_res ou = U) /\ (exists od, st 1 = Some od /\ o_res od = D) /\
  mapped m (Ptr in_a 0) 128 /\ mapped m (Ptr out_a 0) 1024.

Context (HA : far_perf 0) (HV : valid f ratio prec).

Lemma perf_up_ok st m g : perf_inv st m ->
  exists m' st', process_block addr ndebug g U (Ptr in_a 0) 128 (Ptr out_a 0) m = Ok (tt, m') /\ perf_inv st' m' /\
    (forall i, 1024 <= i -> m' out_a i = m out_a i).
Proof.
  intros (H & (ou & Eu & Ru) & (od & Ed & Rd) & Mi & Mo). destruct HA as [A1 A2 A3].
  pose proof HV as [Vr VT]. assert (R1 : ratio = 1 \/ ratio = 2 \/ ratio = 4 \/ ratio = 8) by exact Vr.
  destruct (has_read m (Ptr in_a 0) 128 ltac:(lia) Mi) as (x & Lx & Hx).
  assert (OV : over_read (vector plat f sse) f UP ratio = 0) by (unfold over_read; now destruct f).
  assert (UI : is_user in_a /\ is_user out_a) by (split; eexists; reflexivity). destruct UI as [UI UO].
  set (q := Call (A := A) addr ndebug g (Ptr in_a 0) 128 (Ptr out_a 0)).
  assert (K : call_ok plat (o_res ou) m q x).
  { rewrite Ru. constructor; cbn [q c_addr c_n c_input c_output]; unfold r_out, r_over; cbn [built r_filter r_mode r_ratio r_use_sse out_size]; rewrite ?OV, ?Lx, ?Z.add_0_r.
    - exact A1.
    - reflexivity.
    - unfold size_ok. destruct R1 as [->|[->|[->| ->]]]; try exact I. destruct f; lia.
    - exact UI.
    - exact UO.
    - exact Hx.
    - intros i Hi. lia.
    - intros i Hi. apply Mo. lia.
    - left. left. discriminate.
    - intros _. left. eapply asep_shorter; [exact A2 | lia | lia].
    - intros t Ht. destruct (A3 t Ht) as [B1 B2]. split; [exact B1 | eapply asep_shorter; [exact B2 | lia | lia]]. }
  destruct (reach_call_progress plat st m 0 ou q x H Eu K) as (m' & z & E & Lz & Hz & F & H').
  rewrite Ru in Lz, E. unfold r_out in Lz. cbn [built r_mode r_ratio out_size] in Lz. rewrite Lx in Lz.
  unfold run_call in E. cbn [q c_addr c_ndebug c_garbage c_input c_n c_output] in E, Hz, F.
  exists m', (set_obj st 0 (Some (obj_call ou q x z))). split; [exact E|].
  assert (Fo : forall i, 128 * ratio <= i -> m' out_a i = m out_a i).
  { intros i Hi. apply F; [exact UO|]. intros [_ Q]. cbn [po] in Q. lia. }
  split; [|intros i Hi; apply Fo; lia].
  split; [exact H'|]. split; [|split; [|split]].
  - eexists. split; [reflexivity|]. exact Ru.
  - exists od. split; [exact Ed | exact Rd].
  - intros i Hi. cbn [pb po]. rewrite F; [apply (Mi i Hi) | exact UI |]. intros [Q _]. discriminate.
  - intros i Hi. cbn [pb po]. destruct (Z_lt_dec i (len z)) as [L|L].
    + specialize (Hz i ltac:(lia)). cbn [pb po] in Hz. rewrite Hz. discriminate.
    + rewrite Fo by lia. apply (Mo i Hi).
Qed.

Lemma down_call (st : state (A := A)) m g x (ov := over_read (vector plat f sse) f DOWN ratio) :
  asep addr (Ptr in_a 0) 128 (Ptr out_a 0) 1024 -> (forall t, t = Tmp \/ t = Tmp2 -> asep addr (Ptr in_a 0) 128 (Ptr t 0) 4096 /\ asep addr (Ptr out_a 0) (128 * ratio + ov) (Ptr t 0) 4096) ->
  mapped m (Ptr in_a 0) 128 -> len x = 128 * ratio -> has m (Ptr out_a 0) (len x) (nthZ x) -> mapped m (Ptr out_a (128 * ratio)) ov ->
  forall od, st 1 = Some od -> o_res od = D ->
  call_ok plat (o_res od) m (Call (A := A) addr ndebug g (Ptr out_a 0) (128 * ratio) (Ptr in_a 0)) x.
Proof.
  intros A2 A3 Mi Lx Hx Ms od Ed Rd. pose proof HV as [Vr VT]. assert (R1 : ratio = 1 \/ ratio = 2 \/ ratio = 4 \/ ratio = 8) by exact Vr.
  assert (DV : 128 * ratio / ratio = 128) by (apply Z.div_mul; lia).
  rewrite Rd. constructor; cbn [c_addr c_n c_input c_output]; unfold r_out, r_over; cbn [built r_filter r_mode r_ratio r_use_sse out_size]; fold ov; rewrite ?Lx, ?DV.
  - apply HA.
  - reflexivity.
  - unfold size_ok. destruct R1 as [->|[->|[->| ->]]]; try exact I; destruct f; try reflexivity; split; reflexivity.
  - eexists; reflexivity.
  - eexists; reflexivity.
  - rewrite Lx in Hx. exact Hx.
  - exact Ms.
  - exact Mi.
  - left. left. discriminate.
  - intros _. left. apply asep_sym. eapply asep_shorter; [exact A2 | lia | lia].
  - intros t Ht. destruct (A3 t Ht) as [B1 B2]. split; [exact B2 | exact B1].
Qed.

Lemma perf_down_ok st m g : perf_inv st m -> 128 * ratio + over_read (vector plat f sse) f DOWN ratio <= 1024 ->
  exists m' st', process_block addr ndebug g D (Ptr out_a 0) (128 * ratio) (Ptr in_a 0) m = Ok (tt, m') /\ perf_inv st' m' /\
    (forall i, m' out_a i = m out_a i).
Proof.
  intros (H & (ou & Eu & Ru) & (od & Ed & Rd) & Mi & Mo) Ov. pose proof HA as [A1 A2 A3].
  pose proof HV as [Vr VT]. assert (R1 : ratio = 1 \/ ratio = 2 \/ ratio = 4 \/ ratio = 8) by exact Vr.
  assert (Op : 0 <= over_read (vector plat f sse) f DOWN ratio) by (unfold over_read; destruct f; [destruct (_ && _)|]; lia).
  destruct (has_read m (Ptr out_a 0) (128 * ratio) ltac:(lia)) as (x & Lx & Hx). { intros i Hi. apply Mo. lia. }
  assert (UI : is_user in_a /\ is_user out_a) by (split; eexists; reflexivity). destruct UI as [UI UO].
  pose proof (down_call st m g x A2) as K.
  specialize (K ltac:(intros t Ht; destruct (A3 t Ht) as [B1 B2]; split; [exact B1 | eapply asep_shorter; [exact B2 | lia | lia]]) Mi Lx).
  rewrite Lx in K. specialize (K Hx ltac:(intros i Hi; cbn [pb po]; apply (Mo (128 * ratio + i)); lia) od Ed Rd).
  destruct (reach_call_progress plat st m 1 od _ x H Ed K) as (m' & z & E & Lz & Hz & F & H').
  rewrite Rd in Lz, E. unfold r_out in Lz. cbn [built r_mode r_ratio out_size] in Lz. rewrite Lx in Lz.
  rewrite Z.div_mul in Lz by lia.
  unfold run_call in E. cbn [c_addr c_ndebug c_garbage c_input c_n c_output] in E, Hz, F.
  eexists m', _. split; [exact E|].
  assert (Fo : forall i, m' out_a i = m out_a i).
  { intros i. apply F; [exact UO|]. intros [Q _]. discriminate. }
  split; [|exact Fo].
  split; [exact H'|]. split; [|split; [|split]].
  - exists ou. split; [exact Eu | exact Ru].
  - eexists. split; [reflexivity | exact Rd].
  - intros i Hi. rewrite (Hz i ltac:(lia)). discriminate.
  - intros i Hi. cbn [pb po]. rewrite Fo. apply (Mo i Hi).
Qed.

Lemma u32_size : u32 (PERF_SAMPLES * ratio) = 128 * ratio.
Proof. destruct HV as [Vr _]. unfold ratio_no in Vr. unfold u32, PERF_SAMPLES. apply Z.mod_small. lia. Qed.

Lemma perf_body_ok st m i : perf_inv st m -> (down = true -> 128 * ratio + over_read (vector plat f sse) f DOWN ratio <= 1024) ->
  exists m' st', perf_body addr garbage ndebug up down U D ratio i m = Ok (tt, m') /\ perf_inv st' m'.
Proof.
  intros P HD. unfold perf_body. rewrite u32_size. change PERF_SAMPLES with 128.
  assert (X : exists m1 st1, (if up then process_block addr ndebug (garbage i 0) U (Ptr in_a 0) 128 (Ptr out_a 0) else ret tt) m = Ok (tt, m1) /\ perf_inv st1 m1).
  { destruct up; [|exists m, st; split; [reflexivity | exact P]].
    destruct (perf_up_ok st m (garbage i 0) P) as (m1 & st1 & E1 & P1 & _). exists m1, st1. split; [exact E1 | exact P1]. }
  destruct X as (m1 & st1 & E1 & P1). unfold bind. rewrite E1.
  destruct down; [|exists m1, st1; split; [reflexivity | exact P1]].
  destruct (perf_down_ok st1 m1 (garbage i 1) P1 (HD eq_refl)) as (m2 & st2 & E2 & P2 & _). exists m2, st2. split; [exact E2 | exact P2].
Qed.

(** the first repetition with ratio 8 and vector IIR code *)
Lemma perf_body_err st m i : far_perf 2 -> perf_inv st m -> down = true -> over_read (vector plat f sse) f DOWN ratio = 2 -> ratio = 8 ->
  (forall i, 1024 <= i -> m out_a i = None) ->
  perf_body addr garbage ndebug up down U D ratio i m = Err OobRead.
Proof.
  intros HA2 P DT Ov R8 No. unfold perf_body. rewrite u32_size. change PERF_SAMPLES with 128.
  assert (X : exists m1 st1, (if up then process_block addr ndebug (garbage i 0) U (Ptr in_a 0) 128 (Ptr out_a 0) else ret tt) m = Ok (tt, m1) /\ perf_inv st1 m1 /\ forall i, 1024 <= i -> m1 out_a i = None).
  { destruct up; [|exists m, st; split; [reflexivity | split; [exact P | exact No]]].
    destruct (perf_up_ok st m (garbage i 0) P) as (m1 & st1 & E1 & P1 & F1). exists m1, st1. split; [exact E1 | split; [exact P1|]].
    intros j Hj. rewrite F1 by exact Hj. now apply No. }
  destruct X as (m1 & st1 & E1 & (H & (ou & Eu & Ru) & (od & Ed & Rd) & Mi & Mo) & N1). unfold bind. rewrite E1, DT.
  destruct HA2 as [A1 A2 A3].
  assert (FV : f = FILTER_IIR /\ vector plat FILTER_IIR sse = true).
  { unfold over_read in Ov. destruct f; [|discriminate]. destruct (vector plat FILTER_IIR sse); [split; reflexivity | discriminate]. }
  destruct FV as [Ef Ev].
  set (mx := fun b i => if blk_eqb b out_a && ((i =? 1024) || (i =? 1025)) then Some f0 else m1 b i).
  assert (UI : is_user in_a /\ is_user out_a) by (split; eexists; reflexivity). destruct UI as [UI UO].
  assert (Hx : reach plat st1 mx).
  { apply (reach_client plat st1 m1 mx H). intros b j NU _. unfold mx. destruct (blk_eqb_spec b out_a) as [->|]; [contradiction | reflexivity]. }
  destruct (has_read m1 (Ptr out_a 0) (128 * ratio) ltac:(lia)) as (x & Lx & Hh). { intros j Hj. apply Mo. lia. }
  set (q := Call (A := A) addr ndebug (garbage i 1) (Ptr out_a 0) (128 * ratio) (Ptr in_a 0)).
  assert (K : call_ok plat (o_res od) mx q x).
  { apply (down_call st1); rewrite ?Ov, ?Lx.
    - exact A2.
    - intros t Ht. destruct (A3 t Ht) as [B1 B2]. split; [exact B1|]. rewrite R8. exact B2.
    - intros k Hk. cbn [pb po]. unfold mx. cbn [blk_eqb in_a out_a Z.eqb Pos.eqb andb]. apply (Mi k Hk).
    - reflexivity.
    - intros k Hk. cbn [pb po]. unfold mx. rewrite blk_eqb_refl. cbn [andb]. replace ((0 + k =? 1024) || (0 + k =? 1025)) with false by lia. apply (Hh k Hk).
    - intros k Hk. cbn [pb po]. unfold mx. rewrite blk_eqb_refl. cbn [andb]. replace ((128 * ratio + k =? 1024) || (128 * ratio + k =? 1025)) with true by lia. discriminate.
    - exact Ed.
    - exact Rd. }
  rewrite Rd in K. pose proof (down_over_read_all plat st1 mx 1 od q x Hx Ed) as X. rewrite Rd in X. cbn [built r_filter r_ratio r_mode r_use_sse] in X.
  specialize (X Ef ltac:(lia) eq_refl Ev K ltac:(lia) m1). unfold run_call in X. cbn [q c_addr c_ndebug c_garbage c_input c_n c_output] in X.
  apply X.
  - intros b j NI. unfold mx. destruct (blk_eqb_spec b out_a) as [->|]; [|reflexivity]. cbn [andb].
    destruct ((j =? 1024) || (j =? 1025)) eqn:C; [|reflexivity]. exfalso. apply NI. split; [reflexivity|]. cbn [padd po]. lia.
  - intros Q. apply (Q 0 ltac:(lia)). cbn [padd pb po]. apply N1. lia.
Qed.
End Perf.

Section PerfRun.
Context {A : arith} (plat : platform) (addr : blk -> Z) (garbage : Z -> Z -> Z -> Z -> Z -> A) (nassert ndebug : bool).
Implicit Types m : mem A.
Context (up down : bool) (ratio prec : Z) (sse : bool) (filter : rfilter) (count : Z).
Notation U := (built plat 0 UP ratio prec sse filter).
Notation D := (built plat 1 DOWN ratio prec sse filter).
Notation run_it := (perf_run plat addr garbage nassert ndebug up down ratio prec sse filter count).

Lemma assert_true b : (nassert = true \/ b = true) -> MultiModel.assert_ (A := A) nassert b = ret tt.
Proof. intros Hb. unfold MultiModel.assert_, require. destruct nassert; [reflexivity|]. destruct b; [reflexivity|]. destruct Hb; discriminate. Qed.

(** up to the loop *)
Lemma perf_start m : valid filter ratio prec ->
  exists m1 st, perf_inv plat ratio prec sse filter st m1 /\ (forall i, 1024 <= i -> m1 out_a i = None) /\
    run_it m =
    (for_up (Z.to_nat count) 0 (fun i _ => perf_body addr garbage ndebug up down U D ratio i) tt ;;;
      free out_a ;;; free in_a ;;; ret 0) m1.
Proof.
  intros HV. destruct HV as [Vr VT]. assert (R1 : ratio = 1 \/ ratio = 2 \/ ratio = 4 \/ ratio = 8) by exact Vr.
  assert (UR : u32 ratio = ratio) by (unfold u32; apply Z.mod_small; lia).
  destruct (reach_new_progress plat _ m 0 UP ratio prec sse filter (reach_init plat m) eq_refl Vr VT) as (m1 & E1 & F1 & H1). cbn zeta in *.
  destruct (reach_new_progress plat _ m1 1 DOWN ratio prec sse filter H1 eq_refl Vr VT) as (m2 & E2 & F2 & H2). cbn zeta in *.
  set (m3 := fun b i => if blk_eqb b out_a then (if (0 <=? i) && (i <? 1024) then Some f0 else None) else
    if blk_eqb b in_a then (if (0 <=? i) && (i <? 128) then Some f0 else None) else m2 b i : option A).
  eexists m3, _. split; [split; [|split; [|split; [|split]]]|split].
  - apply (reach_client plat _ m2 m3 H2). intros b i NU _. unfold m3.
    destruct (blk_eqb_spec b out_a) as [->|]; [exfalso; apply NU; eexists; reflexivity|]. destruct (blk_eqb_spec b in_a) as [->|]; [exfalso; apply NU; eexists; reflexivity | reflexivity].
  - eexists. split; reflexivity.
  - eexists. split; reflexivity.
  - intros i Hi. cbn [pb po]. unfold m3. cbn [blk_eqb in_a out_a Z.eqb]. replace ((0 <=? 0 + i) && (0 + i <? 128)) with true by lia. discriminate.
  - intros i Hi. cbn [pb po]. unfold m3. rewrite blk_eqb_refl. replace ((0 <=? 0 + i) && (0 + i <? 1024)) with true by lia. discriminate.
  - intros i Hi. unfold m3. rewrite blk_eqb_refl. replace ((0 <=? i) && (i <? 1024)) with false by lia. reflexivity.
  - unfold perf_run. rewrite UR, assert_true by (right; unfold MAX_RATIO; lia).
    unfold bind at 1. rewrite E1. unfold bind at 1. rewrite E2. reflexivity.
Qed.

Theorem perf_run_ok m : far_perf addr 0 -> valid filter ratio prec ->
  (vector plat filter sse = true -> filter = FILTER_IIR -> ratio = 8 -> down = false) ->
  exists m', run_it m = Ok (0, m').
Proof.
  intros HA HV HR. destruct (perf_start m HV) as (m1 & st & P & _ & ->).
  assert (R : runs (for_up (Z.to_nat count) 0 (fun i _ => perf_body addr garbage ndebug up down U D ratio i) tt) m1
    (fun _ m' => exists st, perf_inv plat ratio prec sse filter st m')).
  { apply runs_for with (Inv := fun _ _ m' => exists st, perf_inv plat ratio prec sse filter st m').
    - now exists st.
    - intros i u m' Hi (st' & P').
      destruct (perf_body_ok plat addr garbage ndebug up down ratio prec sse filter HA HV st' m' i P') as (m2 & st2 & E2 & P2).
      + intros Hd. pose proof HV as [Vr _]. unfold ratio_no in Vr. unfold over_read. destruct filter eqn:Ef; [|lia].
        destruct (vector plat FILTER_IIR sse) eqn:Ev; cbn [andb]; [|lia].
        destruct (Z.eq_dec ratio 8) as [E8|N8]; [specialize (HR eq_refl eq_refl E8); congruence|]. destruct (1 <? ratio); lia.
      + unfold runs. rewrite E2. exists st2. exact P2.
    - intros u m' Hx. exact Hx. }
  destruct (runs_inv _ _ _ R) as ([] & m' & E & _). unfold bind. rewrite E. eexists. reflexivity.
Qed.

Theorem perf_run_err m : far_perf addr 2 -> valid filter ratio prec ->
  vector plat filter sse = true -> filter = FILTER_IIR -> ratio = 8 -> down = true -> 1 <= count ->
  run_it m = Err OobRead.
Proof.
  intros HA HV Ev Ef R8 Dt C1. destruct (perf_start m HV) as (m1 & st & P & No & ->).
  destruct (Z.to_nat count) as [|n] eqn:En; [lia|]. cbn [for_up]. unfold bind.
  rewrite (perf_body_err plat addr garbage ndebug up down ratio prec sse filter) with (st := st); try assumption; [reflexivity| |].
  - destruct HA as [B1 B2 B3]. constructor; [exact B1 | exact B2|]. intros t Ht. destruct (B3 t Ht) as [B4 B5]. split; [exact B4|]. eapply asep_shorter; [exact B5 | lia | lia].
  - unfold over_read. rewrite Ev, Ef, R8. reflexivity.
Qed.

(** a filter without tables *)
Theorem perf_run_null m : 2 <= ratio <= 8 -> ~ has_tables filter prec -> up || down = true -> 1 <= count ->
  run_it m = Err NullDeref.
Proof.
  intros R2 HT Hud C1.
  assert (UR : u32 ratio = ratio) by (unfold u32; apply Z.mod_small; lia).
  destruct (construct_any plat 0 UP ratio prec sse filter m) as (m1 & E1 & _).
  destruct (construct_any plat 1 DOWN ratio prec sse filter m1) as (m2 & E2 & _).
  unfold perf_run. rewrite UR, assert_true by (right; unfold MAX_RATIO; lia).
  unfold bind at 1. rewrite E1. unfold bind at 1. rewrite E2.
  unfold bind at 1, ret at 1. unfold bind at 1, alloc at 1. unfold bind at 1, alloc at 1. cbn [fst].
  destruct (Z.to_nat count) as [|n] eqn:En; [lia|]. cbn [for_up]. apply bind_err, bind_err. unfold perf_body.
  assert (X : forall id md g i n o, 1 <= n -> forall mm, process_block (A := A) addr ndebug g (built plat id md ratio prec sse filter) i n o mm = Err NullDeref).
  { intros id md g i k o Hk mm. exact (no_tables_null plat id md ratio prec sse filter (Call addr ndebug g i k o) mm ltac:(lia) HT Hk). }
  destruct up.
  - apply bind_err. apply X. unfold PERF_SAMPLES. lia.
  - cbn [orb] in Hud. rewrite Hud. unfold bind, ret. apply X. unfold u32, PERF_SAMPLES. rewrite Z.mod_small; lia.
Qed.
End PerfRun.

(** the arguments *)
Lemma perf_args {A : arith} plat addr (garbage : Z -> Z -> Z -> Z -> Z -> A) nassert ndebug atoi count a1 a2 a3 a4 :
  (nassert = true \/ (a1 = "up" \/ a1 = "down" \/ a1 = "over") /\ (a4 = "fir" \/ a4 = "iir" \/ a4 = "iir-sse")) ->
  forall m, perf_main plat addr garbage nassert ndebug atoi count [a1; a2; a3; a4] m =
    perf_run plat addr garbage nassert ndebug (String.eqb a1 "up" || String.eqb a1 "over") (String.eqb a1 "down" || String.eqb a1 "over")
      (atoi a2) (find_precision_for_bits (u32 (atoi a3))) (String.eqb a4 "fir" || String.eqb a4 "iir-sse")
      (if String.eqb a4 "fir" then FILTER_FIR else FILTER_IIR) count m.
Proof.
  intros HS m. unfold perf_main. cbv zeta. unfold bind, MultiModel.assert_, require.
  destruct nassert; [reflexivity|]. destruct HS as [HS|[[->|[->| ->]] [->|[->| ->]]]]; try discriminate; reflexivity.
Qed.
