(** * tests/testmultidelay.cc with the vector code of the IIR downsamplers: reading behind the input *)
From Coq Require Import ZArith Reals List Lia Bool ZifyNat ZifyBool.
From Verif Require Import Arith ArithR Mem FirModel IirModel Tables ResamplerModel Wp Stage Cascade
  ResamplerProof ResamplerOk Spec SpecOk Client Feed StreamFacts DelayFacts CallFacts IirCalls ConfigFacts AccuracyModel MultiModel MultiProof.
Import ListNotations.
Open Scope Z_scope.

Lemma run_over_read {A : arith} plat (to_float : R -> A) to_double addr garbage nassert ndebug idu idd t verbose st (m : mem A) :
  far addr -> (forall s, s = Tmp \/ s = Tmp2 -> asep addr (Ptr in_a 0) 1026 (Ptr s 0) 4096) -> idu <> idd ->
  t_up t = false -> t_down t = true -> t_fir t = false -> t_iir_sse t = true -> t_ratio t = 2 -> iir_prec (t_prec t) -> has_sse plat = true ->
  reach plat st m -> st idu = None -> st idd = None ->
  run plat to_float to_double addr garbage nassert ndebug idu idd t verbose m = Err OobRead.
Proof.
  intros HA HT Ne TU TD TF TS R2 HP SSE H Nu Nd.
  assert (F : t_filter t = FILTER_IIR) by (unfold t_filter; now rewrite TF). assert (S : t_sse t = true) by (unfold t_sse; rewrite TS; apply orb_true_r).
  assert (Vr : ratio_no 2) by (unfold ratio_no; auto). assert (VT : 2 <= 2 -> has_tables FILTER_IIR (t_prec t)) by (intros _; exact HP).
  assert (AS : forall b, b = true -> assert_ (A := A) nassert b = ret tt).
  { intros b ->. unfold assert_, require. destruct nassert; reflexivity. }
  destruct (reach_new_progress plat st m idu UP 2 (t_prec t) true FILTER_IIR H Nu Vr VT) as (m1 & E1 & F1 & H1). cbn zeta in *.
  destruct (reach_new_progress plat _ m1 idd DOWN 2 (t_prec t) true FILTER_IIR H1) as (m2 & E2 & F2 & H2); [|exact Vr|exact VT|].
  { unfold set_obj. destruct (Z.eqb_spec idd idu); [congruence | exact Nd]. }
  cbn zeta in *.
  set (m3 := fun b i => if blk_eqb b out_a then (if (0 <=? i) && (i <? 8192) then Some f0 else None) else
    if blk_eqb b in_a then (if (0 <=? i) && (i <? 1024) then Some f0 else None) else m2 b i).
  destruct (fill_in to_float to_double garbage m3) as (m4 & E4 & Hin & F4).
  { intros i Hi. cbn [pb po]. unfold m3. cbn [blk_eqb in_a out_a Z.eqb]. replace ((0 <=? 0 + i) && (0 + i <? 1024)) with true by (clear - Hi; lia). discriminate. }
  set (U := built plat idu UP 2 (t_prec t) true FILTER_IIR) in *. set (D := built plat idd DOWN 2 (t_prec t) true FILTER_IIR) in *.
  set (st2 := set_obj (set_obj st idu (Some (Obj U [] []))) idd (Some (Obj D [] []))) in *.
  (* the memory with the two floats *)
  set (mx := fun b i => if blk_eqb b in_a && ((i =? 1024) || (i =? 1025)) then Some f0 else m4 b i).
  assert (Hx : reach plat st2 mx).
  { apply (reach_client plat st2 m2 mx H2). intros b i NU _. unfold mx. destruct (blk_eqb_spec b in_a) as [->|Nb]; [exfalso; apply NU; eexists; reflexivity|]. cbn [andb].
    rewrite F4 by exact Nb. unfold m3. destruct (blk_eqb_spec b out_a) as [->|]; [exfalso; apply NU; eexists; reflexivity|]. destruct (blk_eqb_spec b in_a); [contradiction | reflexivity]. }
  assert (Ed : st2 idd = Some (Obj D [] [])) by (unfold st2, set_obj; now rewrite Z.eqb_refl).
  pose proof (len_signal (A := A) to_float) as LS. set (b := signal to_float) in *. destruct HA as [A1 A2 A3 A4 A5].
  assert (Vec : vector plat FILTER_IIR true = true) by (unfold vector; now rewrite SSE).
  set (q := Call (A := A) addr ndebug (garbage 0) (Ptr in_a 0) 1024 (Ptr out_a 0)).
  assert (N4 : forall i, 1024 <= i -> m4 in_a i = None).
  { intros i Hi.
    assert (G : forall k j (mm : mem A), for_up (Z.to_nat k) j (fun i _ => store (Ptr in_a i) (to_float (sin (IZR i * freq / rate * 2 * PI)))) tt mm = Ok (tt, m4) -> mm in_a i = None -> m4 in_a i = None).
    { intros k. induction (Z.to_nat k) as [|n IH]; intros j mm; cbn [for_up]; unfold bind, ret.
      - intros Q. injection Q as ->. auto.
      - unfold store at 1. cbn [pb po]. destruct (mm in_a j) eqn:Ej; [|discriminate]. intros Q Hm. apply (IH _ _ Q). unfold upd. cbn [pb po].
        destruct (blk_eqb in_a in_a && (i =? j)) eqn:B; [|exact Hm]. apply andb_prop in B. destruct B as [_ B]. apply Z.eqb_eq in B. subst. congruence. }
    apply (G SAMPLES 0 m3 E4). unfold m3. cbn [blk_eqb in_a out_a Z.eqb]. replace (i <? 1024) with false by (clear - Hi; lia). now rewrite andb_false_r. }
  assert (K : call_ok plat D mx q b).
  { constructor; cbn [q c_addr c_n c_input c_output]; unfold r_out, r_over; cbn [D built r_filter r_mode r_ratio r_use_sse]; rewrite ?LS; try rewrite Vec; cbn [over_read andb Z.ltb Z.compare out_size].
    - exact A1.
    - reflexivity.
    - unfold size_ok. split; [clear; lia | reflexivity].
    - eexists; reflexivity.
    - eexists; reflexivity.
    - intros k Hk. cbn [pb po]. unfold mx. rewrite blk_eqb_refl. replace ((0 + k =? 1024) || (0 + k =? 1025)) with false by (clear - Hk; lia). cbn [andb]. apply (Hin k Hk).
    - intros k Hk. cbn [padd pb po]. unfold mx. rewrite blk_eqb_refl. change (if 1 <? 2 then 2 else 0) with 2 in Hk. replace ((0 + 1024 + k =? 1024) || (0 + 1024 + k =? 1025)) with true by (clear - Hk; lia). discriminate.
    - intros k Hk. cbn [pb po]. unfold mx. cbn [blk_eqb in_a out_a Z.eqb andb]. rewrite F4 by discriminate. unfold m3. unfold out_a. rewrite blk_eqb_refl. change (1024 / 2) with 512 in Hk.
      replace ((0 <=? 0 + k) && (0 + k <? 8192)) with true by (clear - Hk; lia). discriminate.
    - left. left. cbn. discriminate.
    - intros _. left. eapply asep_shorter; [exact A2 | clear; lia | change (1024 / 2) with 512; clear; lia].
    - intros s Hs. split; [eapply asep_shorter; [exact (HT s Hs) | change (if 1 <? 2 then 2 else 0) with 2; clear; lia | clear; lia]|]. destruct (A5 s Hs) as (_ & B & _). eapply asep_shorter; [exact B | change (1024 / 2) with 512; clear; lia | clear; lia]. }
  assert (X : run_call D q m4 = Err OobRead).
  { apply (down_over_read plat st2 mx idd (Obj D [] []) q b Hx Ed); try reflexivity; try assumption.
    - intros b' i NI. unfold mx. destruct (blk_eqb_spec b' in_a) as [->|]; [|reflexivity]. cbn [andb].
      destruct ((i =? 1024) || (i =? 1025)) eqn:B; [|reflexivity]. exfalso. apply NI. unfold inr. cbn [q c_input padd pb po]. rewrite LS. split; [reflexivity | lia].
    - intros Q. cbn [q c_input] in Q. rewrite LS in Q. apply (Q 0 ltac:(lia)). cbn [padd pb po]. apply N4. lia. }
  unfold run_call in X. cbn [q c_addr c_ndebug c_garbage c_input c_n c_output] in X.
  unfold run, bind. rewrite R2, F, S. change (u32 2) with 2. rewrite !AS; [|reflexivity| rewrite TS; apply orb_true_r | rewrite TD, orb_true_r; reflexivity]. unfold ret at 1 2.
  rewrite E1, E2. unfold ret at 1. unfold alloc at 1 2. cbv iota beta.
  match goal with |- context [for_up _ _ _ _ ?x] => change x with m3 end. rewrite E4. cbn [fst snd]. unfold resample_once. rewrite TU, TD, R2. unfold bind. cbn [Z.eqb ret]. unfold ret at 1.
  change SAMPLES with 1024. rewrite X. reflexivity.
Qed.

