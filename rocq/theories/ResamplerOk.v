(** * Resampler2: construction, process_block and reset *)
From Coq Require Import ZArith List Lia Bool ZifyNat ZifyBool.
From Verif Require Import Arith Mem FirModel IirModel Tables ResamplerModel Wp FirKernel Stage
  FirUpStage FirDownStage IirProof IirStage IirSseStage Cascade ResamplerProof.
Import ListNotations.
Open Scope Z_scope.
Open Scope m_scope.

Section Process.
Context {A : arith} (addr : blk -> Z) (ndebug : bool).
Implicit Types m : mem A.

Lemma Eres_sub r p n a k : Eres addr r p n -> 0 <= a -> 0 <= k -> a + k <= n -> Eres addr r (padd p a) k.
Proof.
  intros [U Q] Ha Hk Hn. split; [exact U|]. intros H2. destruct (Q H2) as [Q1 Q2].
  split; [clear Q2 | clear Q1]; unfold asep, paddr in *; cbn [padd pb po] in *; lia.
Qed.

Lemma user_not_pr r b : is_user b -> ~ pr_res r b.
Proof. intros [k ->] [(s & _ & H)|[H|[H|H]]]; discriminate. Qed.

Theorem process_block_ok (g : Z -> Z -> Z -> A) r (c : Z -> Z -> A) : addr_ok addr -> good r ->
  proc_ok addr (process_block addr ndebug g r) urv (Eres addr r) (pr_res r) (fun _ => True)
    (res_S r c) (res_okn r) (res_outn r) (res_slack r) (res_ip r).
Proof.
  intros AO G. pose proof G as (Hr & G2 & G4 & G8).
  destruct (Z.eq_dec (r_ratio r) 1) as [E1|N1]; [|destruct (Z.eq_dec (r_ratio r) 2) as [E2|N2]].
  - (* ratio 1 *)
    intros m l yl b input output St _ _ Ei Eo Hi _ Mo [D|[(_ & Q & _) _]] _; [|lia].
    assert (Eon : res_outn r (len b) = len b).
    { unfold res_outn. rewrite E1. destruct (r_mode r); [lia | apply Z.div_1_r]. }
    rewrite Eon in *. assert (Esl : res_slack r = 0) by (unfold res_slack; rewrite E1; destruct (r_mode r); reflexivity).
    rewrite Esl, Z.add_0_r in D. unfold res_S in *. rewrite E1 in *. cbn [Z.eqb Pos.eqb] in *.
    unfold process_block. rewrite E1. cbn [Z.eqb Pos.eqb].
    eapply runs_mono; [apply copy_fwd_runs; eassumption|].
    intros [] m' [Hy F]. split; [reflexivity|]. exists b. split; [reflexivity|].
    split; [congruence|]. split; [exact Hy|]. intros b' i _ Hn. apply F, Hn.
  - (* ratio 2 *)
    destruct (G2 ltac:(lia)) as (i & Ei & T & M & W).
    assert (P := impl_proc addr ndebug (g 0) i (c 2) W (addr_ok_impl addr i AO)).
    assert (Esl : res_slack r = impl_slack i).
    { unfold res_slack. rewrite E2, Ei, <- M. cbn. destruct (impl_mode i) eqn:Emi; [symmetry; apply impl_slack_up, Emi | reflexivity]. }
    rewrite Esl. unfold res_S, res_okn. rewrite E2, Ei. cbn [Z.eqb Pos.eqb oS].
    intros m l yl b input output St Pm On Ein Eo Hi Ms Mo D As.
    assert (Eon : res_outn r (len b) = impl_outn i (len b)).
    { unfold res_outn, impl_outn. rewrite E2, M. destruct (r_mode r); lia. }
    rewrite Eon in *. unfold process_block. rewrite E2. cbn [Z.eqb Pos.eqb]. rewrite Ei.
    clear P. assert (P := impl_proc addr ndebug (g (len b)) i (c 2) W (addr_ok_impl addr i AO)).
    assert (U : forall p n, Eres addr r p n -> Edata p n).
    { intros p n [[k H] _]. unfold Edata. rewrite H. exact I. }
    assert (Hip : res_ip r -> impl_ip i) by (intros (_ & _ & Q); specialize (Q E2); rewrite Ei in Q; exact Q).
    assert (D' : disj input (len b + impl_slack i) output (impl_outn i (len b)) \/ impl_ip i /\ over input output) by tauto.
    assert (As' : 0 < len b -> asep addr input (len b) output (impl_outn i (len b)) \/ impl_ip i /\ over input output) by tauto.
    specialize (P m l yl b input output St Pm On (U _ _ Ein) (U _ _ Eo) Hi Ms Mo D' As').
    eapply runs_mono; [exact P|]. intros v m' (-> & y & Ly & S' & Hy & F). split; [reflexivity|].
    exists y. split; [exact Ly|]. split; [exact S'|]. split; [exact Hy|].
    intros b' k Hp Hn. apply F; [|exact Hn]. intros Q. apply Hp. exact (priv_pr r 2 i b' ltac:(lia) T Q).
  - (* ratio 4 and 8 *)
    set (q := match r_mode r with UP => 1 | DOWN => r_ratio r end).
    assert (Hq : q = 1 \/ q = 4 \/ q = 8) by (unfold q; destruct (r_mode r); lia).
    assert (Hq' : r_mode r = DOWN -> q = r_ratio r) by (unfold q; intros ->; reflexivity).
    eapply proc_ok_ext.
    + apply chunks_ok with (chunk := fun n => cascade_chunk addr ndebug (g n) r) (q := q) (okc := chunk_okn r) (ip := res_ip r) (E := Eres addr r) (pr := pr_res r).
      * intros n0. eapply proc_ok_ext; [apply chunk_ok; [exact AO | exact G | lia] | try (intros; repeat split; auto; fail)..]; auto.
      * intros k Hk Hm. split; [exact Hk|]. intros Em. rewrite <- (Hq' Em). exact Hm.
      * lia.
      * destruct Hq as [->|[->| ->]]; reflexivity.
      * unfold res_outn. destruct (r_mode r); [reflexivity | apply Z.div_0_l; lia].
      * intros k Hk. unfold res_outn. destruct (r_mode r); [nia | apply Z.div_pos; lia].
      * intros a b Ha Hb Hma Hmb. unfold res_outn. destruct (r_mode r); [lia|].
        rewrite (Hq' eq_refl) in Hma.
        assert (Ea : a = (a / r_ratio r) * r_ratio r) by (pose proof (Z.div_mod a (r_ratio r)); lia).
        rewrite Ea at 1. rewrite Z.add_comm, Z.div_add by lia. lia.
      * intros p n a k. apply Eres_sub.
      * intros p n [U _]. apply user_not_pr, U.
      * unfold res_slack, oslack.
        destruct (r_mode r); [lia|]. replace (r_ratio r =? 1) with false by lia. replace (r_ratio r =? 2) with false by lia.
        destruct (r_ratio r =? 4); [destruct (impl_x4 r) | destruct (impl_x8 r)]; try lia; apply impl_slack_pos.
      * intros (Em & _) k Hk. unfold res_outn. rewrite Em. apply Z.div_le_upper_bound; nia.
    + auto.
    + intros n Hn On. unfold res_okn in On. replace (r_ratio r =? 1) with false in On by lia.
      replace (r_ratio r =? 2) with false in On by lia. split; [|split; reflexivity].
      unfold q. destruct (r_mode r); [apply Z.mod_1_r | exact On].
    + intros input n output m _ _. unfold process_block, chunks.
      replace (r_ratio r =? 1) with false by lia. replace (r_ratio r =? 2) with false by lia. reflexivity.
    + auto.
    + auto.
    + auto.
Qed.

End Process.

Section States.
Context {A : arith}.
Implicit Types m : mem A.

Definition oI (oi : option impl) (c : Z -> A) m : Prop := exists l y, oS oi c m l y.

(** the state, stage by stage *)
Lemma res_S_stages r c m l y : good r -> res_S r c m l y ->
  (2 <= r_ratio r -> oI (impl_x2 r) (c 2) m) /\ (4 <= r_ratio r -> oI (impl_x4 r) (c 4) m) /\
  (8 <= r_ratio r -> oI (impl_x8 r) (c 8) m).
Proof.
  intros (Hr & _). unfold res_S, oI.
  destruct (Z.eqb_spec (r_ratio r) 1); [intros _; repeat split; lia|].
  destruct (Z.eqb_spec (r_ratio r) 2); [intros H; repeat split; intros; try lia; eauto|].
  destruct (r_mode r), (Z.eqb_spec (r_ratio r) 4).
  - intros (z & H1 & H2). repeat split; intros; try lia; eauto.
  - intros (z & (w & H0 & H1) & H2). repeat split; intros; try lia; eauto.
  - intros (z & H1 & H2). repeat split; intros; try lia; eauto.
  - intros (z & (w & H0 & H1) & H2). repeat split; intros; try lia; eauto.
Qed.

Lemma stages_res_S r c m :
  (2 <= r_ratio r -> oS (impl_x2 r) (c 2) m [] []) -> (4 <= r_ratio r -> oS (impl_x4 r) (c 4) m [] []) ->
  (8 <= r_ratio r -> oS (impl_x8 r) (c 8) m [] []) ->
  (r_ratio r = 1 \/ r_ratio r = 2 \/ r_ratio r = 4 \/ r_ratio r = 8) -> res_S r c m [] [].
Proof.
  intros H2 H4 H8 Hr. unfold res_S.
  destruct (Z.eqb_spec (r_ratio r) 1); [reflexivity|].
  destruct (Z.eqb_spec (r_ratio r) 2); [apply H2; lia|].
  specialize (H2 ltac:(lia)). specialize (H4 ltac:(lia)).
  destruct (r_mode r), (Z.eqb_spec (r_ratio r) 4); try specialize (H8 ltac:(lia)).
  - exists []; auto.
  - exists []; split; [exists []|]; auto.
  - exists []; auto.
  - exists []; split; [exists []|]; auto.
Qed.

Lemma oS_frame r s s' oi c m m' l y : stage_good r s oi -> s <> s' ->
  (forall b k, tag_of b <> Some (16 * r_id r + s') -> m' b k = m b k) -> oS oi c m l y -> oS oi c m' l y.
Proof.
  intros (i & -> & T & _) Hs F H. eapply impl_owned; [|exact H].
  intros b k Hb. apply F. rewrite Hb, T. intros E. apply Hs.
  assert (16 * r_id r + s = 16 * r_id r + s') by congruence. lia.
Qed.

End States.

Section Reset.
Context {A : arith} (addr : blk -> Z).
Implicit Types m : mem A.

Lemma reset_stage r s oi (c : Z -> A) m l y :
  addr_ok addr -> stage_good r s oi -> oS oi c m l y ->
  runs (i <- deref oi ;; impl_reset addr i) m (fun _ m' =>
    oS oi c m' [] [] /\ (forall b k, tag_of b <> Some (16 * r_id r + s) -> m' b k = m b k)).
Proof.
  intros AO (i & -> & T & _ & W) [I _]. cbn [deref oS] in *.
  eapply runs_mono; [apply (impl_reset_runs addr i c m l W (addr_ok_impl addr i AO) I)|].
  intros u m' [I' F]. split; [|rewrite <- T; exact F]. split; [exact I' | apply impl_rel_nil].
Qed.

Theorem reset_ok r (c : Z -> Z -> A) m l y : addr_ok addr -> good r -> res_S r c m l y ->
  runs (reset addr r) m (fun _ m' =>
    res_S r c m' [] [] /\ (forall b k, ~ own (r_id r) b -> m' b k = m b k)).
Proof.
  intros AO G St. destruct (res_S_stages r c m l y G St) as (I2 & I4 & I8).
  pose proof G as (Hr & G2 & G4 & G8). unfold reset.
  assert (Fr : forall s m m', 0 <= s < 16 ->
    (forall b k, tag_of b <> Some (16 * r_id r + s) -> m' b k = m b k) ->
    forall b k, ~ own (r_id r) b -> m' b k = m b k).
  { intros s m0 m' Hs F b k Hb. apply F. intros E. apply Hb. exists s. auto. }
  apply runs_bind.
  apply runs_mono with (P := fun _ m1 => (2 <= r_ratio r -> oS (impl_x2 r) (c 2) m1 [] []) /\
    (4 <= r_ratio r -> oI (impl_x4 r) (c 4) m1) /\ (8 <= r_ratio r -> oI (impl_x8 r) (c 8) m1) /\
    (forall b k, ~ own (r_id r) b -> m1 b k = m b k)).
  { destruct (Z.leb_spec 2 (r_ratio r)).
    - destruct (I2 ltac:(lia)) as (l2 & y2 & S2).
      eapply runs_mono; [eapply reset_stage; [exact AO | apply G2; lia | exact S2]|].
      intros _ m1 [S F]. split; [auto|]. split; [|split].
      + intros H4. destruct (I4 H4) as (l4 & y4 & S4). exists l4, y4.
        eapply oS_frame; [apply (G4 H4) | | exact F | exact S4]. lia.
      + intros H8. destruct (I8 H8) as (l8 & y8 & S8). exists l8, y8.
        eapply oS_frame; [apply (G8 H8) | | exact F | exact S8]. lia.
      + apply (Fr 2); [lia | exact F].
    - apply runs_ret. repeat split; intros; (lia || auto). }
  intros _ m1 (S2 & J4 & J8 & F1). apply runs_bind.
  apply runs_mono with (P := fun _ m1 => (2 <= r_ratio r -> oS (impl_x2 r) (c 2) m1 [] []) /\
    (4 <= r_ratio r -> oS (impl_x4 r) (c 4) m1 [] []) /\ (8 <= r_ratio r -> oI (impl_x8 r) (c 8) m1) /\
    (forall b k, ~ own (r_id r) b -> m1 b k = m b k)).
  { destruct (Z.leb_spec 4 (r_ratio r)).
    - destruct (J4 ltac:(lia)) as (l2 & y2 & S4).
      eapply runs_mono; [eapply reset_stage; [exact AO | apply G4; lia | exact S4]|].
      intros _ m2 [S F]. split; [|split; [|split]].
      + intros H2. eapply oS_frame; [apply (G2 H2) | | exact F | exact (S2 H2)]. lia.
      + auto.
      + intros H8. destruct (J8 H8) as (l8 & y8 & S8). exists l8, y8.
        eapply oS_frame; [apply (G8 H8) | | exact F | exact S8]. lia.
      + intros b k Hb. rewrite <- F1 by exact Hb. apply (Fr 4 m1 m2); [lia | exact F | exact Hb].
    - apply runs_ret. split; [exact S2|]. repeat split; intros; (lia || auto). }
  intros _ m2 (S2' & S4' & J8' & F2).
  destruct (Z.leb_spec 8 (r_ratio r)).
  - destruct (J8' ltac:(lia)) as (l2 & y2 & S8).
    eapply runs_mono; [eapply reset_stage; [exact AO | apply G8; lia | exact S8]|].
    intros _ m3 [S F]. split.
    + apply stages_res_S; auto.
      * intros H2. eapply oS_frame; [apply (G2 H2) | | exact F | exact (S2' H2)]. lia.
      * intros H4. eapply oS_frame; [apply (G4 H4) | | exact F | exact (S4' H4)]. lia.
    + intros b k Hb. rewrite <- F2 by exact Hb. apply (Fr 8 m2 m3); [lia | exact F | exact Hb].
  - apply runs_ret. split; [|exact F2]. apply stages_res_S; auto. intros; lia.
Qed.
End Reset.

(** ** Construction *)
Definition fir_prec (p : Z) : Prop := p = 1 \/ p = 8 \/ p = 12 \/ p = 16 \/ p = 20 \/ p = 24.
Definition iir_prec (p : Z) : Prop := p = 8 \/ p = 12 \/ p = 16 \/ p = 20 \/ p = 24.
Definition stage_no (s : Z) : Prop := s = 2 \/ s = 4 \/ s = 8.
Definition ratio_no (s : Z) : Prop := s = 1 \/ s = 2 \/ s = 4 \/ s = 8.

(** configurations with a coefficient table *)
Definition has_tables (f : rfilter) (prec : Z) : Prop :=
  match f with FILTER_FIR => fir_prec prec | FILTER_IIR => iir_prec prec end.

Lemma fir_table_some s p : stage_no s -> fir_prec p ->
  exists t, fir_table s p = Some t /\ 2 <= Z.of_nat (length t) < 2 ^ 30.
Proof.
  intros [->|[->| ->]] [->|[->|[->|[->|[->| ->]]]]]; eexists; (split; [reflexivity | cbn; lia]).
Qed.

Lemma iir_table_some s p : stage_no s -> iir_prec p -> exists t gd, iir_table s p = Some (t, gd).
Proof.
  intros [->|[->| ->]] [->|[->|[->|[->| ->]]]]; do 2 eexists; reflexivity.
Qed.

Section Construct.
Context {A : arith} (plat : platform).
Implicit Types m : mem A.

(** coefficients of the stage for ratio s, as converted to float *)
Definition stage_coefs (f : rfilter) (md : rmode) (prec s : Z) : Z -> A :=
  match f with
  | FILTER_FIR => match fir_table s prec with
                  | Some t => nth_f (map (fun d => lit d (match md with UP => 1 | DOWN => 0 end)) t)
                  | None => fun _ => f0 end
  | FILTER_IIR => match iir_table s prec with
                  | Some (t, _) => nth_f (map (fun d => lit d 0) t)
                  | None => fun _ => f0 end
  end.

(** the implementation class and its parameters *)
Definition stage_impl (id : Z) (f : rfilter) (md : rmode) (prec : Z) (use_sse : bool) (s : Z) : option impl :=
  match f with
  | FILTER_FIR =>
      match fir_table s prec with
      | Some t => let o := Fir (Z.of_nat (length t)) (sse_available plat && use_sse) (16 * id + s) in
                  Some (match md with UP => FirUp o | DOWN => FirDown o end)
      | None => None
      end
  | FILTER_IIR =>
      match iir_table s prec with
      | Some (t, gd) =>
          let o := Iir (Z.of_nat (length t)) (16 * id + s) in
          Some (if has_sse plat && use_sse
                then match md with UP => IirUpSse o (lit64 gd) | DOWN => IirDownSse o (lit64 gd) end
                else match md with UP => IirUp o (lit64 gd) | DOWN => IirDown o (lit64 gd) end)
      | None => None
      end
  end.

Lemma init_stage_some id md ratio prec use_sse f s m :
  stage_no s -> s <= ratio -> has_tables f prec ->
  exists i, stage_impl id f md prec use_sse s = Some i /\ impl_wf i /\ impl_tag i = 16 * id + s /\ impl_mode i = md /\
  runs (init_stage plat id md ratio prec use_sse f s) m (fun x m' =>
    x = (Some i, true) /\ impl_S i (stage_coefs f md prec s) m' [] [] /\
    (forall b k, tag_of b <> Some (16 * id + s) -> m' b k = m b k)).
Proof.
  intros Hs Hr HT. unfold init_stage. replace (ratio <? s) with false by lia.
  destruct f; cbn [has_tables] in HT.
  - destruct (iir_table_some s prec Hs HT) as (t & gd & Et).
    unfold stage_impl, stage_coefs, create_impl_iir. rewrite Et.
    eexists. split; [reflexivity|].
    destruct (has_sse plat && use_sse), md; cbn [impl_wf impl_tag impl_mode i_nc i_tag];
      (split; [lia|]; split; [reflexivity|]; split; [reflexivity|]);
      apply runs_bind, runs_bind.
    + eapply runs_mono; [apply sse_construct_runs; cbn [i_nc]; lia|].
      intros u m' (H1 & H2 & H3). apply runs_ret, runs_ret. split; [reflexivity|]. split; [|exact H3].
      split; [exact H1 | apply impl_rel_nil].
    + eapply runs_mono; [apply sse_construct_runs; cbn [i_nc]; lia|].
      intros u m' (H1 & H2 & H3). apply runs_ret, runs_ret. split; [reflexivity|]. split; [|exact H3].
      split; [exact H2 | apply impl_rel_nil].
    + eapply runs_mono; [apply fpu_construct_runs; cbn [i_nc]; lia|].
      intros u m' (H1 & H2 & H3). apply runs_ret, runs_ret. split; [reflexivity|]. split; [|exact H3].
      split; [exact H1 | apply impl_rel_nil].
    + eapply runs_mono; [apply fpu_construct_runs; cbn [i_nc]; lia|].
      intros u m' (H1 & H2 & H3). apply runs_ret, runs_ret. split; [reflexivity|]. split; [|exact H3].
      split; [exact H2 | apply impl_rel_nil].
  - destruct (fir_table_some s prec Hs HT) as (t & Et & Lt).
    unfold stage_impl, stage_coefs, create_impl_fir. rewrite Et.
    eexists. split; [reflexivity|].
    destruct md; cbn [impl_wf impl_tag impl_mode f_order f_tag];
      (split; [exact Lt|]; split; [reflexivity|]; split; [reflexivity|]);
      apply runs_bind, runs_bind.
    + eapply runs_mono; [apply up_construct_runs; cbn [f_order]; lia|].
      intros u m' (H1 & H3). apply runs_ret, runs_ret. split; [reflexivity|]. split; [|exact H3].
      split; [exact H1 | apply impl_rel_nil].
    + eapply runs_mono; [apply down_construct_runs; cbn [f_order]; lia|].
      intros u m' (H1 & H3). apply runs_ret, runs_ret. split; [reflexivity|]. split; [|exact H3].
      split; [exact H1 | apply impl_rel_nil].
Qed.

Lemma init_stage_none id md ratio prec use_sse f s m : ratio < s ->
  init_stage plat id md ratio prec use_sse f s m = Ok ((None, true), m).
Proof. intros H. unfold init_stage. replace (ratio <? s) with true by lia. reflexivity. Qed.

(** the object constructed *)
Definition built (id : Z) (md : rmode) (ratio prec : Z) (use_sse : bool) (f : rfilter) : resampler :=
  let st s := if ratio <? s then None else stage_impl id f md prec use_sse s in
  Resampler id md ratio prec use_sse f (st 2) (st 4) (st 8).

Definition built_coefs (md : rmode) (prec : Z) (f : rfilter) : Z -> Z -> A := stage_coefs f md prec.

Theorem construct_ok id md ratio prec use_sse f m :
  ratio_no ratio -> (2 <= ratio -> has_tables f prec) ->
  runs (construct plat id md ratio prec use_sse f) m (fun x m' =>
    x = (built id md ratio prec use_sse f, true) /\ good (built id md ratio prec use_sse f) /\
    res_S (built id md ratio prec use_sse f) (built_coefs md prec f) m' [] [] /\
    (forall b k, ~ own id b -> m' b k = m b k)).
Proof.
  intros Hr HT. unfold construct.
  set (st := fun s => if ratio <? s then None else stage_impl id f md prec use_sse s).
  assert (Step : forall s m0, stage_no s ->
    runs (init_stage plat id md ratio prec use_sse f s) m0 (fun x m1 =>
      x = (st s, true) /\ (s <= ratio -> stage_good (built id md ratio prec use_sse f) s (st s) /\
                             oS (st s) (stage_coefs f md prec s) m1 [] []) /\
      (forall b k, tag_of b <> Some (16 * id + s) -> m1 b k = m0 b k))).
  { intros s m0 Hs. unfold st. destruct (Z.ltb_spec ratio s) as [Hlt|Hge].
    - eapply runs_eq; [apply init_stage_none; exact Hlt|]. split; [reflexivity|]. split; [lia | reflexivity].
    - destruct (init_stage_some id md ratio prec use_sse f s m0 Hs Hge) as (i & Ei & W & T & Mi & R).
      { apply HT. destruct Hs as [->|[->| ->]]; lia. }
      eapply runs_mono; [exact R|]. intros x m1 (-> & S & F). rewrite Ei.
      split; [reflexivity|]. split; [|exact F]. intros _. split; [|exact S].
      exists i. auto. }
  apply runs_bind. eapply runs_mono; [apply (Step 2); left; reflexivity|]. intros x2 m2 (-> & S2 & F2).
  apply runs_bind. eapply runs_mono; [apply (Step 4); right; left; reflexivity|]. intros x4 m4 (-> & S4 & F4).
  apply runs_bind. eapply runs_mono; [apply (Step 8); right; right; reflexivity|]. intros x8 m8 (-> & S8 & F8).
  apply runs_ret. cbn [fst snd].
  split.
  { unfold built. f_equal. destruct Hr as [->|[->|[->| ->]]]; reflexivity. }
  assert (Gd : good (built id md ratio prec use_sse f)).
  { split; [exact Hr|]. unfold built at 2 4 6. cbn [impl_x2 impl_x4 impl_x8].
    split; [|split]; intros H; [apply S2, H | apply S4, H | apply S8, H]. }
  split; [exact Gd|]. split.
  - apply stages_res_S; cbn [built impl_x2 impl_x4 impl_x8 r_ratio].
    + intros H. destruct (S2 H) as [G2 Q2].
      eapply oS_frame with (s' := 8); [exact G2 | lia | exact F8|].
      eapply oS_frame with (s' := 4); [exact G2 | lia | exact F4|]. exact Q2.
    + intros H. destruct (S4 H) as [G4 Q4].
      eapply oS_frame with (s' := 8); [exact G4 | lia | exact F8|]. exact Q4.
    + intros H. apply S8, H.
    + exact Hr.
  - intros b k Hb.
    assert (N : forall s, stage_no s -> tag_of b <> Some (16 * id + s)).
    { intros s Hs E. apply Hb. exists s. split; [destruct Hs as [->|[->| ->]]; lia | exact E]. }
    rewrite F8, F4, F2 by (apply N; unfold stage_no; auto). reflexivity.
Qed.
End Construct.
