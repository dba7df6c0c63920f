(** * The SSE IIR classes satisfy the stage contract *)
From Coq Require Import ZArith List Lia Bool ZifyNat ZifyBool.
From Verif Require Import Arith Mem IirModel Wp FirKernel FirDownProof Stage IirProof IirStage.
Import ListNotations.
Open Scope Z_scope.
Open Scope m_scope.

Section Lanes.
Context {A : arith} (addr : blk -> Z).
Implicit Types m : mem A.

(** group s of four floats of block b is mapped and has the given two low lanes *)
Definition grp m (b : blk) (s : Z) (a0 a1 : A) : Prop :=
  m b (4 * s) = Some a0 /\ m b (4 * s + 1) = Some a1 /\
  m b (4 * s + 2) <> None /\ m b (4 * s + 3) <> None.

Lemma loadu4_low p a0 a1 m :
  m (pb p) (po p) = Some a0 -> m (pb p) (po p + 1) = Some a1 ->
  m (pb p) (po p + 2) <> None -> m (pb p) (po p + 3) <> None ->
  exists v, loadu4 p m = Ok (v, m) /\ l0 v = a0 /\ l1 v = a1.
Proof.
  intros H0 H1 H2 H3. unfold loadu4, bind, load, ret. cbn [padd pb po]. rewrite H0, H1.
  destruct (m (pb p) (po p + 2)); [|congruence]. destruct (m (pb p) (po p + 3)); [|congruence].
  eexists. split; [reflexivity|]. split; reflexivity.
Qed.

Lemma aligned_grp b s : aligned16 addr (Ptr b 0) = true -> aligned16 addr (Ptr b (4 * s)) = true.
Proof.
  intros H. rewrite <- H, <- (aligned16_step addr (Ptr b 0) s). f_equal.
Qed.

Lemma load_grp b s a0 a1 m : aligned16 addr (Ptr b 0) = true -> grp m b s a0 a1 ->
  exists v, load4 addr (Ptr b (4 * s)) m = Ok (v, m) /\ l0 v = a0 /\ l1 v = a1.
Proof.
  intros Ha (H0 & H1 & H2 & H3). unfold load4. rewrite aligned_grp by exact Ha.
  apply loadu4_low; assumption.
Qed.

Lemma store_grp b s a0 a1 v m : aligned16 addr (Ptr b 0) = true -> grp m b s a0 a1 ->
  runs (store4 addr (Ptr b (4 * s)) v) m (fun _ m' =>
    grp m' b s (l0 v) (l1 v) /\
    (forall b' i, (b' <> b \/ i < 4 * s \/ 4 * s + 4 <= i) -> m' b' i = m b' i)).
Proof.
  intros Ha (H0 & H1 & H2 & H3). unfold store4. rewrite aligned_grp by exact Ha.
  apply runs_bind, runs_store; cbn [padd pb po]; [congruence|].
  apply runs_bind, runs_store; cbn [padd pb po]; [apply mapped_upd_any; congruence|].
  apply runs_bind, runs_store; cbn [padd pb po]; [do 2 apply mapped_upd_any; congruence|].
  apply runs_store; cbn [padd pb po]; [do 3 apply mapped_upd_any; congruence|].
  split; [split; [|split; [|split]]|].
  - do 3 (rewrite upd_other by lia). apply upd_same.
  - do 2 (rewrite upd_other by lia). apply upd_same.
  - rewrite upd_other by lia. rewrite upd_same. discriminate.
  - rewrite upd_same. discriminate.
  - intros b' i Hb. repeat (rewrite upd_other by (destruct Hb; [auto | right; lia])). reflexivity.
Qed.
End Lanes.

Section Sse.
Context {A : arith} (addr : blk -> Z) (ndebug : bool) (o : iir) (coef : Z -> A).
Implicit Types m : mem A.
Notation NC := (i_nc o).
Notation tag := (i_tag o).
Notation S_ := (nbr_stages o).
Notation e0 := (2 * ((i_nc o + 1) / 2)).
Notation e1 := (2 * ((i_nc o + 1) / 2) + 1).

(** an odd number of coefficients is filled up with a coefficient 1 *)
Definition xcoef (i : Z) : A := if i <? NC then coef i else f1.

Definition sse_cok m : Prop :=
  forall s, 1 <= s <= S_ -> grp m (FCoef tag) s (xcoef (2 * s - 1)) (xcoef (2 * s - 2)).
Definition sse_stt m (V : Z -> A) : Prop :=
  forall s, 0 <= s <= S_ -> grp m (FMem tag) s (V (2 * s + 1)) (V (2 * s)).

Definition sse_aligned : Prop :=
  aligned16 addr (Ptr (FCoef tag) 0) = true /\ aligned16 addr (Ptr (FMem tag) 0) = true.

Lemma grp_loc m m' b s a0 a1 : tag_of b = Some tag ->
  (forall b i, tag_of b = Some tag -> m' b i = m b i) -> grp m b s a0 a1 -> grp m' b s a0 a1.
Proof. intros Hb E (H0 & H1 & H2 & H3). unfold grp. rewrite !E by exact Hb. auto. Qed.

Lemma sse_cok_loc : loc tag sse_cok.
Proof. intros m m' E H s Hs. eapply grp_loc; [reflexivity | exact E | auto]. Qed.
Lemma sse_stt_loc V : loc tag (fun m => sse_stt m V).
Proof. intros m m' E H s Hs. eapply grp_loc; [reflexivity | exact E | auto]. Qed.
Lemma sse_stt_ext m V V' : (forall i, V i = V' i) -> sse_stt m V -> sse_stt m V'.
Proof. intros E H s Hs. rewrite <- !E. auto. Qed.

Lemma sse_cok_frameb m m' : frameb (FMem tag) m m' -> sse_cok m -> sse_cok m'.
Proof.
  intros F H s Hs. destruct (H s Hs) as (H0 & H1 & H2 & H3). unfold grp.
  rewrite !F by discriminate. auto.
Qed.

Lemma stage_sse_rec_runs Wo Wn :
  0 <= S_ -> sse_aligned ->
  (forall i, 0 <= i < 2 * S_ -> Wn (i + 2) = fadd (fmul (fsub (Wn i) (Wo (i + 2))) (xcoef i)) (Wo i)) ->
  forall cur x m, Z.of_nat cur <= S_ ->
  sse_cok m -> sse_stt m Wo -> l1 x = Wn 0 -> l0 x = Wn 1 ->
  runs (stage_sse_pos_rec addr o cur x) m (fun y m' =>
    l1 y = Wn (2 * Z.of_nat cur) /\ l0 y = Wn (2 * Z.of_nat cur + 1) /\
    sse_stt m' (fun i => if i <? 2 * Z.of_nat cur then Wn i else Wo i) /\
    frameb (FMem tag) m m').
Proof.
  intros HS [AC AM] HW cur. induction cur as [|c IH]; intros x m Hc C S X0 X1; cbn [stage_sse_pos_rec].
  - apply runs_ret. split; [exact X0|]. split; [exact X1|]. split; [|apply frameb_refl].
    intros s Hs. destruct (S s Hs) as (H0 & H1 & H2 & H3).
    replace (2 * s + 1 <? 2 * Z.of_nat 0) with false by lia.
    replace (2 * s <? 2 * Z.of_nat 0) with false by lia. exact (S s Hs).
  - apply runs_bind. eapply runs_mono; [apply (IH x m); [lia | exact C | exact S | exact X0 | exact X1]|].
    intros y m1 (Y1 & Y0 & S1 & F1). set (k := Z.of_nat c) in *.
    assert (C1 : sse_cok m1) by exact (sse_cok_frameb _ _ F1 C).
    destruct (load_grp addr (FMem tag) k (Wo (2 * k + 1)) (Wo (2 * k)) m1 AM) as (tmp & Lt & T0 & T1).
    { pose proof (S1 k ltac:(lia)) as G. cbv beta in G.
      replace (2 * k + 1 <? 2 * k) with false in G by lia.
      replace (2 * k <? 2 * k) with false in G by lia. exact G. }
    apply runs_bind. eapply runs_eq; [exact Lt|].
    apply runs_bind. eapply runs_mono; [eapply store_grp; [exact AM | apply S1; lia]|].
    intros _ m2 [G2 F2].
    replace (Z.of_nat (Datatypes.S c)) with (k + 1) by lia.
    assert (S2 : sse_stt m2 (fun i => if i <? 2 * (k + 1) then Wn i else Wo i)).
    { intros s Hs. cbv beta. destruct (Z.lt_trichotomy s k) as [Hlt|[->|Hgt]].
      - pose proof (S1 s Hs) as G. cbv beta in G. unfold grp. rewrite !F2 by lia.
        replace (2 * s + 1 <? 2 * (k + 1)) with (2 * s + 1 <? 2 * k) by lia.
        replace (2 * s <? 2 * (k + 1)) with (2 * s <? 2 * k) by lia. exact G.
      - replace (2 * k + 1 <? 2 * (k + 1)) with true by lia.
        replace (2 * k <? 2 * (k + 1)) with true by lia. rewrite <- Y0, <- Y1. exact G2.
      - pose proof (S1 s Hs) as G. cbv beta in G. unfold grp. rewrite !F2 by lia.
        replace (2 * s + 1 <? 2 * (k + 1)) with (2 * s + 1 <? 2 * k) by lia.
        replace (2 * s <? 2 * (k + 1)) with (2 * s <? 2 * k) by lia. exact G. }
    assert (Ff : frameb (FMem tag) m1 m2) by (intros b' i Hb; apply F2; left; exact Hb).
    assert (C2 : sse_cok m2) by exact (sse_cok_frameb _ _ Ff C1).
    destruct (load_grp addr (FMem tag) (k + 1) (Wo (2 * (k + 1) + 1)) (Wo (2 * (k + 1))) m2 AM) as (mm & Lm & M0 & M1).
    { pose proof (S2 (k + 1) ltac:(lia)) as G. cbv beta in G.
      replace (2 * (k + 1) + 1 <? 2 * (k + 1)) with false in G by lia.
      replace (2 * (k + 1) <? 2 * (k + 1)) with false in G by lia. exact G. }
    apply runs_bind. eapply runs_eq; [exact Lm|].
    destruct (load_grp addr (FCoef tag) (k + 1) _ _ m2 AC (C2 (k + 1) ltac:(lia))) as (co & Lc & Co0 & Co1).
    apply runs_bind. eapply runs_eq; [exact Lc|].
    apply runs_ret. cbn [vmap2 l0 l1]. rewrite T0, T1, M0, M1, Co0, Co1, Y0, Y1.
    split; [|split; [|split]].
    + replace (2 * (k + 1) - 2) with (2 * k) by lia. replace (2 * (k + 1)) with (2 * k + 2) by lia.
      rewrite (HW (2 * k)) by lia. reflexivity.
    + replace (2 * (k + 1) - 1) with (2 * k + 1) by lia. replace (2 * (k + 1) + 1) with (2 * k + 1 + 2) by lia.
      rewrite (HW (2 * k + 1)) by lia. reflexivity.
    + exact S2.
    + eapply frameb_trans; eassumption.
Qed.

Lemma S_eq : 0 <= NC -> S_ = (NC + 1) / 2.
Proof. intros HN. unfold nbr_stages. f_equal. lia. Qed.
Lemma S_pos : 0 <= NC -> 0 <= S_.
Proof. intros HN. rewrite S_eq by exact HN. apply Z.div_pos; lia. Qed.

Lemma sse_step X0 X1 k v m :
  0 <= NC -> 0 <= k -> causal0 X0 -> causal0 X1 -> sse_aligned ->
  l1 v = X0 k -> l0 v = X1 k ->
  sse_cok m -> sse_stt m (fun i => W xcoef X0 X1 i (k - 1)) ->
  runs (stage_sse_pos addr o v) m (fun r m' =>
    l1 r = W xcoef X0 X1 e0 k /\ l0 r = W xcoef X0 X1 e1 k /\
    sse_cok m' /\ sse_stt m' (fun i => W xcoef X0 X1 i k) /\ frameb (FMem tag) m m').
Proof.
  intros HN Hk H0 H1 Al V1 V0 C S. pose proof (S_pos HN) as HS. pose proof (S_eq HN) as ES.
  unfold stage_sse_pos. apply runs_bind. eapply runs_mono.
  { apply (stage_sse_rec_runs (fun i => W xcoef X0 X1 i (k - 1)) (fun i => W xcoef X0 X1 i k)).
    - exact HS.
    - exact Al.
    - intros i Hi. apply W_step; auto; lia.
    - lia.
    - exact C.
    - exact S.
    - exact V1.
    - exact V0. }
  intros y m1 (Y1 & Y0 & S1 & F1). rewrite Z2Nat.id in Y1, Y0, S1 by lia.
  apply runs_bind. eapply runs_mono; [eapply store_grp; [apply Al | apply S1; lia]|].
  intros _ m2 [G2 F2]. apply runs_ret.
  rewrite <- ES. split; [exact Y1|]. split; [exact Y0|].
  assert (Ff : frameb (FMem tag) m1 m2) by (intros b' i Hb; apply F2; left; exact Hb).
  assert (Ft : frameb (FMem tag) m m2) by (eapply frameb_trans; eassumption).
  split; [exact (sse_cok_frameb _ _ Ft C)|]. split; [|exact Ft].
  intros s Hs. destruct (Z.eq_dec s S_) as [->|Hne].
  - rewrite Y1, Y0 in G2. exact G2.
  - pose proof (S1 s ltac:(lia)) as G. cbv beta in G. unfold grp. rewrite !F2 by lia.
    replace (2 * s + 1 <? 2 * S_) with true in G by lia.
    replace (2 * s <? 2 * S_) with true in G by lia. exact G.
Qed.

Definition sse_up_run (input : ptr) (n : Z) (output : ptr) : M A unit :=
  sse_up_process_block addr ndebug o output input n.
Definition sse_down_run (input : ptr) (n : Z) (output : ptr) : M A unit :=
  sse_down_process_block addr ndebug o output input (n / 2).

Lemma data_untagged b : is_data b -> tag_of b <> Some tag.
Proof. intros D E. destruct b; cbn in E, D; (discriminate || contradiction). Qed.

Lemma sse_up_stage_ok :
  0 <= NC -> sse_aligned ->
  stage_ok addr sse_up_run tag (iir_up_inv xcoef sse_cok sse_stt)
    (iir_up_rel xcoef e0 e1) (fun n => 0 < n) (fun n => 2 * n) 0 False.
Proof.
  intros HN Al m l yl b input output I0 Rl Hn Di Do Hi _ Mo [D|[[] _]] Hsep. rewrite Z.add_0_r in D.
  unfold sse_up_run, sse_up_process_block.
  apply assert_runs.
  { specialize (Hsep ltac:(lia)). unfold asep, over, paddr in *. destruct Hsep as [[Q|Q]|[F [Q1 Q2]]]; try contradiction; rewrite ?Q1; lia. }
  apply assert_runs; [lia|].
  eapply up_loop_ok with (input := input) (cok := sse_cok) (stt := sse_stt) (tag := tag).
  - apply sse_stt_loc.
  - intros m1 V V'. apply sse_stt_ext.
  - apply loops_for with (body := fun pos => _). lia.
  - intros x k pos m' Hp Hk C1 S1 Fi Mo' _.
    apply runs_bind. eapply runs_load; [cbn [padd pb po]; exact Fi|].
    apply runs_bind.
    eapply runs_mono; [apply (sse_step (sig x) (sig x) k (vset1 (sig x k)) m' HN Hk
      (sig_causal0 x) (sig_causal0 x) Al eq_refl eq_refl C1 S1)|].
    intros r m1 (R1 & R0 & C2 & S2 & F2).
    assert (Nd : pb output <> FMem tag) by (intros E; rewrite E in Do; exact Do).
    assert (M1 : forall j, 0 <= j < 2 -> m1 (pb output) (po output + (2 * pos + j)) <> None).
    { intros j Hj. rewrite F2 by exact Nd. rewrite Z.add_assoc. apply (Mo' j Hj). }
    apply runs_bind. apply runs_store.
    { cbn [padd pb po]. specialize (M1 0 ltac:(lia)). replace (2 * pos + 0) with (pos * 2) in M1 by lia. exact M1. }
    cbn [padd pb po]. apply runs_store.
    { cbn [padd pb po]. apply mapped_upd_any. specialize (M1 1 ltac:(lia)).
      replace (2 * pos + 1) with (pos * 2 + 1) in M1 by lia. exact M1. }
    cbn [padd pb po]. rewrite R1, R0.
    match goal with |- context [upd (upd m1 ?a ?b ?c) ?d ?e ?f] => set (m2 := upd (upd m1 a b c) d e f) end.
    assert (L : forall b i, tag_of b = Some tag -> m2 b i = m1 b i).
    { intros b' i Ht. assert (b' <> pb output) by (intros ->; exact (data_untagged _ Do Ht)).
      unfold m2. rewrite !upd_other by auto. reflexivity. }
    split; [exact (sse_cok_loc _ _ L C2)|]. split; [exact (sse_stt_loc _ _ _ L S2)|].
    unfold m2. split; [|split].
    + rewrite upd_other by lia. apply upd_eq; [reflexivity | lia].
    + apply upd_eq; [reflexivity | lia].
    + intros b' i Ht Hr. rewrite !upd_other.
      * apply F2. intros ->. apply Ht. reflexivity.
      * destruct (blk_eqb_spec b' (pb output)) as [->|]; [|left; assumption].
        right. intros ->. apply Hr. split; cbn [padd pb po]; [reflexivity | lia].
      * destruct (blk_eqb_spec b' (pb output)) as [->|]; [|left; assumption].
        right. intros ->. apply Hr. split; cbn [padd pb po]; [reflexivity | lia].
  - exact I0.
  - exact Rl.
  - exact Di.
  - exact Do.
  - exact Hi.
  - exact Mo.
  - exact D.
Qed.

Definition sse_comb (a b : A) : A := fmul (fadd b a) fhalf.

Lemma sse_down_stage_ok :
  0 <= NC -> sse_aligned ->
  stage_ok addr sse_down_run tag (iir_down_inv xcoef sse_cok sse_stt)
    (iir_down_rel xcoef e0 e1 sse_comb) (fun n => 0 < n /\ n mod 2 = 0) (fun n => n / 2) 2 True.
Proof.
  intros HN Al m l yl b input output I0 Rl [Hn Hev] Di Do Hi Ms Mo D Hsep.
  assert (Eb : len b = 2 * (len b / 2)) by (pose proof (Z.div_mod (len b) 2); lia).
  unfold sse_down_run, sse_down_process_block.
  apply assert_runs.
  { specialize (Hsep ltac:(lia)). unfold asep, over, paddr in *. destruct Hsep as [[Q|Q]|[F [Q1 Q2]]]; try contradiction; rewrite ?Q1; lia. }
  apply assert_runs; [lia|].
  eapply down_loop_ok with (input := input) (cok := sse_cok) (stt := sse_stt) (tag := tag) (slack := 2).
  - apply sse_stt_loc.
  - intros m1 V V'. apply sse_stt_ext.
  - exact Eb.
  - lia.
  - apply loops_for with (body := fun pos => _). lia.
  - intros x k pos m' Hp Hk C1 S1 Fe Fo Mi Mo' _.
    destruct (loadu4_low (padd input (pos * 2)) (esig x k) (osig x k) m') as (v & Lv & V0 & V1).
    { cbn [padd pb po]. rewrite (Z.mul_comm pos 2). exact Fe. }
    { cbn [padd pb po]. rewrite (Z.mul_comm pos 2), <- Z.add_assoc. exact Fo. }
    { cbn [padd pb po]. rewrite (Z.mul_comm pos 2). apply (Mi 2). lia. }
    { cbn [padd pb po]. rewrite (Z.mul_comm pos 2). apply (Mi 3). lia. }
    apply runs_bind. eapply runs_eq; [exact Lv|].
    apply runs_bind.
    eapply runs_mono; [apply (sse_step (osig x) (esig x) k v m' HN Hk
      (osig_causal0 x) (esig_causal0 x) Al V1 V0 C1 S1)|].
    intros r m1 (R1 & R0 & C2 & S2 & F2).
    assert (Nd : pb output <> FMem tag) by (intros E; rewrite E in Do; exact Do).
    apply runs_store.
    { cbn [padd pb po]. rewrite F2 by exact Nd. pose proof (Mo' 0 ltac:(lia)) as Q.
      cbn [padd pb po] in Q. rewrite Z.add_0_r in Q. exact Q. }
    cbn [padd pb po]. rewrite R1, R0.
    match goal with |- context [upd m1 ?a ?b ?c] => set (m2 := upd m1 a b c) end.
    assert (L : forall b i, tag_of b = Some tag -> m2 b i = m1 b i).
    { intros b' i Ht. assert (b' <> pb output) by (intros ->; exact (data_untagged _ Do Ht)).
      unfold m2. rewrite !upd_other by auto. reflexivity. }
    split; [exact (sse_cok_loc _ _ L C2)|]. split; [exact (sse_stt_loc _ _ _ L S2)|].
    unfold m2. split.
    + apply upd_same.
    + intros b' i Ht Hr. rewrite upd_other.
      * apply F2. intros ->. apply Ht. reflexivity.
      * destruct (blk_eqb_spec b' (pb output)) as [->|]; [|left; assumption].
        right. intros ->. apply Hr. split; cbn [padd pb po]; [reflexivity | lia].
  - exact I0.
  - exact Rl.
  - exact Di.
  - exact Do.
  - exact Hi.
  - exact Ms.
  - exact Mo.
  - destruct D as [D|[_ D]]; [left | right]; exact D.
Qed.

Definition sse_zero m : Prop := forall s, 0 <= s <= S_ -> grp m (FMem tag) s f0 f0.

Lemma sse_state_zero m X0 X1 : causal0 X0 -> causal0 X1 -> sse_zero m ->
  sse_stt m (fun i => W xcoef X0 X1 i (-1)).
Proof. intros H0 H1 H s Hs. rewrite !W_neg by (auto; lia). auto. Qed.

Lemma coef_lane i : 0 <= i -> Z.land (Z.lxor i 1) 1 = 1 - i mod 2.
Proof.
  intros Hi. change 1 with (Z.ones 1) at 2. rewrite Z.land_ones by lia. change (2 ^ 1) with 2.
  rewrite <- Z.bit0_mod, Z.lxor_spec. change (Z.testbit 1 0) with true.
  rewrite xorb_true_r. pose proof (Z.bit0_mod i) as E. rewrite <- E.
  destruct (Z.testbit i 0); reflexivity.
Qed.

Lemma sse_construct_runs m :
  0 <= NC ->
  runs (sse_construct o coef) m (fun _ m' =>
    iir_up_inv xcoef sse_cok sse_stt m' [] /\
    iir_down_inv xcoef sse_cok sse_stt m' [] /\
    (forall b i, tag_of b <> Some tag -> m' b i = m b i)).
Proof.
  intros HN. pose proof (S_pos HN) as HS. pose proof (S_eq HN) as ES.
  pose proof (Z.div_mod (NC + 1) 2 ltac:(lia)) as EM. pose proof (Z.mod_pos_bound (NC + 1) 2 ltac:(lia)).
  rewrite <- ES in EM.
  unfold sse_construct.
  apply runs_bind. unfold alloc at 1, runs at 1.
  apply runs_bind. unfold alloc at 1, runs at 1.
  set (m2 := fun b' i => if blk_eqb b' (FMem tag) then _ else _).
  assert (MC : forall i, 0 <= i < 4 * (S_ + 1) -> m2 (FCoef tag) i <> None).
  { intros i Hi. unfold m2. destruct (blk_eqb_spec (FCoef tag) (FMem tag)); [discriminate|].
    rewrite blk_eqb_refl. replace ((0 <=? i) && (i <? 4 * (S_ + 1))) with true by lia. discriminate. }
  assert (Z2 : forall i, 0 <= i < 4 * (S_ + 1) -> m2 (FMem tag) i = Some f0).
  { intros i Hi. unfold m2. rewrite blk_eqb_refl.
    replace ((0 <=? i) && (i <? 4 * (S_ + 1))) with true by lia. reflexivity. }
  assert (F0 : forall b i, tag_of b <> Some tag -> m2 b i = m b i).
  { intros b i Hb. unfold m2.
    destruct (blk_eqb_spec b (FMem tag)) as [->|_]; [exfalso; apply Hb; reflexivity|].
    destruct (blk_eqb_spec b (FCoef tag)) as [->|_]; [exfalso; apply Hb; reflexivity|]. reflexivity. }
  clearbody m2. apply runs_bind.
  apply runs_mono with (P := fun _ m' => frameb (FCoef tag) m2 m' /\
    (forall i, 0 <= i < 4 * (S_ + 1) -> m' (FCoef tag) i <> None) /\
    (NC < 2 * S_ -> m' (FCoef tag) (4 * S_) = Some f1)).
  { destruct (Z.ltb_spec NC (S_ * 2)) as [Hlt|Hge].
    - apply runs_store; unfold fcoef; cbn [pb po]; [apply MC; lia|].
      split; [apply frameb_upd|]. split; [intros i Hi; apply mapped_upd_any, MC, Hi|].
      intros _. apply upd_same.
    - apply runs_ret. split; [apply frameb_refl|]. split; [exact MC | intros; lia]. }
  intros _ m3 (F3 & M3 & One).
  apply runs_for with (Inv := fun k _ m' =>
    (forall i, 0 <= i < k -> m' (FCoef tag) (4 * (i / 2 + 1) + (1 - i mod 2)) = Some (coef i)) /\
    (forall i, 0 <= i < 4 * (S_ + 1) -> m' (FCoef tag) i <> None) /\
    (NC < 2 * S_ -> m' (FCoef tag) (4 * S_) = Some f1) /\ frameb (FCoef tag) m3 m').
  - split; [intros i Hi; lia|]. split; [exact M3|]. split; [exact One | apply frameb_refl].
  - intros k _ m' Hk (H1 & H2 & H3 & F). rewrite coef_lane by lia.
    pose proof (Z.div_mod k 2 ltac:(lia)). pose proof (Z.mod_pos_bound k 2 ltac:(lia)).
    apply runs_store; unfold fcoef; cbn [pb po].
    + apply H2. lia.
    + split; [|split; [|split]].
      * intros i Hi. destruct (Z.eq_dec i k) as [->|]; [apply upd_same|].
        pose proof (Z.div_mod i 2 ltac:(lia)). pose proof (Z.mod_pos_bound i 2 ltac:(lia)).
        rewrite upd_other by lia. apply H1. lia.
      * intros i Hi. apply mapped_upd_any, H2, Hi.
      * intros Hlt. rewrite upd_other by lia. auto.
      * eapply frameb_trans; [exact F | apply frameb_upd].
  - intros _ m' (H1 & H2 & H3 & F).
    assert (C : sse_cok m').
    { intros s Hs. unfold grp, xcoef. split; [|split; [|split; apply H2; lia]].
      - destruct (Z.ltb_spec (2 * s - 1) NC) as [Hlt|Hge].
        + rewrite <- (H1 (2 * s - 1)) by lia.
          assert ((2 * s - 1) / 2 = s - 1) by (symmetry; apply Z.div_unique with (r := 1); lia).
          assert ((2 * s - 1) mod 2 = 1) by (symmetry; apply Z.mod_unique with (q := s - 1); lia).
          f_equal. lia.
        + rewrite <- H3 by lia. f_equal. lia.
      - destruct (Z.ltb_spec (2 * s - 2) NC) as [Hlt|Hge]; [|lia].
        rewrite <- (H1 (2 * s - 2)) by lia.
        assert ((2 * s - 2) / 2 = s - 1) by (symmetry; apply Z.div_unique with (r := 0); lia).
        assert ((2 * s - 2) mod 2 = 0) by (symmetry; apply Z.mod_unique with (q := s - 1); lia).
        f_equal. lia. }
    assert (Z3 : sse_zero m').
    { intros s Hs. unfold grp. rewrite !F, !F3 by discriminate. rewrite !Z2 by lia.
      repeat split; discriminate. }
    split; [|split].
    + split; [exact C|]. apply sse_state_zero; auto using sig_causal0.
    + split; [exact C|]. apply sse_state_zero; auto using osig_causal0, esig_causal0.
    + intros b i Hb. rewrite F, F3 by (intros ->; apply Hb; reflexivity). apply F0, Hb.
Qed.

Lemma sse_clear_runs m V :
  0 <= NC -> sse_aligned -> sse_cok m -> sse_stt m V ->
  runs (sse_clear_buffers addr o) m (fun _ m' =>
    iir_up_inv xcoef sse_cok sse_stt m' [] /\
    iir_down_inv xcoef sse_cok sse_stt m' [] /\
    (forall b i, tag_of b <> Some tag -> m' b i = m b i)).
Proof.
  intros HN [AC AM] C S. pose proof (S_pos HN) as HS. unfold sse_clear_buffers.
  apply runs_for with (Inv := fun k _ m' =>
    (forall s, 0 <= s < k -> grp m' (FMem tag) s f0 f0) /\
    (forall s, k <= s <= S_ -> grp m' (FMem tag) s (V (2 * s + 1)) (V (2 * s))) /\
    frameb (FMem tag) m m').
  - split; [intros s Hs; lia|]. split; [intros s Hs; apply S; lia | apply frameb_refl].
  - intros k _ m' Hk (H1 & H2 & F).
    eapply runs_mono; [eapply store_grp; [exact AM | apply H2; lia]|].
    intros _ m'' [G F2]. cbn [vset1 l0 l1] in G. split; [|split].
    + intros s Hs. destruct (Z.eq_dec s k) as [->|]; [exact G|].
      unfold grp. rewrite !F2 by lia. apply H1. lia.
    + intros s Hs. unfold grp. rewrite !F2 by lia. apply H2. lia.
    + eapply frameb_trans; [exact F|]. intros b i Hb. apply F2. left. exact Hb.
  - intros _ m' (H1 & _ & F).
    assert (C' : sse_cok m') by exact (sse_cok_frameb _ _ F C).
    assert (Z' : sse_zero m') by (intros s Hs; apply H1; lia).
    split; [|split].
    + split; [exact C'|]. apply sse_state_zero; auto using sig_causal0.
    + split; [exact C'|]. apply sse_state_zero; auto using osig_causal0, esig_causal0.
    + intros b i Hb. apply F. intros ->. apply Hb. reflexivity.
Qed.
End Sse.
