(** * Resampler2 refines the composition of its stages *)
From Coq Require Import ZArith List Lia Bool ZifyNat ZifyBool.
From Verif Require Import Arith Mem FirModel IirModel Tables ResamplerModel Wp FirKernel Stage
  FirUpStage FirDownStage IirProof IirStage IirSseStage Cascade.
Import ListNotations.
Open Scope Z_scope.
Open Scope m_scope.

Section Impl.
Context {A : arith} (addr : blk -> Z) (ndebug : bool).
Implicit Types m : mem A.

Definition impl_tag (i : impl) : Z :=
  match i with
  | FirUp o | FirDown o => f_tag o
  | IirUp o _ | IirDown o _ | IirUpSse o _ | IirDownSse o _ => i_tag o
  end.

Definition impl_mode (i : impl) : rmode :=
  match i with FirUp _ | IirUp _ _ | IirUpSse _ _ => UP | _ => DOWN end.

Definition impl_wf (i : impl) : Prop :=
  match i with
  | FirUp o | FirDown o => 2 <= f_order o < 2 ^ 30
  | IirUp o _ | IirDown o _ | IirUpSse o _ | IirDownSse o _ => 0 <= i_nc o
  end.

Definition impl_aligned (i : impl) : Prop :=
  match i with
  | FirUp o => up_aligned addr o
  | FirDown o => down_aligned addr o
  | IirUpSse o _ | IirDownSse o _ => sse_aligned addr o
  | _ => True
  end.

Definition impl_inv (i : impl) (c : Z -> A) : mem A -> list A -> Prop :=
  match i with
  | FirUp o => up_inv o c
  | FirDown o => down_inv o c
  | IirUp o _ => iir_up_inv c (fcoef_ok o c) (fpu_stt o)
  | IirDown o _ => iir_down_inv c (fcoef_ok o c) (fpu_stt o)
  | IirUpSse o _ => iir_up_inv (xcoef o c) (sse_cok o c) (sse_stt o)
  | IirDownSse o _ => iir_down_inv (xcoef o c) (sse_cok o c) (sse_stt o)
  end.

(** relation between input and output stream of a stage *)
Definition impl_rel (i : impl) (c : Z -> A) : list A -> list A -> Prop :=
  match i with
  | FirUp o => fir_up_rel o c
  | FirDown o => fir_down_rel o c
  | IirUp o _ => iir_up_rel c (2 * ((i_nc o + 1) / 2)) (2 * (i_nc o / 2) + 1)
  | IirDown o _ => iir_down_rel c (2 * ((i_nc o + 1) / 2)) (2 * (i_nc o / 2) + 1) fpu_comb
  | IirUpSse o _ => iir_up_rel (xcoef o c) (2 * ((i_nc o + 1) / 2)) (2 * ((i_nc o + 1) / 2) + 1)
  | IirDownSse o _ => iir_down_rel (xcoef o c) (2 * ((i_nc o + 1) / 2)) (2 * ((i_nc o + 1) / 2) + 1) sse_comb
  end.

(** block sizes a stage accepts *)
Definition impl_okn (i : impl) (n : Z) : Prop :=
  match i with
  | FirUp _ => n < 2 ^ 31 - 4
  | FirDown _ => n mod 2 = 0
  | IirUp _ _ | IirUpSse _ _ => 0 < n
  | IirDown _ _ | IirDownSse _ _ => 0 < n /\ n mod 2 = 0
  end.

Definition impl_outn (i : impl) (n : Z) : Z :=
  match impl_mode i with UP => 2 * n | DOWN => n / 2 end.

(** floats behind the input that are read but not used *)
Definition impl_slack (i : impl) : Z := match i with IirDownSse _ _ => 2 | _ => 0 end.

(** the output may be written over the beginning of the input *)
Definition impl_ip (i : impl) : Prop :=
  match i with
  | FirUp _ | IirUp _ _ | IirUpSse _ _ => False
  | FirDown o => f_sse o = false /\ f_order o mod 2 = 0
  | IirDown _ _ | IirDownSse _ _ => True
  end.

Lemma impl_slack_pos i : 0 <= impl_slack i <= 2.
Proof. destruct i; cbn; lia. Qed.

Lemma impl_stage_ok g i c : impl_wf i -> impl_aligned i ->
  stage_ok addr (impl_process_block addr ndebug g i) (impl_tag i) (impl_inv i c) (impl_rel i c)
    (impl_okn i) (impl_outn i) (impl_slack i) (impl_ip i).
Proof.
  destruct i; intros W Al; cbn [impl_wf impl_aligned] in W, Al.
  - exact (up_stage_ok addr o c W Al).
  - exact (down_stage_ok addr o c (g (f_tag o)) W Al).
  - exact (fpu_up_stage_ok addr ndebug o c W).
  - exact (fpu_down_stage_ok addr ndebug o c W).
  - exact (sse_up_stage_ok addr ndebug o c W Al).
  - exact (sse_down_stage_ok addr ndebug o c W Al).
Qed.

Lemma impl_inv_local i c : local (impl_tag i) (impl_inv i c).
Proof.
  destruct i.
  - apply up_inv_local.
  - apply down_inv_local.
  - apply iir_up_inv_local; [apply fpu_cok_loc | apply fpu_stt_loc].
  - apply iir_down_inv_local; [apply fpu_cok_loc | apply fpu_stt_loc].
  - apply iir_up_inv_local; [apply sse_cok_loc | apply sse_stt_loc].
  - apply iir_down_inv_local; [apply sse_cok_loc | apply sse_stt_loc].
Qed.

Lemma impl_rel_nil i c : impl_rel i c [] [].
Proof.
  destruct i; cbn [impl_rel]; auto using fir_up_rel_nil, fir_down_rel_nil, iir_up_rel_nil, iir_down_rel_nil.
Qed.

Lemma impl_rel_len i c x y : impl_rel i c x y ->
  match impl_mode i with UP => len y = 2 * len x | DOWN => len x = 2 * len y end.
Proof. destruct i; cbn; intros [H _]; exact H. Qed.

Lemma impl_reset_runs i c m l : impl_wf i -> impl_aligned i -> impl_inv i c m l ->
  runs (impl_reset addr i) m (fun _ m' =>
    impl_inv i c m' [] /\ (forall b k, tag_of b <> Some (impl_tag i) -> m' b k = m b k)).
Proof.
  destruct i; cbn [impl_wf impl_aligned impl_inv impl_reset impl_tag]; intros W Al I.
  - apply up_reset_runs with (l := l); [lia | exact I].
  - apply down_reset_runs with (l := l); [lia | exact I].
  - destruct I as [C S]. eapply runs_mono; [eapply fpu_clear_runs; eassumption|].
    intros u m' (H1 & H2 & H3). auto.
  - destruct I as [C S]. eapply runs_mono; [eapply fpu_clear_runs; eassumption|].
    intros u m' (H1 & H2 & H3). auto.
  - destruct I as [C S]. eapply runs_mono; [eapply sse_clear_runs; eassumption|].
    intros u m' (H1 & H2 & H3). auto.
  - destruct I as [C S]. eapply runs_mono; [eapply sse_clear_runs; eassumption|].
    intros u m' (H1 & H2 & H3). auto.
Qed.

Lemma impl_okn_up i n : impl_mode i = UP -> 0 < n < 2 ^ 31 - 4 -> impl_okn i n.
Proof. destruct i; cbn; intros E H; try discriminate; lia. Qed.
Lemma impl_okn_down i n : impl_mode i = DOWN -> 0 < n -> n mod 2 = 0 -> impl_okn i n.
Proof. destruct i; cbn; intros E H1 H2; try discriminate; auto. Qed.
Lemma impl_slack_up i : impl_mode i = UP -> impl_slack i = 0.
Proof. destruct i; cbn; intros E; (reflexivity || discriminate). Qed.

Definition impl_S (i : impl) (c : Z -> A) := stS (impl_inv i c) (impl_rel i c).

Lemma impl_proc g i c : impl_wf i -> impl_aligned i ->
  proc_ok addr (impl_process_block addr ndebug g i) urv Edata (priv (impl_tag i)) (fun _ => True)
    (impl_S i c) (impl_okn i) (impl_outn i) (impl_slack i) (impl_ip i).
Proof. intros W Al. apply stage_proc, impl_stage_ok; assumption. Qed.

Lemma impl_owned i c : owned_by (fun b => tag_of b = Some (impl_tag i)) (impl_S i c).
Proof. apply stS_owned, impl_inv_local. Qed.
End Impl.

Section ProcExt.
Context {A : arith} (addr : blk -> Z).

Lemma proc_ok_ext {X} (run run' : ptr -> Z -> ptr -> M A X) rv rv' (E E' : ptr -> Z -> Prop)
    (pr pr' : blk -> Prop) (pre pre' : mem A -> Prop) S (okn okn' : Z -> Prop) outn outn' slack (ip ip' : Prop) :
  proc_ok addr run rv E pr pre S okn outn slack ip -> (ip' -> ip) ->
  (forall n, 0 <= n -> okn' n -> okn n /\ outn n = outn' n /\
     forall o, rv o n = rv' o n) ->
  (forall input n output m, 0 <= n -> okn' n -> run input n output m = run' input n output m) ->
  (forall p n, E' p n -> E p n) -> (forall b, pr b -> pr' b) -> (forall m, pre' m -> pre m) ->
  proc_ok addr run' rv' E' pr' pre' S okn' outn' slack ip'.
Proof.
  intros P Hip Hn Hrun HE Hpr Hpre m l yl b input output St Pm On Ei Eo Hi Ms Mo D As.
  destruct (Hn (len b) (len_nonneg b) On) as (On' & Eout & Erv).
  pose proof (P m l yl b input output) as Q. rewrite Eout in Q.
  assert (D' : disj input (len b + slack) output (outn' (len b)) \/ ip /\ over input output) by tauto.
  assert (As' : 0 < len b -> asep addr input (len b) output (outn' (len b)) \/ ip /\ over input output) by tauto.
  specialize (Q St (Hpre _ Pm) On' (HE _ _ Ei) (HE _ _ Eo) Hi Ms Mo D' As').
  unfold runs in Q |- *. rewrite (Hrun _ _ _ _ (len_nonneg b) On) in Q.
  destruct (run' input (len b) output m) as [[v m']|]; [|exact Q].
  destruct Q as (-> & y & H1 & H2 & H3 & H4). split; [apply Erv|]. exists y.
  split; [exact H1|]. split; [exact H2|]. split; [exact H3|].
  intros b' i Hp Hr. apply H4; auto.
Qed.

Lemma bind_assoc {X Y W} (c : M A X) (k : X -> M A Y) (h : Y -> M A W) m :
  bind (bind c k) h m = bind c (fun x => bind (k x) h) m.
Proof. unfold bind. destruct (c m) as [[x m']|]; reflexivity. Qed.
End ProcExt.

(** ** The whole object *)
Section Res.
Context {A : arith} (addr : blk -> Z) (ndebug : bool).
Implicit Types m : mem A.

(** what the allocator and the compiler guarantee about addresses *)
Record addr_ok : Prop := {
  al_sse : forall tag, aligned16 addr (Ptr (SseTaps tag) 0) = true;
  al_hist : forall tag, aligned16 addr (Ptr (Hist tag) 0) = true;
  al_histe : forall tag, aligned16 addr (Ptr (HistE tag) 0) = true;
  al_fcoef : forall tag, aligned16 addr (Ptr (FCoef tag) 0) = true;
  al_fmem : forall tag, aligned16 addr (Ptr (FMem tag) 0) = true;
  al_dblock : aligned16 addr (Ptr DBlock 0) = true;
  al_tmp : asep addr (Ptr Tmp 0) 4096 (Ptr Tmp2 0) 4096 }.

Lemma addr_ok_impl i : addr_ok -> impl_aligned addr i.
Proof.
  intros H. destruct i; cbn; try exact I; repeat split; apply H.
Qed.

Definition stage_good (r : resampler) (s : Z) (oi : option impl) : Prop :=
  exists i, oi = Some i /\ impl_tag i = 16 * r_id r + s /\ impl_mode i = r_mode r /\ impl_wf i.

(** an object as left by a successful construction *)
Definition good (r : resampler) : Prop :=
  (r_ratio r = 1 \/ r_ratio r = 2 \/ r_ratio r = 4 \/ r_ratio r = 8) /\
  (2 <= r_ratio r -> stage_good r 2 (impl_x2 r)) /\
  (4 <= r_ratio r -> stage_good r 4 (impl_x4 r)) /\
  (8 <= r_ratio r -> stage_good r 8 (impl_x8 r)).

Definition oS (oi : option impl) (c : Z -> A) m l y : Prop :=
  match oi with Some i => impl_S i c m l y | None => False end.
Definition oR (oi : option impl) (c : Z -> A) l y : Prop :=
  match oi with Some i => impl_rel i c l y | None => False end.

Definition seqR (R1 R2 : list A -> list A -> Prop) x z := exists y, R1 x y /\ R2 y z.

(** c s: coefficients of the stage for ratio s *)
Definition res_S (r : resampler) (c : Z -> Z -> A) : mem A -> list A -> list A -> Prop :=
  if r_ratio r =? 1 then fun _ l y => l = y
  else if r_ratio r =? 2 then oS (impl_x2 r) (c 2)
  else match r_mode r with
       | UP => if r_ratio r =? 4 then seqS (oS (impl_x2 r) (c 2)) (oS (impl_x4 r) (c 4))
               else seqS (seqS (oS (impl_x2 r) (c 2)) (oS (impl_x4 r) (c 4))) (oS (impl_x8 r) (c 8))
       | DOWN => if r_ratio r =? 4 then seqS (oS (impl_x4 r) (c 4)) (oS (impl_x2 r) (c 2))
               else seqS (seqS (oS (impl_x8 r) (c 8)) (oS (impl_x4 r) (c 4))) (oS (impl_x2 r) (c 2))
       end.

(** relation between the whole input and the whole output stream *)
Definition res_R (r : resampler) (c : Z -> Z -> A) : list A -> list A -> Prop :=
  if r_ratio r =? 1 then fun l y => l = y
  else if r_ratio r =? 2 then oR (impl_x2 r) (c 2)
  else match r_mode r with
       | UP => if r_ratio r =? 4 then seqR (oR (impl_x2 r) (c 2)) (oR (impl_x4 r) (c 4))
               else seqR (seqR (oR (impl_x2 r) (c 2)) (oR (impl_x4 r) (c 4))) (oR (impl_x8 r) (c 8))
       | DOWN => if r_ratio r =? 4 then seqR (oR (impl_x4 r) (c 4)) (oR (impl_x2 r) (c 2))
               else seqR (seqR (oR (impl_x8 r) (c 8)) (oR (impl_x4 r) (c 4))) (oR (impl_x2 r) (c 2))
       end.

Lemma oS_oR oi c m l y : oS oi c m l y -> oR oi c l y.
Proof. destruct oi; [intros [_ H]; exact H | intros []]. Qed.

Lemma seqS_seqR (S1 S2 : mem A -> list A -> list A -> Prop) (R1 R2 : list A -> list A -> Prop) m x z :
  (forall m x y, S1 m x y -> R1 x y) -> (forall m x y, S2 m x y -> R2 x y) ->
  seqS S1 S2 m x z -> seqR R1 R2 x z.
Proof. intros H1 H2 (y & A1 & A2). exists y. eauto. Qed.

Lemma res_S_R r c m l y : res_S r c m l y -> res_R r c l y.
Proof.
  unfold res_S, res_R. destruct (r_ratio r =? 1); [auto|]. destruct (r_ratio r =? 2); [apply oS_oR|].
  destruct (r_mode r), (r_ratio r =? 4); repeat (apply seqS_seqR || apply oS_oR || intros ? ? ?).
Qed.

(** block sizes that are accepted *)
Definition res_okn (r : resampler) (n : Z) : Prop :=
  if r_ratio r =? 1 then True
  else if r_ratio r =? 2 then match impl_x2 r with Some i => impl_okn i n | None => False end
  else match r_mode r with UP => True | DOWN => n mod r_ratio r = 0 end.
Definition res_outn (r : resampler) (n : Z) : Z :=
  match r_mode r with UP => n * r_ratio r | DOWN => n / r_ratio r end.
Definition oslack (oi : option impl) : Z := match oi with Some i => impl_slack i | None => 0 end.
Definition res_slack (r : resampler) : Z :=
  match r_mode r with
  | UP => 0
  | DOWN => if r_ratio r =? 1 then 0 else if r_ratio r =? 2 then oslack (impl_x2 r)
            else if r_ratio r =? 4 then oslack (impl_x4 r) else oslack (impl_x8 r)
  end.

Definition res_ip (r : resampler) : Prop :=
  r_mode r = DOWN /\ r_ratio r <> 1 /\
  (r_ratio r = 2 -> match impl_x2 r with Some i => impl_ip i | None => False end).

(** blocks owned by an object *)
Definition own (id : Z) (b : blk) : Prop := exists s, 0 <= s < 16 /\ tag_of b = Some (16 * id + s).
Definition scratch (b : blk) : Prop := b = DBlock \/ b = Tmp \/ b = Tmp2.

Definition is_user (b : blk) : Prop := exists k, b = User k.

(** regions the caller may pass *)
Definition Eres (r : resampler) (p : ptr) (n : Z) : Prop :=
  is_user (pb p) /\
  (2 < r_ratio r -> asep addr p n (Ptr Tmp 0) 4096 /\ asep addr p n (Ptr Tmp2 0) 4096).

Lemma own_disj id id' b : own id b -> own id' b -> id = id'.
Proof. intros (s & Hs & E) (s' & Hs' & E'). assert (X : 16 * id + s = 16 * id' + s') by congruence. clear - Hs Hs' X. lia. Qed.

Lemma res_S_owned r c : good r -> owned_by (own (r_id r)) (res_S r c).
Proof.
  intros (Hr & G2 & G4 & G8).
  assert (O : forall s oi, 0 <= s < 16 -> stage_good r s oi -> owned_by (own (r_id r)) (oS oi (c s))).
  { intros s oi Hs (i & -> & T & _) m m' l y E H. eapply impl_owned; [|exact H].
    intros b k Hb. apply E. exists s. rewrite <- T. auto. }
  assert (Sq : forall S1 S2, owned_by (own (r_id r)) S1 -> owned_by (own (r_id r)) S2 ->
             owned_by (own (r_id r)) (seqS (A := A) S1 S2)).
  { intros S1 S2 L1 L2 m m' l z E (y & H1 & H2). exists y. eauto. }
  unfold res_S. destruct (Z.eqb_spec (r_ratio r) 1); [intros m m' l y _ H; exact H|].
  destruct (Z.eqb_spec (r_ratio r) 2); [apply O; [lia | apply G2; lia]|].
  assert (O2 := O 2 _ ltac:(lia) (G2 ltac:(lia))). assert (O4 := O 4 _ ltac:(lia) (G4 ltac:(lia))).
  destruct (r_mode r); destruct (Z.eqb_spec (r_ratio r) 4); try (apply Sq; assumption);
    assert (O8 := O 8 _ ltac:(lia) (G8 ltac:(lia))); repeat apply Sq; assumption.
Qed.

(** two and three stages *)
Section Stages.
Variables (r : resampler) (c1 c2 c3 : Z -> A) (i1 i2 i3 : impl) (g : Z -> Z -> A).
Hypotheses (AO : addr_ok) (W1 : impl_wf i1) (W2 : impl_wf i2) (W3 : impl_wf i3)
  (T12 : impl_tag i1 <> impl_tag i2) (T13 : impl_tag i1 <> impl_tag i3) (T23 : impl_tag i2 <> impl_tag i3).

Lemma own_priv t t' b : t <> t' -> tag_of b = Some t -> ~ priv t' b.
Proof. intros Ht E [H| ->]; [congruence | discriminate]. Qed.

Lemma Edata_np t p n : Edata p n -> ~ priv t (pb p) /\ tag_of (pb p) <> Some t.
Proof.
  intros D. pose proof (data_not_priv t _ D) as H. split; [exact H|]. intros E. apply H. left. exact E.
Qed.

Notation run i := (impl_process_block addr ndebug g i).

Lemma two_ok :
  proc_ok addr (fun input n output => run i1 input n (Ptr Tmp 0) ;;; run i2 (Ptr Tmp 0) (impl_outn i1 n) output) urv
    (Ethru addr Edata Edata (Ptr Tmp 0) 4096)
    (fun b => priv (impl_tag i1) b \/ priv (impl_tag i2) b \/ b = Tmp)
    (fun m => True /\ mapped m (Ptr Tmp 0) 4096) (seqS (impl_S i1 c1) (impl_S i2 c2))
    (fun n => impl_okn i1 n /\ impl_okn i2 (impl_outn i1 n) /\ 0 < impl_outn i1 n /\
              impl_outn i1 n + impl_slack i2 <= 4096 /\ 0 < n)
    (fun n => impl_outn i2 (impl_outn i1 n)) (impl_slack i1) True.
Proof.
  eapply (seq_ok addr (run i1) (run i2) Edata Edata (priv (impl_tag i1)) (priv (impl_tag i2))
    (fun b => tag_of b = Some (impl_tag i1)) (fun b => tag_of b = Some (impl_tag i2))).
  - apply impl_proc; [assumption | apply addr_ok_impl; assumption].
  - apply impl_proc; [assumption | apply addr_ok_impl; assumption].
  - apply impl_owned.
  - apply impl_owned.
  - intros b. apply own_priv. congruence.
  - intros b. apply own_priv. congruence.
  - intros p n. apply Edata_np.
  - intros p n. apply Edata_np.
  - intros k _. exact I.
  - intros k _. exact I.
  - apply impl_slack_pos.
  - apply impl_slack_pos.
  - lia.
Qed.

Lemma three_ok :
  proc_ok addr (fun input n output =>
      (run i1 input n (Ptr Tmp 0) ;;; run i2 (Ptr Tmp 0) (impl_outn i1 n) (Ptr Tmp2 0)) ;;;
      run i3 (Ptr Tmp2 0) (impl_outn i2 (impl_outn i1 n)) output) urv
    (Ethru addr (Ethru addr Edata Edata (Ptr Tmp 0) 4096) Edata (Ptr Tmp2 0) 4096)
    (fun b => (priv (impl_tag i1) b \/ priv (impl_tag i2) b \/ b = Tmp) \/ priv (impl_tag i3) b \/ b = Tmp2)
    (fun m => (True /\ mapped m (Ptr Tmp 0) 4096) /\ mapped m (Ptr Tmp2 0) 4096)
    (seqS (seqS (impl_S i1 c1) (impl_S i2 c2)) (impl_S i3 c3))
    (fun n => (impl_okn i1 n /\ impl_okn i2 (impl_outn i1 n) /\ 0 < impl_outn i1 n /\
               impl_outn i1 n + impl_slack i2 <= 4096 /\ 0 < n) /\
              impl_okn i3 (impl_outn i2 (impl_outn i1 n)) /\ 0 < impl_outn i2 (impl_outn i1 n) /\
              impl_outn i2 (impl_outn i1 n) + impl_slack i3 <= 4096 /\ 0 < n)
    (fun n => impl_outn i3 (impl_outn i2 (impl_outn i1 n))) (impl_slack i1) True.
Proof.
  eapply (seq_ok addr
    (fun input n output => run i1 input n (Ptr Tmp 0) ;;; run i2 (Ptr Tmp 0) (impl_outn i1 n) output)
    (run i3) (Ethru addr Edata Edata (Ptr Tmp 0) 4096) Edata
    (fun b => priv (impl_tag i1) b \/ priv (impl_tag i2) b \/ b = Tmp) (priv (impl_tag i3))
    (fun b => tag_of b = Some (impl_tag i1) \/ tag_of b = Some (impl_tag i2))
    (fun b => tag_of b = Some (impl_tag i3))
    (fun m => True /\ mapped m (Ptr Tmp 0) 4096) _ _ _ _
    (fun n => impl_outn i2 (impl_outn i1 n)) (impl_outn i3)).
  - exact two_ok.
  - apply impl_proc; [assumption | apply addr_ok_impl; assumption].
  - apply seqS_owned; apply impl_owned.
  - apply impl_owned.
  - intros b [H|H]; revert H; apply own_priv; congruence.
  - intros b H [H'|[H'| ->]]; [| |discriminate H]; revert H H'; apply own_priv; congruence.
  - intros p n (D & _ & Np & _). cbn [pb] in Np. split.
    + intros [H|[H|H]]; [| |contradiction]; revert H; apply Edata_np with (n := 0); exact D.
    + intros [H|H]; revert H; apply Edata_np with (n := 0); exact D.
  - intros p n. apply Edata_np.
  - intros k Hk. split; [exact I|]. split; [exact I|]. split; [discriminate|].
    apply asep_sub0 with (n := 4096) (k := 4096); [|lia|lia]. apply asep_sym, AO.
  - intros k _. exact I.
  - apply impl_slack_pos.
  - apply impl_slack_pos.
  - lia.
Qed.
End Stages.

Definition pr_res (r : resampler) (b : blk) : Prop := own (r_id r) b \/ scratch b.

Lemma priv_pr r s i b : 0 <= s < 16 -> impl_tag i = 16 * r_id r + s -> priv (impl_tag i) b -> pr_res r b.
Proof.
  intros Hs T [H| ->]; [left; exists s; rewrite <- T; auto | right; left; reflexivity].
Qed.

Lemma tmp_untagged b t : tag_of b = Some t -> b <> Tmp /\ b <> Tmp2.
Proof. intros H. split; intros ->; discriminate. Qed.

Definition chunk_okn (r : resampler) (n : Z) : Prop :=
  0 < n <= 1024 /\ (r_mode r = DOWN -> n mod r_ratio r = 0).

Lemma div_half n k : 0 < k -> n mod (2 * k) = 0 -> n mod 2 = 0 /\ n / 2 mod k = 0 /\ n / 2 / k = n / (2 * k) /\
  (0 < n -> 0 < n / 2) /\ n / 2 <= Z.max n 0.
Proof.
  intros Hk H. assert (E : n = 2 * k * (n / (2 * k))) by (pose proof (Z.div_mod n (2 * k)); lia).
  set (q := n / (2 * k)) in *.
  assert (E2 : n / 2 = k * q) by (rewrite E; replace (2 * k * q) with (k * q * 2) by ring; apply Z.div_mul; lia).
  split; [|split; [|split; [|split]]].
  - rewrite E. replace (2 * k * q) with (k * q * 2) by ring. apply Z.mod_mul. lia.
  - rewrite E2, Z.mul_comm. apply Z.mod_mul. lia.
  - rewrite E2, (Z.mul_comm k q), Z.div_mul by lia. reflexivity.
  - intros Hn. rewrite E2. nia.
  - rewrite E2. nia.
Qed.

Definition with_tmps (g : Z -> Z -> A) (body : ptr -> Z -> ptr -> M A unit) (rv : ptr -> Z -> ptr)
    (input : ptr) (n : Z) (output : ptr) : M A ptr :=
  alloc Tmp (1024 * 4) (g 0) ;;; alloc Tmp2 (1024 * 4) (g 1) ;;;
  o <- (body input n output ;;; ret (rv output n)) ;; free Tmp ;;; free Tmp2 ;;; ret o.

Lemma wrap_ok g r (body : ptr -> Z -> ptr -> M A unit) rv E0 pr0 pre0 S ok0 out0 sl ip :
  proc_ok addr body urv E0 pr0 pre0 S ok0 out0 sl ip ->
  owned_by (own (r_id r)) S ->
  (forall p n, Eres r p n -> E0 p n) ->
  (forall b, pr0 b -> pr_res r b) ->
  (forall m, mapped m (Ptr Tmp 0) 4096 -> mapped m (Ptr Tmp2 0) 4096 -> pre0 m) ->
  (forall n, chunk_okn r n -> ok0 n /\ out0 n = res_outn r n /\ forall o, rv o n = padd o (res_outn r n)) ->
  (forall input n output m, chunk_okn r n ->
     with_tmps g body rv input n output m = cascade_chunk addr ndebug g r input n output m) ->
  proc_ok addr (cascade_chunk addr ndebug g r) (fun o n => padd o (res_outn r n)) (Eres r) (pr_res r)
    (fun _ => True) S (chunk_okn r) (res_outn r) sl ip.
Proof.
  intros P L HE Hpr Hpre Hn Hrun.
  assert (P' : proc_ok addr body urv E0 pr0
     (fun m => mapped m (Ptr Tmp 0) 4096 /\ mapped m (Ptr Tmp2 0) 4096) S ok0 out0 sl ip).
  { eapply proc_ok_ext; [exact P | auto | auto | auto | auto | auto |]. intros m [H1 H2]. auto. }
  eapply proc_ok_ext.
  - eapply (tmps_ok addr body rv) with (own := own (r_id r)) (g := g).
    + exact L.
    + intros b (s & _ & Hb). exact (tmp_untagged _ _ Hb).
    + exact P'.
  - auto.
  - intros n _ On. apply Hn, On.
  - intros input n output m _ On. apply Hrun, On.
  - intros p n Ep. split; [apply HE, Ep|]. destruct Ep as [[k U] _]. rewrite U. split; discriminate.
  - intros b [H|[H|H]]; [apply Hpr, H | right; right; left; exact H | right; right; right; exact H].
  - auto.
Qed.

Lemma Eres_thru2 r p n : 2 < r_ratio r -> Eres r p n -> Ethru addr Edata Edata (Ptr Tmp 0) 4096 p n.
Proof.
  intros Hr [[k U] Q]. unfold Ethru, Edata. rewrite U. cbn [pb is_data].
  split; [exact I|]. split; [exact I|]. split; [discriminate|]. apply Q, Hr.
Qed.

Lemma Eres_thru3 r p n : 2 < r_ratio r -> Eres r p n ->
  Ethru addr (Ethru addr Edata Edata (Ptr Tmp 0) 4096) Edata (Ptr Tmp2 0) 4096 p n.
Proof.
  intros Hr H. split; [apply (Eres_thru2 r); assumption|]. destruct H as [[k U] Q].
  unfold Edata. rewrite U. cbn [pb is_data]. split; [exact I|]. split; [discriminate|]. apply Q, Hr.
Qed.

Lemma chunk_ok g r c : addr_ok -> good r -> 2 < r_ratio r ->
  proc_ok addr (cascade_chunk addr ndebug g r) (fun o n => padd o (res_outn r n)) (Eres r) (pr_res r)
    (fun _ => True) (res_S r c) (chunk_okn r) (res_outn r) (res_slack r) True.
Proof.
  intros AO G H2. pose proof (res_S_owned r c G) as L. revert L. destruct G as (Hr & G2 & G4 & G8).
  destruct (G2 ltac:(lia)) as (i2 & E2 & T2 & M2 & W2). destruct (G4 ltac:(lia)) as (i4 & E4 & T4 & M4 & W4).
  assert (Hr' : r_ratio r = 4 \/ r_ratio r = 8) by lia. clear Hr.
  pose proof (fun b => priv_pr r 2 i2 b ltac:(lia) T2) as Pr2.
  pose proof (fun b => priv_pr r 4 i4 b ltac:(lia) T4) as Pr4.
  assert (PT : pr_res r Tmp) by (right; right; left; reflexivity).
  assert (PT2 : pr_res r Tmp2) by (right; right; right; reflexivity).
  pose proof (impl_slack_pos i2). pose proof (impl_slack_pos i4).
  unfold res_S, res_slack. replace (r_ratio r =? 1) with false by lia. replace (r_ratio r =? 2) with false by lia.
  destruct (r_mode r) eqn:Em; destruct Hr' as [Er|Er]; rewrite Er; cbn [Z.eqb Pos.eqb]; rewrite ?E2, ?E4; cbn [oS oslack]; intros L.
  - (* UP, 4 *)
    rewrite <- (impl_slack_up i2 M2).
    eapply wrap_ok with (rv := fun o n => padd o (u32 (n * r_ratio r))).
    + exact (two_ok (c 2) (c 4) i2 i4 g AO W2 W4 ltac:(lia)).
    + exact L.
    + intros p n. apply Eres_thru2. lia.
    + intros b [H'|[H'| ->]]; auto.
    + intros m H1 _. split; auto.
    + intros n [Hn _]. unfold impl_outn, res_outn. rewrite M2, M4, Em, Er, (impl_slack_up i4 M4).
      split; [repeat split; try lia; apply impl_okn_up; (assumption || lia)|]. split; [lia|].
      intros o. f_equal. apply u32_small. lia.
    + intros input n output m _. unfold with_tmps, cascade_chunk, impl_outn. rewrite Em, Er, E2, E4, M2.
      rewrite (Z.mul_comm 2 n). reflexivity.
  - (* UP, 8 *)
    destruct (G8 ltac:(lia)) as (i8 & E8 & T8 & M8 & W8). rewrite Em in M8.
    pose proof (fun b => priv_pr r 8 i8 b ltac:(lia) T8) as Pr8.
    rewrite E8 in L |- *. cbn [oS] in L |- *. rewrite <- (impl_slack_up i2 M2).
    eapply wrap_ok with (rv := fun o n => padd o (u32 (n * r_ratio r))).
    + exact (three_ok (c 2) (c 4) (c 8) i2 i4 i8 g AO W2 W4 W8 ltac:(lia) ltac:(lia) ltac:(lia)).
    + exact L.
    + intros p n. apply Eres_thru3. lia.
    + intros b [[H'|[H'| ->]]|[H'| ->]]; auto.
    + intros m H1 H3. repeat split; auto.
    + intros n [Hn _]. unfold impl_outn, res_outn. rewrite M2, M4, M8, Em, Er, (impl_slack_up i4 M4), (impl_slack_up i8 M8).
      split; [repeat split; try lia; apply impl_okn_up; (assumption || lia)|]. split; [lia|].
      intros o. f_equal. apply u32_small. lia.
    + intros input n output m _. unfold with_tmps, cascade_chunk, impl_outn. rewrite Em, Er, E2, E4, E8, M2, M4.
      replace (2 * (2 * n)) with (n * 4) by lia. rewrite (Z.mul_comm 2 n).
      unfold bind at 1 2 9 10. unfold alloc at 1 2 3 4. cbn -[bind ret padd u32 impl_process_block call_impl free Z.mul].
      unfold call_impl. cbn [deref].
      unfold bind, ret.
      repeat match goal with |- context [impl_process_block addr ndebug g ?i ?x ?y ?z ?m0] =>
        destruct (impl_process_block addr ndebug g i x y z m0) as [[? ?]|]; try reflexivity end.
  - (* DOWN, 4 *)
    eapply wrap_ok with (rv := fun o n => padd o (n / r_ratio r)).
    + exact (two_ok (c 4) (c 2) i4 i2 g AO W4 W2 ltac:(lia)).
    + exact L.
    + intros p n. apply Eres_thru2. lia.
    + intros b [H'|[H'| ->]]; auto.
    + intros m H1 _. split; auto.
    + intros n [Hn Hm]. unfold impl_outn, res_outn. rewrite M2, M4, Em, Er in *.
      destruct (div_half n 2 ltac:(lia) (Hm eq_refl)) as (D1 & D2 & D3 & D4 & D5). specialize (D4 ltac:(lia)).
      split; [repeat split; try lia; apply impl_okn_down; (assumption || lia)|]. split; [exact D3 | reflexivity].
    + intros input n output m _. unfold with_tmps, cascade_chunk, impl_outn. rewrite Em, Er, E2, E4, M4. reflexivity.
  - (* DOWN, 8 *)
    destruct (G8 ltac:(lia)) as (i8 & E8 & T8 & M8 & W8). rewrite Em in M8.
    pose proof (fun b => priv_pr r 8 i8 b ltac:(lia) T8) as Pr8. pose proof (impl_slack_pos i8).
    rewrite E8 in L |- *. cbn [oS oslack] in L |- *.
    eapply wrap_ok with (rv := fun o n => padd o (n / r_ratio r)).
    + exact (three_ok (c 8) (c 4) (c 2) i8 i4 i2 g AO W8 W4 W2 ltac:(lia) ltac:(lia) ltac:(lia)).
    + exact L.
    + intros p n. apply Eres_thru3. lia.
    + intros b [[H'|[H'| ->]]|[H'| ->]]; auto.
    + intros m Q1 Q3. repeat split; auto.
    + intros n [Hn Hm]. unfold impl_outn, res_outn. rewrite M2, M4, M8, Em, Er in *.
      destruct (div_half n 4 ltac:(lia) (Hm eq_refl)) as (D1 & D2 & D3 & D4 & D5). specialize (D4 ltac:(lia)).
      destruct (div_half (n / 2) 2 ltac:(lia) D2) as (F1 & F2 & F3 & F4 & F5). specialize (F4 D4).
      split; [repeat split; try lia; apply impl_okn_down; (assumption || lia)|]. split; [|reflexivity].
      rewrite F3. exact D3.
    + intros input n output m [Hn Hm]. rewrite Em, Er in Hm. specialize (Hm eq_refl).
      destruct (div_half n 4 ltac:(lia) Hm) as (D1 & D2 & D3 & D4 & D5).
      unfold with_tmps, cascade_chunk, impl_outn. rewrite Em, Er, E2, E4, E8, M8, M4.
      replace (n / 2 / 2) with (n / 4) by (rewrite Z.div_div by lia; reflexivity).
      unfold call_impl. cbn [deref].
      unfold bind, ret, alloc, free. change (8 =? 4) with false. cbv iota beta.
      repeat match goal with |- context [impl_process_block addr ndebug g ?i ?x ?y ?z ?m0] =>
        destruct (impl_process_block addr ndebug g i x y z m0) as [[? ?]|]; try reflexivity end.
Qed.
End Res.
