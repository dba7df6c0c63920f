(** * The band split computes a two-chain all-pass filter bank *)
From Coq Require Import ZArith List Lia Bool ZifyNat ZifyBool.
From Verif Require Import Arith Mem IirModel ResamplerModel SplitModel Wp FirDownProof Stage IirProof IirStage IirSseStage ResamplerProof Spec SpecOk.
Import ListNotations.
Open Scope Z_scope.
Open Scope m_scope.

(** ** Two outputs *)
Section Gen.
Context {A : arith} (tag : Z) (coef : Z -> A) (e0 e1 : Z)
        (cok : mem A -> Prop) (stt : mem A -> (Z -> A) -> Prop).
Implicit Types m : mem A.
Hypothesis cok_loc : loc tag cok.
Hypothesis stt_loc : forall V, loc tag (fun m => stt m V).
Hypothesis stt_ext : forall m V V', (forall i, V i = V' i) -> stt m V -> stt m V'.

Definition only2 (o1 o2 : ptr) (a n : Z) m m' : Prop :=
  forall b i, tag_of b <> Some tag -> ~ inr (padd o1 a) n b i -> ~ inr (padd o2 a) n b i -> m' b i = m b i.

Lemma split_loop_ok cl ch slack c (body : Z -> M A unit) m l yl yh b input outl outh n :
  len b = 2 * n -> 0 <= slack ->
  loops c n body ->
  (forall x k pos m', 0 <= pos -> 0 <= k ->
     cok m' -> stt m' (fun i => W coef (osig x) (esig x) i (k - 1)) ->
     m' (pb input) (po input + 2 * pos) = Some (esig x k) ->
     m' (pb input) (po input + (2 * pos + 1)) = Some (osig x k) ->
     mapped m' (padd input (2 * pos)) (2 + slack) ->
     mapped m' (padd outl pos) 1 -> mapped m' (padd outh pos) 1 ->
     is_data (pb outl) -> is_data (pb outh) -> (pb outl <> pb outh \/ po outl <> po outh) ->
     runs (body pos) m' (fun _ m'' =>
       cok m'' /\ stt m'' (fun i => W coef (osig x) (esig x) i k) /\
       m'' (pb outl) (po outl + pos) =
         Some (cl (W coef (osig x) (esig x) e0 k) (W coef (osig x) (esig x) e1 k)) /\
       m'' (pb outh) (po outh + pos) =
         Some (ch (W coef (osig x) (esig x) e0 k) (W coef (osig x) (esig x) e1 k)) /\
       only2 outl outh pos 1 m' m'')) ->
  iir_down_inv coef cok stt m l -> iir_down_rel coef e0 e1 cl l yl -> iir_down_rel coef e0 e1 ch l yh ->
  is_data (pb input) -> is_data (pb outl) -> is_data (pb outh) ->
  has m input (len b) (nthZ b) -> mapped m (padd input (len b)) slack -> mapped m outl n -> mapped m outh n ->
  (disj input (len b + slack) outl n \/ over input outl) ->
  (disj input (len b + slack) outh n \/ over input outh) ->
  disj outl n outh n ->
  runs c m (fun _ m' =>
    exists y z, len y = n /\ len z = n /\
      iir_down_rel coef e0 e1 cl (l ++ b) (yl ++ y) /\ iir_down_rel coef e0 e1 ch (l ++ b) (yh ++ z) /\
      has m' outl (len y) (nthZ y) /\ has m' outh (len z) (nthZ z) /\ iir_down_inv coef cok stt m' (l ++ b) /\
      (forall b' i, ~ priv tag b' -> ~ inr outl n b' i -> ~ inr outh n b' i -> m' b' i = m b' i)).
Proof.
  intros Eb Hs HL Hbody [C0 S0] Rl Rh Di Dl Dh Hi Ms Ml Mh DL DH DD.
  pose proof (len_nonneg b) as Hn. assert (Eq : len l = 2 * len yl) by apply Rl. assert (Eq2 : len l = 2 * len yh) by apply Rh.
  pose proof (len_nonneg yl) as Hq. set (q := len yl) in *. set (x := l ++ b).
  assert (Eh : len yh = q) by lia.
  assert (El2 : len l / 2 = q) by (rewrite Eq, Z.mul_comm; apply Z.div_mul; lia).
  rewrite El2 in S0.
  assert (Nd : forall p, is_data (pb p) -> tag_of (pb p) <> Some tag).
  { intros p Dp Et. destruct (pb p); cbn in Et, Dp; (discriminate || contradiction). }
  set (Inv := fun k m' =>
    cok m' /\ stt m' (fun i => W coef (osig x) (esig x) i (q + k - 1)) /\
    (forall j, 0 <= j < k ->
      m' (pb outl) (po outl + j) =
        Some (cl (W coef (osig x) (esig x) e0 (q + j)) (W coef (osig x) (esig x) e1 (q + j)))) /\
    (forall j, 0 <= j < k ->
      m' (pb outh) (po outh + j) =
        Some (ch (W coef (osig x) (esig x) e0 (q + j)) (W coef (osig x) (esig x) e1 (q + j)))) /\
    only2 outl outh 0 k m m').
  eapply runs_mono.
  { apply (HL Inv).
    - split; [exact C0|]. split.
      + eapply stt_ext; [|exact S0]. intros i. cbn beta. rewrite Z.add_0_r. unfold x. symmetry.
        apply W_down_app. lia.
      + split; [intros j Hj; lia|]. split; [intros j Hj; lia | intros b' i _ _ _; reflexivity].
    - intros k m' Hk (C1 & S1 & V1 & V2 & F1).
      assert (Fi : forall j, 2 * k <= j < len b -> m' (pb input) (po input + j) = Some (sig x (2 * q + j))).
      { intros j Hj. rewrite F1.
        - rewrite Hi by lia. f_equal. unfold x. rewrite <- Eq. symmetry. apply sig_app2. lia.
        - apply Nd, Di.
        - intros [E R]. cbn [padd pb po] in E, R. destruct DL as [[D|D]|[_ D]]; [congruence | lia | lia].
        - intros [E R]. cbn [padd pb po] in E, R. destruct DH as [[D|D]|[_ D]]; [congruence | lia | lia]. }
      assert (Mi : mapped m' (padd input (2 * k)) (2 + slack)).
      { intros j Hj E. cbn [padd pb po] in E. rewrite <- Z.add_assoc in E.
        destruct (Z.lt_ge_cases (2 * k + j) (len b)).
        - rewrite Fi in E by lia. discriminate.
        - rewrite F1 in E.
          + apply (Ms (2 * k + j - len b) ltac:(lia)). cbn [padd pb po]. rewrite <- E. f_equal. lia.
          + apply Nd, Di.
          + intros [E' R]. cbn [padd pb po] in E', R. destruct DL as [[D|D]|[_ D]]; [congruence | lia | lia].
          + intros [E' R]. cbn [padd pb po] in E', R. destruct DH as [[D|D]|[_ D]]; [congruence | lia | lia]. }
      assert (Ml' : mapped m' (padd outl k) 1).
      { intros j Hj E. cbn [padd pb po] in E. rewrite F1 in E.
        - rewrite <- Z.add_assoc in E. exact (Ml (k + j) ltac:(lia) E).
        - apply Nd, Dl.
        - intros [_ R]. cbn [padd po] in R. lia.
        - intros [E' R]. cbn [padd pb po] in E', R. destruct DD as [D|D]; [congruence | lia]. }
      assert (Mh' : mapped m' (padd outh k) 1).
      { intros j Hj E. cbn [padd pb po] in E. rewrite F1 in E.
        - rewrite <- Z.add_assoc in E. exact (Mh (k + j) ltac:(lia) E).
        - apply Nd, Dh.
        - intros [E' R]. cbn [padd pb po] in E', R. destruct DD as [D|D]; [congruence | lia].
        - intros [_ R]. cbn [padd po] in R. lia. }
      assert (Fe : m' (pb input) (po input + 2 * k) = Some (esig x (q + k))).
      { rewrite Fi by lia. unfold esig. do 2 f_equal. lia. }
      assert (Fo : m' (pb input) (po input + (2 * k + 1)) = Some (osig x (q + k))).
      { rewrite Fi by lia. unfold osig. do 2 f_equal. lia. }
      assert (Ne : pb outl <> pb outh \/ po outl <> po outh) by (destruct DD as [D|D]; [left; exact D | right; lia]).
      eapply runs_mono; [exact (Hbody x (q + k) k m' ltac:(lia) ltac:(lia) C1 S1 Fe Fo Mi Ml' Mh' Dl Dh Ne)|].
      intros _ m'' (C2 & S2 & Y0 & Z0 & F2). split; [exact C2|]. split; [|split; [|split]].
      + eapply stt_ext; [|exact S2]. intros i. cbn beta. f_equal. lia.
      + intros j Hj. destruct (Z.eq_dec j k) as [->|Hne]; [assumption|].
        rewrite F2; [apply V1; lia | apply Nd, Dl | intros [_ R]; cbn [padd po] in R; lia|].
        intros [E R]. cbn [padd pb po] in E, R. destruct DD as [D|D]; [congruence | lia].
      + intros j Hj. destruct (Z.eq_dec j k) as [->|Hne]; [assumption|].
        rewrite F2; [apply V2; lia | apply Nd, Dh | | intros [_ R]; cbn [padd po] in R; lia].
        intros [E R]. cbn [padd pb po] in E, R. destruct DD as [D|D]; [congruence | lia].
      + intros b' i Ht Hr Hr2. rewrite F2; [apply F1|..]; try exact Ht.
        * intros [E R]. apply Hr. cbn [padd pb po] in *. split; [exact E | cbn [padd po]; lia].
        * intros [E R]. apply Hr2. cbn [padd pb po] in *. split; [exact E | cbn [padd po]; lia].
        * intros [E R]. apply Hr. cbn [padd pb po] in *. split; [exact E | cbn [padd po]; lia].
        * intros [E R]. apply Hr2. cbn [padd pb po] in *. split; [exact E | cbn [padd po]; lia]. }
  intros _ m' (C1 & S1 & V1 & V2 & F1).
  assert (Ml' : mapped m' outl n) by (intros k Hk E; rewrite V1 in E by lia; discriminate).
  assert (Mh' : mapped m' outh n) by (intros k Hk E; rewrite V2 in E by lia; discriminate).
  destruct (has_read m' outl n ltac:(lia) Ml') as (y & Ly & Hy).
  destruct (has_read m' outh n ltac:(lia) Mh') as (z & Lz & Hz).
  assert (El : len (l ++ b) / 2 = q + n).
  { rewrite len_app, Eq, Eb. replace (2 * q + 2 * n) with ((q + n) * 2) by lia. apply Z.div_mul. lia. }
  exists y, z. split; [exact Ly|]. split; [exact Lz|]. split; [|split; [|split; [|split; [|split; [split|]]]]].
  - apply iir_down_rel_app; [exact Rl | lia |]. rewrite Ly. fold q x. intros k Hk.
    specialize (V1 k Hk). rewrite Hy in V1 by lia. congruence.
  - apply iir_down_rel_app; [exact Rh | lia |]. rewrite Lz, Eh. fold x. intros k Hk.
    specialize (V2 k Hk). rewrite Hz in V2 by lia. congruence.
  - rewrite Ly. exact Hy.
  - rewrite Lz. exact Hz.
  - exact C1.
  - eapply stt_ext; [|exact S1]. intros i. cbn beta. unfold x. rewrite El. reflexivity.
  - intros b' i Hp Hr Hr2. apply F1.
    + intros E. apply Hp. left. exact E.
    + rewrite padd_0. exact Hr.
    + rewrite padd_0. exact Hr2.
Qed.
End Gen.

(** ** The two classes *)
Section Classes.
Context {A : arith} (addr : blk -> Z) (ndebug : bool) (o : iir) (coef : Z -> A).
Implicit Types m : mem A.
Notation NC := (i_nc o).
Notation tag := (i_tag o).

(** the outputs as functions of the two branches (odd samples first) *)
Definition fpu_low (a b : A) : A := fmul (fadd a b) fhalf.
Definition fpu_high (a b : A) : A := fsub a (fmul (fadd a b) fhalf).
Definition sse_low (a b : A) : A := fadd (fmul a fhalf) (fmul b fhalf).
Definition sse_high (a b : A) : A := fsub (fmul a fhalf) (fmul b fhalf).

(** obligations of the caller of process_block_split: separate output arrays with room for
    len b / 2 samples each, which may start in the array of the input, at or before it *)
Record split_pre (slack : Z) m (inp outl outh : ptr) (b : list A) : Prop := {
  sp_n : 0 < len b /\ len b mod 2 = 0;
  sp_in_data : is_data (pb inp);
  sp_l_data : is_data (pb outl);
  sp_h_data : is_data (pb outh);
  sp_in : has m inp (len b) (nthZ b);
  sp_slack : mapped m (padd inp (len b)) slack;
  sp_l : mapped m outl (len b / 2);
  sp_h : mapped m outh (len b / 2);
  sp_il : disj inp (len b + slack) outl (len b / 2) /\ asep addr inp (len b) outl (len b / 2) \/ over inp outl;
  sp_ih : disj inp (len b + slack) outh (len b / 2) /\ asep addr inp (len b) outh (len b / 2) \/ over inp outh;
  sp_lh : disj outl (len b / 2) outh (len b / 2) /\ asep addr outl (len b / 2) outh (len b / 2) }.

Lemma split_asserts_runs slack m inp outl outh b (k : M A unit) Q :
  split_pre slack m inp outl outh b -> runs k m Q -> runs (split_asserts addr ndebug outl outh inp (len b / 2) ;;; k) m Q.
Proof.
  intros P H. destruct (sp_n _ _ _ _ _ _ P) as [Hn He].
  assert (Eb : len b = 2 * (len b / 2)) by (pose proof (Z.div_mod (len b) 2); lia).
  pose proof (sp_il _ _ _ _ _ _ P) as IL. pose proof (sp_ih _ _ _ _ _ _ P) as IH. destruct (sp_lh _ _ _ _ _ _ P) as [_ LH].
  unfold split_asserts. apply runs_bind.
  apply assert_runs.
  { unfold asep, over, paddr in *. destruct IL as [[_ [Q1|Q1]]|[Q1 Q2]]; [lia | lia | rewrite Q1; lia]. }
  apply assert_runs.
  { unfold asep, over, paddr in *. destruct IH as [[_ [Q1|Q1]]|[Q1 Q2]]; [lia | lia | rewrite Q1; lia]. }
  apply assert_runs.
  { unfold asep, paddr in *. lia. }
  unfold assert_. replace (0 <? len b / 2) with true by lia. rewrite orb_true_r. apply runs_ret, H.
Qed.

Lemma fpu_split_ok m l yl yh b inp outl outh :
  0 <= NC -> iir_down_inv coef (fcoef_ok o coef) (fpu_stt o) m l ->
  iir_down_rel coef (2 * ((NC + 1) / 2)) (2 * (NC / 2) + 1) fpu_low l yl ->
  iir_down_rel coef (2 * ((NC + 1) / 2)) (2 * (NC / 2) + 1) fpu_high l yh ->
  split_pre 0 m inp outl outh b ->
  runs (fpu_process_block_split addr ndebug o outl outh inp (len b / 2)) m (fun _ m' =>
    exists y z, len y = len b / 2 /\ len z = len b / 2 /\
      iir_down_rel coef (2 * ((NC + 1) / 2)) (2 * (NC / 2) + 1) fpu_low (l ++ b) (yl ++ y) /\
      iir_down_rel coef (2 * ((NC + 1) / 2)) (2 * (NC / 2) + 1) fpu_high (l ++ b) (yh ++ z) /\
      has m' outl (len y) (nthZ y) /\ has m' outh (len z) (nthZ z) /\ iir_down_inv coef (fcoef_ok o coef) (fpu_stt o) m' (l ++ b) /\
      (forall b' i, ~ priv tag b' -> ~ inr outl (len b / 2) b' i -> ~ inr outh (len b / 2) b' i -> m' b' i = m b' i)).
Proof.
  intros HN I0 Rl Rh P. destruct (sp_n _ _ _ _ _ _ P) as [Hn He].
  assert (Eb : len b = 2 * (len b / 2)) by (pose proof (Z.div_mod (len b) 2); lia).
  unfold fpu_process_block_split. apply split_asserts_runs with (1 := P).
  eapply split_loop_ok with (input := inp) (cok := fcoef_ok o coef) (stt := fpu_stt o) (tag := tag) (slack := 0).
  - apply fpu_stt_loc.
  - intros m1 V V'. apply fpu_stt_ext.
  - exact Eb.
  - lia.
  - apply loops_do. lia.
  - intros x k pos m' Hp Hk C1 S1 Fe Fo Mi Ml Mh Dl Dh Ne.
    unfold fpu_process_sample_split. apply runs_bind.
    eapply runs_load.
    { rewrite padd_padd. cbn [padd pb po]. replace (pos * 2 + 1) with (2 * pos + 1) by lia. exact Fo. }
    apply runs_bind. eapply runs_load.
    { rewrite padd_padd. cbn [padd pb po]. replace (pos * 2 + 0) with (2 * pos) by lia. exact Fe. }
    apply runs_bind.
    eapply runs_mono; [apply (fpu_step o coef (osig x) (esig x) k m' HN Hk (osig_causal0 x) (esig_causal0 x) C1 S1)|].
    intros r m1 (-> & C2 & S2 & F2). cbn [fst snd].
    assert (Nl : pb outl <> FMem tag) by (intros E; rewrite E in Dl; exact Dl).
    assert (Nh : pb outh <> FMem tag) by (intros E; rewrite E in Dh; exact Dh).
    pose proof (Ml 0 ltac:(lia)) as Q1. pose proof (Mh 0 ltac:(lia)) as Q2. cbn [padd pb po] in Q1, Q2. rewrite Z.add_0_r in Q1, Q2.
    apply runs_bind, runs_store; [cbn [padd pb po]; rewrite F2 by exact Nl; exact Q1|].
    cbn [padd pb po]. apply runs_bind. eapply runs_load; [cbn [padd pb po]; apply upd_same|].
    apply runs_store; [cbn [padd pb po]; apply mapped_upd_any; rewrite F2 by exact Nh; exact Q2|].
    cbn [padd pb po].
    match goal with |- context [upd (upd m1 ?a ?b ?c) ?d ?e ?f] => set (m2 := upd (upd m1 a b c) d e f) end.
    assert (L : forall b i, tag_of b = Some tag -> m2 b i = m1 b i).
    { intros b' i Ht. assert (b' <> pb outl) by (intros ->; exact (data_untagged o _ Dl Ht)).
      assert (b' <> pb outh) by (intros ->; exact (data_untagged o _ Dh Ht)). unfold m2. rewrite !upd_other by auto. reflexivity. }
    split; [exact (fpu_cok_loc _ _ _ _ L C2)|]. split; [exact (fpu_stt_loc _ _ _ _ L S2)|]. unfold m2. split; [|split].
    + rewrite upd_other; [apply upd_same | destruct Ne; [left; assumption | right; lia]].
    + apply upd_same.
    + intros b' i Ht Hr Hr2. rewrite !upd_other.
      * apply F2. intros ->. apply Ht. reflexivity.
      * destruct (blk_eqb_spec b' (pb outl)) as [->|]; [|left; assumption].
        right. intros ->. apply Hr. split; cbn [padd pb po]; [reflexivity | lia].
      * destruct (blk_eqb_spec b' (pb outh)) as [->|]; [|left; assumption].
        right. intros ->. apply Hr2. split; cbn [padd pb po]; [reflexivity | lia].
  - exact I0.
  - exact Rl.
  - exact Rh.
  - apply P.
  - apply P.
  - apply P.
  - apply P.
  - apply P.
  - apply P.
  - apply P.
  - destruct (sp_il _ _ _ _ _ _ P) as [[D _]|D]; [left | right]; exact D.
  - destruct (sp_ih _ _ _ _ _ _ P) as [[D _]|D]; [left | right]; exact D.
  - apply P.
Qed.

Lemma sse_split_ok m l yl yh b inp outl outh :
  0 <= NC -> sse_aligned addr o -> iir_down_inv (xcoef o coef) (sse_cok o coef) (sse_stt o) m l ->
  iir_down_rel (xcoef o coef) (2 * ((NC + 1) / 2)) (2 * ((NC + 1) / 2) + 1) sse_low l yl ->
  iir_down_rel (xcoef o coef) (2 * ((NC + 1) / 2)) (2 * ((NC + 1) / 2) + 1) sse_high l yh ->
  split_pre 2 m inp outl outh b ->
  runs (sse_process_block_split addr ndebug o outl outh inp (len b / 2)) m (fun _ m' =>
    exists y z, len y = len b / 2 /\ len z = len b / 2 /\
      iir_down_rel (xcoef o coef) (2 * ((NC + 1) / 2)) (2 * ((NC + 1) / 2) + 1) sse_low (l ++ b) (yl ++ y) /\
      iir_down_rel (xcoef o coef) (2 * ((NC + 1) / 2)) (2 * ((NC + 1) / 2) + 1) sse_high (l ++ b) (yh ++ z) /\
      has m' outl (len y) (nthZ y) /\ has m' outh (len z) (nthZ z) /\ iir_down_inv (xcoef o coef) (sse_cok o coef) (sse_stt o) m' (l ++ b) /\
      (forall b' i, ~ priv tag b' -> ~ inr outl (len b / 2) b' i -> ~ inr outh (len b / 2) b' i -> m' b' i = m b' i)).
Proof.
  intros HN Al I0 Rl Rh P. destruct (sp_n _ _ _ _ _ _ P) as [Hn He].
  assert (Eb : len b = 2 * (len b / 2)) by (pose proof (Z.div_mod (len b) 2); lia).
  unfold sse_process_block_split. apply split_asserts_runs with (1 := P).
  eapply split_loop_ok with (input := inp) (cok := sse_cok o coef) (stt := sse_stt o) (tag := tag) (slack := 2).
  - apply sse_stt_loc.
  - intros m1 V V'. apply sse_stt_ext.
  - exact Eb.
  - lia.
  - apply loops_for with (body := fun pos => _). lia.
  - intros x k pos m' Hp Hk C1 S1 Fe Fo Mi Ml Mh Dl Dh Ne.
    destruct (loadu4_low (padd inp (pos * 2)) (esig x k) (osig x k) m') as (v & Lv & V0 & V1).
    { cbn [padd pb po]. rewrite (Z.mul_comm pos 2). exact Fe. }
    { cbn [padd pb po]. rewrite (Z.mul_comm pos 2), <- Z.add_assoc. exact Fo. }
    { cbn [padd pb po]. rewrite (Z.mul_comm pos 2). apply (Mi 2). lia. }
    { cbn [padd pb po]. rewrite (Z.mul_comm pos 2). apply (Mi 3). lia. }
    apply runs_bind. eapply runs_eq; [exact Lv|].
    apply runs_bind.
    eapply runs_mono; [apply (sse_step addr o coef (osig x) (esig x) k v m' HN Hk
      (osig_causal0 x) (esig_causal0 x) Al V1 V0 C1 S1)|].
    intros r m1 (R1 & R0 & C2 & S2 & F2).
    assert (Nl : pb outl <> FMem tag) by (intros E; rewrite E in Dl; exact Dl).
    assert (Nh : pb outh <> FMem tag) by (intros E; rewrite E in Dh; exact Dh).
    pose proof (Ml 0 ltac:(lia)) as Q1. pose proof (Mh 0 ltac:(lia)) as Q2. cbn [padd pb po] in Q1, Q2. rewrite Z.add_0_r in Q1, Q2.
    cbn [vmap2 vset1 l0 l1]. rewrite R1, R0.
    apply runs_bind, runs_store; [cbn [padd pb po]; rewrite F2 by exact Nl; exact Q1|].
    cbn [padd pb po].
    apply runs_store; [cbn [padd pb po]; apply mapped_upd_any; rewrite F2 by exact Nh; exact Q2|].
    cbn [padd pb po].
    match goal with |- context [upd (upd m1 ?a ?b ?c) ?d ?e ?f] => set (m2 := upd (upd m1 a b c) d e f) end.
    assert (L : forall b i, tag_of b = Some tag -> m2 b i = m1 b i).
    { intros b' i Ht. assert (b' <> pb outl) by (intros ->; exact (data_untagged o _ Dl Ht)).
      assert (b' <> pb outh) by (intros ->; exact (data_untagged o _ Dh Ht)). unfold m2. rewrite !upd_other by auto. reflexivity. }
    split; [exact (sse_cok_loc _ _ _ _ L C2)|]. split; [exact (sse_stt_loc _ _ _ _ L S2)|]. unfold m2. split; [|split].
    + rewrite upd_other; [apply upd_same | destruct Ne; [left; assumption | right; lia]].
    + apply upd_same.
    + intros b' i Ht Hr Hr2. rewrite !upd_other.
      * apply F2. intros ->. apply Ht. reflexivity.
      * destruct (blk_eqb_spec b' (pb outl)) as [->|]; [|left; assumption].
        right. intros ->. apply Hr. split; cbn [padd pb po]; [reflexivity | lia].
      * destruct (blk_eqb_spec b' (pb outh)) as [->|]; [|left; assumption].
        right. intros ->. apply Hr2. split; cbn [padd pb po]; [reflexivity | lia].
  - exact I0.
  - exact Rl.
  - exact Rh.
  - apply P.
  - apply P.
  - apply P.
  - apply P.
  - apply P.
  - apply P.
  - apply P.
  - destruct (sp_il _ _ _ _ _ _ P) as [[D _]|D]; [left | right]; exact D.
  - destruct (sp_ih _ _ _ _ _ _ P) as [[D _]|D]; [left | right]; exact D.
  - apply P.
Qed.
End Classes.

(** ** Programs that use one downsampler object *)
Section Programs.
Context {A : arith} (sse : bool) (o : iir) (cs : list A).
Implicit Types (m : mem A) (x : list A).

Definition d_construct : M A unit := if sse then sse_construct o (nth_f cs) else fpu_construct o (nth_f cs).
Definition d_clear addr : M A unit := if sse then sse_clear_buffers addr o else fpu_clear_buffers o.
Definition d_block addr ndebug out inp n : M A unit :=
  if sse then sse_down_process_block addr ndebug o out inp n else fpu_down_process_block addr ndebug o out inp n.
Definition d_split addr ndebug outl outh inp n : M A unit :=
  if sse then sse_process_block_split addr ndebug o outl outh inp n else fpu_process_block_split addr ndebug o outl outh inp n.

Definition d_slack : Z := if sse then 2 else 0.

(** the two branches, and what the functions make of them; the vector version completes
    an odd number of coefficients with a 1 *)
Definition d_cs : list A := if sse then even_up cs else cs.
Definition odd_branch x : list A := chain (evens d_cs) (odds x).
Definition even_branch x : list A := chain (odds d_cs) (evens x).
Definition bank (f : A -> A -> A) x : list A := zip f (odd_branch x) (even_branch x).
Definition f_mean : A -> A -> A := if sse then fun a b => fmul (fadd b a) fhalf else fun a b => fmul fhalf (fadd a b).
Definition f_low : A -> A -> A := if sse then fun a b => fadd (fmul a fhalf) (fmul b fhalf) else fun a b => fmul (fadd a b) fhalf.
Definition f_high : A -> A -> A := if sse then fun a b => fsub (fmul a fhalf) (fmul b fhalf) else fun a b => fsub a (fmul (fadd a b) fhalf).

(** obligations of the caller of process_block *)
Record block_pre addr m (inp out : ptr) (b : list A) : Prop := {
  bp_n : 0 < len b /\ len b mod 2 = 0;
  bp_in_data : is_data (pb inp);
  bp_out_data : is_data (pb out);
  bp_in : has m inp (len b) (nthZ b);
  bp_slack : mapped m (padd inp (len b)) d_slack;
  bp_out : mapped m out (len b / 2);
  bp_io : disj inp (len b + d_slack) out (len b / 2) /\ asep addr inp (len b) out (len b / 2) \/ over inp out }.

(** the samples x were passed to the object since its construction or the last clear_buffers *)
Inductive fed : mem A -> list A -> Prop :=
| fed_new m m' : d_construct m = Ok (tt, m') -> fed m' []
| fed_clear m x addr m' : fed m x -> addr_ok addr -> d_clear addr m = Ok (tt, m') -> fed m' []
| fed_block m x addr ndebug inp out b m' : fed m x -> addr_ok addr -> block_pre addr m inp out b ->
    d_block addr ndebug out inp (len b / 2) m = Ok (tt, m') -> fed m' (x ++ b)
| fed_split m x addr ndebug inp outl outh b m' : fed m x -> addr_ok addr -> split_pre addr d_slack m inp outl outh b ->
    d_split addr ndebug outl outh inp (len b / 2) m = Ok (tt, m') -> fed m' (x ++ b)
| fed_other m x m' : fed m x -> (forall b i, tag_of b = Some (i_tag o) -> m' b i = m b i) -> fed m' x.

Notation NC := (i_nc o).
Definition d_coef : Z -> A := if sse then xcoef o (nth_f cs) else nth_f cs.
Definition d_e1 : Z := if sse then 2 * ((NC + 1) / 2) + 1 else 2 * (NC / 2) + 1.
Definition d_inv m x : Prop :=
  if sse then iir_down_inv (xcoef o (nth_f cs)) (sse_cok o (nth_f cs)) (sse_stt o) m x
  else iir_down_inv (nth_f cs) (fcoef_ok o (nth_f cs)) (fpu_stt o) m x.
Definition d_rel (f : A -> A -> A) x y : Prop := iir_down_rel d_coef (2 * ((NC + 1) / 2)) d_e1 f x y.

Hypothesis HNC : NC = size cs.

Lemma d_nc : 0 <= NC. Proof. rewrite HNC. unfold size. lia. Qed.

Lemma d_rel_bank f x y : d_rel f x y -> y = bank f x.
Proof.
  unfold d_rel, d_coef, d_e1, bank, odd_branch, even_branch, d_cs. destruct sse; intros H.
  - apply (iir_down_spec _ (even_up cs) (xcoef o (nth_f cs))).
    + intros j Hj. rewrite even_up_smp by exact Hj. unfold xcoef. rewrite HNC.
      destruct (j <? size cs); [|reflexivity]. apply nth_f_smp. lia.
    + rewrite even_up_size. rewrite HNC in H. set (h := (size cs + 1) / 2) in *.
      replace ((2 * h + 1) / 2) with h by (apply Z.div_unique with 1; lia).
      replace (2 * h / 2) with h by (apply Z.div_unique with 0; lia). exact H.
  - apply (iir_down_spec _ cs (nth_f cs)); [intros j Hj; apply nth_f_smp; lia|]. rewrite HNC in H. exact H.
Qed.

Lemma d_rel_exists f x : len x mod 2 = 0 -> exists y, d_rel f x y.
Proof.
  intros He. pose proof (len_nonneg x).
  exists (map (fun i => f (W d_coef (osig x) (esig x) (2 * ((NC + 1) / 2)) (Z.of_nat i)) (W d_coef (osig x) (esig x) d_e1 (Z.of_nat i)))
            (seq 0 (Z.to_nat (len x / 2)))).
  assert (Hd : 0 <= len x / 2) by (apply Z.div_pos; lia).
  assert (L : len (map (fun i => f (W d_coef (osig x) (esig x) (2 * ((NC + 1) / 2)) (Z.of_nat i)) (W d_coef (osig x) (esig x) d_e1 (Z.of_nat i)))
            (seq 0 (Z.to_nat (len x / 2)))) = len x / 2) by (unfold len at 1; rewrite map_length, seq_length; lia).
  split; [rewrite L; pose proof (Z.div_mod (len x) 2); lia|]. intros k Hk. rewrite L in Hk.
  apply (nthZ_map_seq (fun i => f (W d_coef (osig x) (esig x) (2 * ((NC + 1) / 2)) i) (W d_coef (osig x) (esig x) d_e1 i))). lia.
Qed.

Lemma d_rel_low x y : d_rel f_low x y -> d_rel (if sse then sse_low else fpu_low) x y.
Proof. unfold f_low. destruct sse; exact (fun H => H). Qed.

Lemma split_runs m x yl yh addr ndebug inp outl outh b : d_inv m x -> addr_ok addr ->
  d_rel f_low x yl -> d_rel f_high x yh -> split_pre addr d_slack m inp outl outh b ->
  runs (d_split addr ndebug outl outh inp (len b / 2)) m (fun _ m' =>
    exists y z, len y = len b / 2 /\ len z = len b / 2 /\
      d_rel f_low (x ++ b) (yl ++ y) /\ d_rel f_high (x ++ b) (yh ++ z) /\
      has m' outl (len y) (nthZ y) /\ has m' outh (len z) (nthZ z) /\ d_inv m' (x ++ b) /\
      (forall b' i, ~ priv (i_tag o) b' -> ~ inr outl (len b / 2) b' i -> ~ inr outh (len b / 2) b' i -> m' b' i = m b' i)).
Proof.
  pose proof d_nc as HN. unfold d_inv, d_rel, f_low, f_high, d_split, d_slack, d_coef, d_e1. intros I0 AO Rl Rh P. destruct sse.
  - apply sse_split_ok; try assumption. split; apply AO.
  - apply fpu_split_ok; assumption.
Qed.

Lemma block_runs m x yl addr ndebug inp out b : d_inv m x -> addr_ok addr ->
  d_rel f_mean x yl -> block_pre addr m inp out b ->
  runs (d_block addr ndebug out inp (len b / 2)) m (fun _ m' =>
    exists y, len y = len b / 2 /\ d_rel f_mean (x ++ b) (yl ++ y) /\
      has m' out (len y) (nthZ y) /\ d_inv m' (x ++ b) /\
      (forall b' i, ~ priv (i_tag o) b' -> ~ inr out (len b / 2) b' i -> m' b' i = m b' i)).
Proof.
  pose proof d_nc as HN. unfold d_inv, d_rel, f_mean, d_block, d_coef, d_e1. intros I0 AO Rl [P1 P2 P3 P4 P5 P6 P7]. unfold d_slack in *. destruct sse.
  - assert (Al : sse_aligned addr o) by (split; apply AO).
    apply (sse_down_stage_ok addr ndebug o (nth_f cs) HN Al m x yl b inp out); try assumption.
    + destruct P7 as [[D _]|D]; [left; exact D | right; split; [exact I | exact D]].
    + intros _. destruct P7 as [[_ D]|D]; [left; exact D | right; split; [exact I | exact D]].
  - apply (fpu_down_stage_ok addr ndebug o (nth_f cs) HN m x yl b inp out); try assumption.
    + destruct P7 as [[D _]|D]; [left; exact D | right; split; [exact I | exact D]].
    + intros _. destruct P7 as [[_ D]|D]; [left; exact D | right; split; [exact I | exact D]].
Qed.

Lemma construct_runs m : runs d_construct m (fun _ m' => d_inv m' [] /\ forall b i, tag_of b <> Some (i_tag o) -> m' b i = m b i).
Proof.
  pose proof d_nc as HN. unfold d_construct, d_inv. destruct sse.
  - eapply runs_mono; [apply sse_construct_runs; exact HN|]. intros _ m' (_ & H & F). auto.
  - eapply runs_mono; [apply fpu_construct_runs; exact HN|]. intros _ m' (_ & H & F). auto.
Qed.

Lemma clear_runs m x addr : d_inv m x -> addr_ok addr ->
  runs (d_clear addr) m (fun _ m' => d_inv m' [] /\ forall b i, tag_of b <> Some (i_tag o) -> m' b i = m b i).
Proof.
  pose proof d_nc as HN. unfold d_clear, d_inv. destruct sse; intros [C S] AO.
  - eapply runs_mono; [eapply sse_clear_runs; [exact HN | split; apply AO | exact C | exact S]|]. intros _ m' (_ & H & F). auto.
  - eapply runs_mono; [eapply fpu_clear_runs; [exact HN | exact C | exact S]|]. intros _ m' (_ & H & F). auto.
Qed.

Lemma runs_ok {X} (c : M A X) m v m' Q : runs c m Q -> c m = Ok (v, m') -> Q v m'.
Proof. unfold runs. intros H E. rewrite E in H. exact H. Qed.

Lemma runs_ex {X} (c : M A X) m Q : runs c m Q -> exists v m', c m = Ok (v, m') /\ Q v m'.
Proof. unfold runs. destruct (c m) as [[v m']|]; [|contradiction]. eauto. Qed.

Lemma d_inv_other m m' x : (forall b i, tag_of b = Some (i_tag o) -> m' b i = m b i) -> d_inv m x -> d_inv m' x.
Proof.
  unfold d_inv. destruct sse; intros E H.
  - eapply iir_down_inv_local; [| | exact E | exact H]; [apply sse_cok_loc | apply sse_stt_loc].
  - eapply iir_down_inv_local; [| | exact E | exact H]; [apply fpu_cok_loc | apply fpu_stt_loc].
Qed.

Lemma fed_inv m x : fed m x -> d_inv m x /\ len x mod 2 = 0.
Proof.
  induction 1 as [m m' E|m x addr m' H [IH Ie] AO E|m x addr nd inp out b m' H [IH Ie] AO P E|m x addr nd inp outl outh b m' H [IH Ie] AO P E|m x m' H [IH Ie] E].
  - split; [|reflexivity]. exact (proj1 (runs_ok _ _ _ _ _ (construct_runs m) E)).
  - split; [|reflexivity]. exact (proj1 (runs_ok _ _ _ _ _ (clear_runs m x addr IH AO) E)).
  - destruct (d_rel_exists f_mean x Ie) as (yl & Rl).
    destruct (runs_ok _ _ _ _ _ (block_runs m x yl addr nd inp out b IH AO Rl P) E) as (y & _ & _ & _ & I' & _).
    split; [exact I'|]. rewrite len_app, Z.add_mod, Ie, (proj2 (bp_n _ _ _ _ _ P)) by lia. reflexivity.
  - destruct (d_rel_exists f_low x Ie) as (yl & Rl). destruct (d_rel_exists f_high x Ie) as (yh & Rh).
    destruct (runs_ok _ _ _ _ _ (split_runs m x yl yh addr nd inp outl outh b IH AO Rl Rh P) E) as (y & z & _ & _ & _ & _ & _ & _ & I' & _).
    split; [exact I'|]. rewrite len_app, Z.add_mod, Ie, (proj2 (sp_n _ _ _ _ _ _ _ P)) by lia. reflexivity.
  - split; [exact (d_inv_other _ _ _ E IH) | exact Ie].
Qed.

Theorem fed_split_progress m x addr ndebug inp outl outh b : fed m x -> addr_ok addr -> split_pre addr d_slack m inp outl outh b ->
  exists m' y z, d_split addr ndebug outl outh inp (len b / 2) m = Ok (tt, m') /\ len y = len b / 2 /\ len z = len b / 2 /\
    bank f_low (x ++ b) = bank f_low x ++ y /\ bank f_high (x ++ b) = bank f_high x ++ z /\
    has m' outl (len y) (nthZ y) /\ has m' outh (len z) (nthZ z) /\
    (forall b' i, ~ priv (i_tag o) b' -> ~ inr outl (len b / 2) b' i -> ~ inr outh (len b / 2) b' i -> m' b' i = m b' i) /\
    fed m' (x ++ b).
Proof.
  intros H AO P. destruct (fed_inv m x H) as [IH Ie].
  destruct (d_rel_exists f_low x Ie) as (yl & Rl). destruct (d_rel_exists f_high x Ie) as (yh & Rh).
  destruct (runs_ex _ _ _ (split_runs m x yl yh addr ndebug inp outl outh b IH AO Rl Rh P)) as ([] & m' & E & y & z & Ly & Lz & Ry & Rz & Hy & Hz & I' & F).
  exists m', y, z. rewrite <- (d_rel_bank _ _ _ Rl), <- (d_rel_bank _ _ _ Rh), <- (d_rel_bank _ _ _ Ry), <- (d_rel_bank _ _ _ Rz).
  split; [exact E|]. split; [exact Ly|]. split; [exact Lz|]. split; [reflexivity|]. split; [reflexivity|]. split; [exact Hy|]. split; [exact Hz|]. split; [exact F|].
  eapply fed_split; eassumption.
Qed.

Theorem fed_block_progress m x addr ndebug inp out b : fed m x -> addr_ok addr -> block_pre addr m inp out b ->
  exists m' y, d_block addr ndebug out inp (len b / 2) m = Ok (tt, m') /\ len y = len b / 2 /\
    bank f_mean (x ++ b) = bank f_mean x ++ y /\ has m' out (len y) (nthZ y) /\
    (forall b' i, ~ priv (i_tag o) b' -> ~ inr out (len b / 2) b' i -> m' b' i = m b' i) /\ fed m' (x ++ b).
Proof.
  intros H AO P. destruct (fed_inv m x H) as [IH Ie]. destruct (d_rel_exists f_mean x Ie) as (yl & Rl).
  destruct (runs_ex _ _ _ (block_runs m x yl addr ndebug inp out b IH AO Rl P)) as ([] & m' & E & y & Ly & Ry & Hy & I' & F).
  exists m', y. rewrite <- (d_rel_bank _ _ _ Rl), <- (d_rel_bank _ _ _ Ry).
  split; [exact E|]. split; [exact Ly|]. split; [reflexivity|]. split; [exact Hy|]. split; [exact F|].
  eapply fed_block; eassumption.
Qed.

Theorem fed_clear_progress m x addr : fed m x -> addr_ok addr -> exists m', d_clear addr m = Ok (tt, m') /\ fed m' [].
Proof.
  intros H AO. destruct (fed_inv m x H) as [IH Ie]. destruct (runs_ex _ _ _ (clear_runs m x addr IH AO)) as ([] & m' & E & _).
  exists m'. split; [exact E|]. eapply fed_clear; eassumption.
Qed.

Theorem fed_new_progress m : exists m', d_construct m = Ok (tt, m') /\ fed m' [] /\ forall b i, tag_of b <> Some (i_tag o) -> m' b i = m b i.
Proof.
  destruct (runs_ex _ _ _ (construct_runs m)) as ([] & m' & E & _ & F).
  exists m'. split; [exact E|]. split; [eapply fed_new; eassumption | exact F].
Qed.
End Programs.

(** Programs that split a stream into bands: the samples x went in and the samples yl, yh came out
    since the construction or the last clear_buffers *)
Section Streams.
Context {A : arith} (sse : bool) (o : iir) (cs : list A).
Implicit Types (m : mem A) (x : list A).

Inductive splits : mem A -> list A -> list A -> list A -> Prop :=
| splits_new m m' : d_construct sse o cs m = Ok (tt, m') -> splits m' [] [] []
| splits_clear m x yl yh addr m' : splits m x yl yh -> addr_ok addr -> d_clear sse o addr m = Ok (tt, m') -> splits m' [] [] []
| splits_call m x yl yh addr ndebug inp outl outh b m' y z : splits m x yl yh -> addr_ok addr ->
    split_pre addr (d_slack sse) m inp outl outh b ->
    d_split sse o addr ndebug outl outh inp (len b / 2) m = Ok (tt, m') ->
    len y = len b / 2 -> has m' outl (len y) (nthZ y) -> len z = len b / 2 -> has m' outh (len z) (nthZ z) ->
    splits m' (x ++ b) (yl ++ y) (yh ++ z)
| splits_other m x yl yh m' : splits m x yl yh -> (forall b i, tag_of b = Some (i_tag o) -> m' b i = m b i) -> splits m' x yl yh.

Lemma has_unique m p n (y z : list A) : len y = n -> len z = n -> has m p n (nthZ y) -> has m p n (nthZ z) -> y = z.
Proof.
  intros Ly Lz Hy Hz. apply nthZ_ext; [lia|]. intros k Hk. specialize (Hy k ltac:(lia)). specialize (Hz k ltac:(lia)). congruence.
Qed.

Theorem splits_fed m x yl yh : i_nc o = size cs -> splits m x yl yh ->
  fed sse o cs m x /\ yl = bank sse cs (f_low sse) x /\ yh = bank sse cs (f_high sse) x.
Proof.
  intros HN. induction 1 as [m m' E|m x yl yh addr m' H IH AO E|m x yl yh addr nd inp outl outh b m' y z H IH AO P E Ly Hy Lz Hz|m x yl yh m' H IH E].
  - split; [eapply fed_new; exact E|]. unfold bank, odd_branch, even_branch. cbn [odds evens].
    assert (C : forall l : list A, chain l [] = []) by (intros l; induction l; [reflexivity | assumption]). rewrite !C. split; reflexivity.
  - split; [eapply fed_clear; [apply IH | exact AO | exact E]|]. unfold bank, odd_branch, even_branch. cbn [odds evens].
    assert (C : forall l : list A, chain l [] = []) by (intros l; induction l; [reflexivity | assumption]). rewrite !C. split; reflexivity.
  - destruct IH as (F & -> & ->).
    destruct (fed_split_progress sse o cs HN m x addr nd inp outl outh b F AO P) as (m1 & y1 & z1 & E1 & L1 & L2 & B1 & B2 & H1 & H2 & _ & F').
    rewrite E in E1. injection E1 as <-. rewrite B1, B2. split; [exact F'|].
    rewrite Ly in Hy. rewrite Lz in Hz. rewrite L1 in H1. rewrite L2 in H2.
    rewrite (has_unique _ _ _ _ _ Ly L1 Hy H1), (has_unique _ _ _ _ _ Lz L2 Hz H2). split; reflexivity.
  - destruct IH as (F & -> & ->). split; [eapply fed_other; eassumption|]. split; reflexivity.
Qed.

Theorem splits_progress m x yl yh addr ndebug inp outl outh b : i_nc o = size cs -> splits m x yl yh -> addr_ok addr ->
  split_pre addr (d_slack sse) m inp outl outh b ->
  exists m' y z, d_split sse o addr ndebug outl outh inp (len b / 2) m = Ok (tt, m') /\
    len y = len b / 2 /\ len z = len b / 2 /\ has m' outl (len y) (nthZ y) /\ has m' outh (len z) (nthZ z) /\
    (forall b' i, ~ priv (i_tag o) b' -> ~ inr outl (len b / 2) b' i -> ~ inr outh (len b / 2) b' i -> m' b' i = m b' i) /\
    splits m' (x ++ b) (yl ++ y) (yh ++ z).
Proof.
  intros HN H AO P. destruct (splits_fed _ _ _ _ HN H) as (F & _ & _).
  destruct (fed_split_progress sse o cs HN m x addr ndebug inp outl outh b F AO P) as (m1 & y1 & z1 & E1 & L1 & L2 & B1 & B2 & H1 & H2 & Fr & F').
  exists m1, y1, z1. repeat (split; [assumption|]). eapply splits_call; eassumption.
Qed.
End Streams.
