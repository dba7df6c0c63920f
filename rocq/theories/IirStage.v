(** * The IIR classes satisfy the stage contract *)
From Coq Require Import ZArith List Lia Bool ZifyNat ZifyBool.
From Verif Require Import Arith Mem IirModel Wp FirDownProof Stage IirProof.
Import ListNotations.
Open Scope Z_scope.
Open Scope m_scope.

Section Parts.
Context {A : arith}.

(** odd and even samples of a stream *)
Definition osig (x : list A) (k : Z) : A := sig x (2 * k + 1).
Definition esig (x : list A) (k : Z) : A := sig x (2 * k).

Lemma sig_causal0 (x : list A) : causal0 (sig x).
Proof. intros k Hk. now apply sig_neg. Qed.
Lemma osig_causal0 (x : list A) : causal0 (osig x).
Proof. intros k Hk. apply sig_neg. lia. Qed.
Lemma esig_causal0 (x : list A) : causal0 (esig x).
Proof. intros k Hk. apply sig_neg. lia. Qed.

End Parts.

(** ** Relations between input and output streams *)
Section Rel.
Context {A : arith} (coef : Z -> A) (e0 e1 : Z).

Definition iir_up_rel (x y : list A) : Prop :=
  len y = 2 * len x /\
  forall k, 0 <= k < len x ->
    nthZ y (2 * k) = W coef (sig x) (sig x) e0 k /\
    nthZ y (2 * k + 1) = W coef (sig x) (sig x) e1 k.

Definition iir_down_rel (comb : A -> A -> A) (x y : list A) : Prop :=
  len x = 2 * len y /\
  forall k, 0 <= k < len y ->
    nthZ y k = comb (W coef (osig x) (esig x) e0 k) (W coef (osig x) (esig x) e1 k).

Lemma W_up_app (x b : list A) i k : k < len x ->
  W coef (sig (x ++ b)) (sig (x ++ b)) i k = W coef (sig x) (sig x) i k.
Proof. intros Hk. apply W_ext; intros j Hj; apply sig_app1; lia. Qed.

Lemma W_down_app (x b : list A) i k : 2 * k + 1 < len x ->
  W coef (osig (x ++ b)) (esig (x ++ b)) i k = W coef (osig x) (esig x) i k.
Proof. intros Hk. apply W_ext; intros j Hj; apply sig_app1; lia. Qed.

Lemma iir_up_rel_nil : iir_up_rel [] [].
Proof. split; [reflexivity|]. intros k Hk. cbn in Hk. lia. Qed.
Lemma iir_down_rel_nil comb : iir_down_rel comb [] [].
Proof. split; [reflexivity|]. intros k Hk. cbn in Hk. lia. Qed.

Lemma iir_up_rel_app x y b z :
  iir_up_rel x y -> len z = 2 * len b ->
  (forall k, 0 <= k < len b ->
    nthZ z (2 * k) = W coef (sig (x ++ b)) (sig (x ++ b)) e0 (len x + k) /\
    nthZ z (2 * k + 1) = W coef (sig (x ++ b)) (sig (x ++ b)) e1 (len x + k)) ->
  iir_up_rel (x ++ b) (y ++ z).
Proof.
  intros [L Hx] Lz Hz. pose proof (len_nonneg x). pose proof (len_nonneg b).
  split; [rewrite !len_app; lia|].
  intros k Hk. rewrite len_app in Hk. destruct (Z.lt_ge_cases k (len x)) as [Hlt|Hge].
  - destruct (Hx k ltac:(lia)) as [V1 V2]. rewrite !nthZ_app1 by lia. rewrite !W_up_app by lia. auto.
  - destruct (Hz (k - len x) ltac:(lia)) as [V1 V2].
    replace (2 * k) with (len y + 2 * (k - len x)) by lia.
    replace (len y + 2 * (k - len x) + 1) with (len y + (2 * (k - len x) + 1)) by lia.
    rewrite !nthZ_app2 by lia. replace (len x + (k - len x)) with k in V1, V2 by lia. auto.
Qed.

Lemma iir_down_rel_app comb x y b z :
  iir_down_rel comb x y -> len b = 2 * len z ->
  (forall k, 0 <= k < len z ->
    nthZ z k = comb (W coef (osig (x ++ b)) (esig (x ++ b)) e0 (len y + k))
                    (W coef (osig (x ++ b)) (esig (x ++ b)) e1 (len y + k))) ->
  iir_down_rel comb (x ++ b) (y ++ z).
Proof.
  intros [L Hx] Lb Hz. pose proof (len_nonneg y). pose proof (len_nonneg z).
  split; [rewrite !len_app; lia|].
  intros k Hk. rewrite len_app in Hk. destruct (Z.lt_ge_cases k (len y)) as [Hlt|Hge].
  - rewrite nthZ_app1 by lia. rewrite (Hx k) by lia. rewrite !W_down_app by lia. reflexivity.
  - specialize (Hz (k - len y) ltac:(lia)).
    replace (len y + (k - len y)) with k in Hz by lia.
    replace k with (len y + (k - len y)) at 1 by lia. rewrite nthZ_app2 by lia. exact Hz.
Qed.
End Rel.

(** ** Loops over the samples of a block *)
Section Loop.
Context {A : arith}.

(** c runs body 0, ..., body (n-1) *)
Definition loops (c : M A unit) (n : Z) (body : Z -> M A unit) : Prop :=
  forall (Inv : Z -> mem A -> Prop) m, Inv 0 m ->
    (forall k m', 0 <= k < n -> Inv k m' -> runs (body k) m' (fun _ => Inv (k + 1))) ->
    runs c m (fun _ => Inv n).

Lemma loops_for n body : 0 <= n -> loops (for_up (Z.to_nat n) 0 (fun pos _ => body pos) tt) n body.
Proof.
  intros Hn Inv m I0 Hb. apply runs_for with (Inv := fun k _ => Inv k).
  - exact I0.
  - intros k _ m' Hk I. apply Hb; [lia | exact I].
  - intros _ m' I. replace n with (0 + Z.of_nat (Z.to_nat n)) by lia. exact I.
Qed.

Lemma loops_do n body : 0 < n -> loops (do_while_pos n body) n body.
Proof.
  intros Hn Inv m I0 Hb. unfold do_while_pos. apply runs_bind.
  eapply runs_mono; [apply (Hb 0); [lia | exact I0]|]. cbv beta. change (0 + 1) with 1. intros _ m1 I1. apply runs_bind.
  apply runs_while with (Inv := fun k m' => 1 <= k <= n /\ Inv k m') (meas := fun k => n - k).
  - split; [lia | exact I1].
  - intros k m' [Hk _] Hc. lia.
  - lia.
  - intros k m' [Hk I] Hc. apply runs_bind. eapply runs_mono; [apply Hb; [lia | exact I]|].
    intros u m2 I2. apply runs_ret. split; [split; [lia | exact I2] | lia].
  - intros k m' [Hk I] Hc. apply runs_ret. replace n with k by lia. exact I.
Qed.
End Loop.

(** ** Blocks, for any representation of the filter state *)
Section Gen.
Context {A : arith} (tag : Z) (coef : Z -> A) (e0 e1 : Z)
        (cok : mem A -> Prop) (stt : mem A -> (Z -> A) -> Prop).
Implicit Types m : mem A.

Definition loc (P : mem A -> Prop) : Prop :=
  forall m m', (forall b i, tag_of b = Some tag -> m' b i = m b i) -> P m -> P m'.

Hypothesis cok_loc : loc cok.
Hypothesis stt_loc : forall V, loc (fun m => stt m V).
Hypothesis stt_ext : forall m V V', (forall i, V i = V' i) -> stt m V -> stt m V'.

Definition iir_up_inv m (l : list A) : Prop :=
  cok m /\ stt m (fun i => W coef (sig l) (sig l) i (len l - 1)).
Definition iir_down_inv m (l : list A) : Prop :=
  cok m /\ stt m (fun i => W coef (osig l) (esig l) i (len l / 2 - 1)).

Lemma iir_up_inv_local : local tag iir_up_inv.
Proof.
  intros m m' l E [H1 H2]. split; [eapply cok_loc; eauto|].
  apply (stt_loc _ m m' E H2).
Qed.
Lemma iir_down_inv_local : local tag iir_down_inv.
Proof.
  intros m m' l E [H1 H2]. split; [eapply cok_loc; eauto|].
  apply (stt_loc _ m m' E H2).
Qed.

(** the memory may differ in the filter's own blocks and, in the range given, in the output *)
Definition only (out : ptr) (a n : Z) m m' : Prop :=
  forall b i, tag_of b <> Some tag -> ~ inr (padd out a) n b i -> m' b i = m b i.

Lemma up_loop_ok c b (body : Z -> M A unit) m l yl input output :
  loops c (len b) body ->
  (forall x k pos m', 0 <= pos -> 0 <= k ->
     cok m' -> stt m' (fun i => W coef (sig x) (sig x) i (k - 1)) ->
     m' (pb input) (po input + pos) = Some (sig x k) ->
     mapped m' (padd output (2 * pos)) 2 -> is_data (pb output) ->
     runs (body pos) m' (fun _ m'' =>
       cok m'' /\ stt m'' (fun i => W coef (sig x) (sig x) i k) /\
       m'' (pb output) (po output + 2 * pos) = Some (W coef (sig x) (sig x) e0 k) /\
       m'' (pb output) (po output + (2 * pos + 1)) = Some (W coef (sig x) (sig x) e1 k) /\
       only output (2 * pos) 2 m' m'')) ->
  iir_up_inv m l -> iir_up_rel coef e0 e1 l yl ->
  is_data (pb input) -> is_data (pb output) ->
  has m input (len b) (nthZ b) -> mapped m output (2 * len b) ->
  disj input (len b) output (2 * len b) ->
  runs c m (fun _ m' =>
    exists y, len y = 2 * len b /\ iir_up_rel coef e0 e1 (l ++ b) (yl ++ y) /\
      has m' output (len y) (nthZ y) /\ iir_up_inv m' (l ++ b) /\
      (forall b' i, ~ priv tag b' -> ~ inr output (2 * len b) b' i -> m' b' i = m b' i)).
Proof.
  intros HL Hbody [C0 S0] Rl Di Do Hi Mo D.
  pose proof (len_nonneg b) as Hn. pose proof (len_nonneg l) as Hq.
  set (n := len b) in *. set (q := len l) in *. set (x := l ++ b).
  set (Inv := fun k m' =>
    cok m' /\ stt m' (fun i => W coef (sig x) (sig x) i (q + k - 1)) /\
    (forall j, 0 <= j < k ->
      m' (pb output) (po output + 2 * j) = Some (W coef (sig x) (sig x) e0 (q + j)) /\
      m' (pb output) (po output + (2 * j + 1)) = Some (W coef (sig x) (sig x) e1 (q + j))) /\
    only output 0 (2 * k) m m').
  eapply runs_mono.
  { apply (HL Inv).
    - split; [exact C0|]. split.
      + eapply stt_ext; [|exact S0]. intros i. cbn beta. rewrite Z.add_0_r. unfold x. symmetry.
        apply W_up_app. fold q. lia.
      + split; [intros j Hj; lia | intros b' i _ _; reflexivity].
    - intros k m' Hk (C1 & S1 & V1 & F1).
      assert (Fi : m' (pb input) (po input + k) = Some (sig x (q + k))).
      { rewrite F1.
        - rewrite Hi by lia. f_equal. unfold x. symmetry. apply sig_app2. lia.
        - intros E. destruct (pb input); cbn in E, Di; (discriminate || contradiction).
        - intros [E R]. cbn [padd pb po] in E, R. destruct D as [D|D]; [congruence | lia]. }
      assert (Mo' : mapped m' (padd output (2 * k)) 2).
      { intros j Hj E. cbn [padd pb po] in E. rewrite F1 in E.
        - rewrite <- Z.add_assoc in E. exact (Mo (2 * k + j) ltac:(lia) E).
        - intros Et. destruct (pb output); cbn in Et, Do; (discriminate || contradiction).
        - intros [_ R]. cbn [padd po] in R. lia. }
      eapply runs_mono; [exact (Hbody x (q + k) k m' ltac:(lia) ltac:(lia) C1 S1 Fi Mo' Do)|].
      intros _ m'' (C2 & S2 & Y0 & Y1 & F2). split; [exact C2|]. split; [|split].
      + eapply stt_ext; [|exact S2]. intros i. cbn beta. f_equal. lia.
      + intros j Hj. destruct (Z.eq_dec j k) as [->|Hne]; [split; assumption|].
        destruct (V1 j ltac:(lia)) as [E0' E1'].
        assert (Ht : tag_of (pb output) <> Some tag).
        { intros Et. destruct (pb output); cbn in Et, Do; (discriminate || contradiction). }
        split; (rewrite F2; [assumption | exact Ht | intros [_ R]; cbn [padd po] in R; lia]).
      + intros b' i Ht Hr. rewrite F2; [apply F1|..]; try exact Ht.
        * intros [E R]. apply Hr. cbn [padd pb po] in *. split; [exact E | cbn [padd po]; lia].
        * intros [E R]. apply Hr. cbn [padd pb po] in *. split; [exact E | cbn [padd po]; lia]. }
  intros _ m' (C1 & S1 & V1 & F1).
  assert (Mo' : mapped m' output (2 * n)).
  { intros k Hk E. pose proof (Z.div_mod k 2 ltac:(lia)) as Ek. pose proof (Z.mod_pos_bound k 2 ltac:(lia)).
    destruct (V1 (k / 2)) as [E0' E1']; [split; [apply Z.div_pos; lia | apply Z.div_lt_upper_bound; lia]|].
    destruct (Z.eq_dec (k mod 2) 0).
    - replace k with (2 * (k / 2)) in E by lia. congruence.
    - replace k with (2 * (k / 2) + 1) in E by lia. congruence. }
  destruct (has_read m' output (2 * n) ltac:(lia) Mo') as (y & Ly & Hy).
  exists y. split; [exact Ly|]. split; [|split; [|split; [split|]]].
  - apply iir_up_rel_app; [exact Rl | exact Ly |]. fold n q x. intros k Hk.
    destruct (V1 k Hk) as [E0' E1']. rewrite Hy in E0' by lia. rewrite Hy in E1' by lia.
    split; congruence.
  - rewrite Ly. exact Hy.
  - exact C1.
  - eapply stt_ext; [|exact S1]. intros i. cbn beta. unfold x. rewrite len_app. reflexivity.
  - intros b' i Hp Hr. apply F1.
    + intros E. apply Hp. left. exact E.
    + rewrite padd_0. exact Hr.
Qed.

Lemma down_loop_ok comb slack c (body : Z -> M A unit) m l yl b input output n :
  len b = 2 * n -> 0 <= slack ->
  loops c n body ->
  (forall x k pos m', 0 <= pos -> 0 <= k ->
     cok m' -> stt m' (fun i => W coef (osig x) (esig x) i (k - 1)) ->
     m' (pb input) (po input + 2 * pos) = Some (esig x k) ->
     m' (pb input) (po input + (2 * pos + 1)) = Some (osig x k) ->
     mapped m' (padd input (2 * pos)) (2 + slack) ->
     mapped m' (padd output pos) 1 -> is_data (pb output) ->
     runs (body pos) m' (fun _ m'' =>
       cok m'' /\ stt m'' (fun i => W coef (osig x) (esig x) i k) /\
       m'' (pb output) (po output + pos) =
         Some (comb (W coef (osig x) (esig x) e0 k) (W coef (osig x) (esig x) e1 k)) /\
       only output pos 1 m' m'')) ->
  iir_down_inv m l -> iir_down_rel coef e0 e1 comb l yl ->
  is_data (pb input) -> is_data (pb output) ->
  has m input (len b) (nthZ b) -> mapped m (padd input (len b)) slack -> mapped m output n ->
  (disj input (len b + slack) output n \/ over input output) ->
  runs c m (fun _ m' =>
    exists y, len y = n /\ iir_down_rel coef e0 e1 comb (l ++ b) (yl ++ y) /\
      has m' output (len y) (nthZ y) /\ iir_down_inv m' (l ++ b) /\
      (forall b' i, ~ priv tag b' -> ~ inr output n b' i -> m' b' i = m b' i)).
Proof.
  intros Eb Hs HL Hbody [C0 S0] Rl Di Do Hi Ms Mo D.
  pose proof (len_nonneg b) as Hn. assert (Eq : len l = 2 * len yl) by apply Rl.
  pose proof (len_nonneg yl) as Hq. set (q := len yl) in *. set (x := l ++ b).
  assert (El2 : len l / 2 = q) by (rewrite Eq, Z.mul_comm; apply Z.div_mul; lia).
  rewrite El2 in S0.
  assert (Nd : forall p, is_data (pb p) -> tag_of (pb p) <> Some tag).
  { intros p Dp Et. destruct (pb p); cbn in Et, Dp; (discriminate || contradiction). }
  set (Inv := fun k m' =>
    cok m' /\ stt m' (fun i => W coef (osig x) (esig x) i (q + k - 1)) /\
    (forall j, 0 <= j < k ->
      m' (pb output) (po output + j) =
        Some (comb (W coef (osig x) (esig x) e0 (q + j)) (W coef (osig x) (esig x) e1 (q + j)))) /\
    only output 0 k m m').
  eapply runs_mono.
  { apply (HL Inv).
    - split; [exact C0|]. split.
      + eapply stt_ext; [|exact S0]. intros i. cbn beta. rewrite Z.add_0_r. unfold x. symmetry.
        apply W_down_app. lia.
      + split; [intros j Hj; lia | intros b' i _ _; reflexivity].
    - intros k m' Hk (C1 & S1 & V1 & F1).
      assert (Fi : forall j, 2 * k <= j < len b -> m' (pb input) (po input + j) = Some (sig x (2 * q + j))).
      { intros j Hj. rewrite F1.
        - rewrite Hi by lia. f_equal. unfold x. rewrite <- Eq. symmetry. apply sig_app2. lia.
        - apply Nd, Di.
        - intros [E R]. cbn [padd pb po] in E, R. destruct D as [[D|D]|[_ D]]; [congruence | lia | lia]. }
      assert (Mi : mapped m' (padd input (2 * k)) (2 + slack)).
      { intros j Hj E. cbn [padd pb po] in E. rewrite <- Z.add_assoc in E.
        destruct (Z.lt_ge_cases (2 * k + j) (len b)).
        - rewrite Fi in E by lia. discriminate.
        - rewrite F1 in E.
          + apply (Ms (2 * k + j - len b) ltac:(lia)). cbn [padd pb po]. rewrite <- E. f_equal. lia.
          + apply Nd, Di.
          + intros [E' R]. cbn [padd pb po] in E', R. destruct D as [[D|D]|[_ D]]; [congruence | lia | lia]. }
      assert (Mo' : mapped m' (padd output k) 1).
      { intros j Hj E. cbn [padd pb po] in E. rewrite F1 in E.
        - rewrite <- Z.add_assoc in E. exact (Mo (k + j) ltac:(lia) E).
        - apply Nd, Do.
        - intros [_ R]. cbn [padd po] in R. lia. }
      assert (Fe : m' (pb input) (po input + 2 * k) = Some (esig x (q + k))).
      { rewrite Fi by lia. unfold esig. do 2 f_equal. lia. }
      assert (Fo : m' (pb input) (po input + (2 * k + 1)) = Some (osig x (q + k))).
      { rewrite Fi by lia. unfold osig. do 2 f_equal. lia. }
      eapply runs_mono; [exact (Hbody x (q + k) k m' ltac:(lia) ltac:(lia) C1 S1 Fe Fo Mi Mo' Do)|].
      intros _ m'' (C2 & S2 & Y0 & F2). split; [exact C2|]. split; [|split].
      + eapply stt_ext; [|exact S2]. intros i. cbn beta. f_equal. lia.
      + intros j Hj. destruct (Z.eq_dec j k) as [->|Hne]; [assumption|].
        rewrite F2; [apply V1; lia | apply Nd, Do | intros [_ R]; cbn [padd po] in R; lia].
      + intros b' i Ht Hr. rewrite F2; [apply F1|..]; try exact Ht.
        * intros [E R]. apply Hr. cbn [padd pb po] in *. split; [exact E | cbn [padd po]; lia].
        * intros [E R]. apply Hr. cbn [padd pb po] in *. split; [exact E | cbn [padd po]; lia]. }
  intros _ m' (C1 & S1 & V1 & F1).
  assert (Mo' : mapped m' output n).
  { intros k Hk E. rewrite V1 in E by lia. discriminate. }
  destruct (has_read m' output n ltac:(lia) Mo') as (y & Ly & Hy).
  assert (El : len (l ++ b) / 2 = q + n).
  { rewrite len_app, Eq, Eb. replace (2 * q + 2 * n) with ((q + n) * 2) by lia. apply Z.div_mul. lia. }
  exists y. split; [exact Ly|]. split; [|split; [|split; [split|]]].
  - apply iir_down_rel_app; [exact Rl | lia |]. rewrite Ly. fold q x. intros k Hk.
    specialize (V1 k Hk). rewrite Hy in V1 by lia. congruence.
  - rewrite Ly. exact Hy.
  - exact C1.
  - eapply stt_ext; [|exact S1]. intros i. cbn beta. unfold x. rewrite El. reflexivity.
  - intros b' i Hp Hr. apply F1.
    + intros E. apply Hp. left. exact E.
    + rewrite padd_0. exact Hr.
Qed.
End Gen.

(** ** The FPU classes *)
Section Fpu.
Context {A : arith} (addr : blk -> Z) (ndebug : bool) (o : iir) (coef : Z -> A).
Implicit Types m : mem A.
Notation NC := (i_nc o).
Notation tag := (i_tag o).
Notation e0 := (2 * ((NC + 1) / 2)).
Notation e1 := (2 * (NC / 2) + 1).

Definition fpu_stt m (V : Z -> A) : Prop := hasb m (FMem tag) (NC + 2) V.

Lemma fpu_cok_loc : loc tag (fcoef_ok o coef).
Proof. intros m m' E H i Hi. rewrite E by reflexivity. auto. Qed.
Lemma fpu_stt_loc V : loc tag (fun m => fpu_stt m V).
Proof. intros m m' E H i Hi. rewrite E by reflexivity. auto. Qed.
Lemma fpu_stt_ext m V V' : (forall i, V i = V' i) -> fpu_stt m V -> fpu_stt m V'.
Proof. intros E H. eapply hasb_ext; [exact H | intros; apply E]. Qed.

Lemma fpu_step X0 X1 k m :
  0 <= NC -> 0 <= k -> causal0 X0 -> causal0 X1 ->
  fcoef_ok o coef m -> fpu_stt m (fun i => W coef X0 X1 i (k - 1)) ->
  runs (stage_fpu_pos o (Z.to_nat NC) (X0 k) (X1 k)) m (fun r m' =>
    r = (W coef X0 X1 e0 k, W coef X0 X1 e1 k) /\
    fcoef_ok o coef m' /\ fpu_stt m' (fun i => W coef X0 X1 i k) /\ frameb (FMem tag) m m').
Proof.
  intros HN Hk H0 H1 Hc Hs.
  pose proof (stage_fpu_runs o coef (fun i => W coef X0 X1 i (k - 1)) (fun i => W coef X0 X1 i k) HN) as P.
  specialize (P ltac:(intros i Hi; apply W_step; auto; lia) (Z.to_nat NC) (Z.to_nat NC) 2 ltac:(lia) ltac:(lia) m ltac:(lia) Hc).
  cbv beta in P.
  eapply runs_mono; [apply P|].
  - eapply hasb_ext; [exact Hs|]. intros j Hj. cbn beta. destruct (Z.ltb_spec j (2 - 2)); [lia | reflexivity].
  - replace (NC - Z.of_nat (Z.to_nat NC)) with 0 by lia. reflexivity.
  - intros r m' (Hr & Hm & F). split; [exact Hr|]. split; [exact (fcoef_frameb _ _ _ _ F Hc)|]. split; assumption.
Qed.

Definition fpu_up_run (input : ptr) (n : Z) (output : ptr) : M A unit :=
  fpu_up_process_block addr ndebug o output input n.
Definition fpu_down_run (input : ptr) (n : Z) (output : ptr) : M A unit :=
  fpu_down_process_block addr ndebug o output input (n / 2).

Lemma assert_runs {X} b (k : M A X) m Q : b = true -> runs k m Q -> runs (assert_ ndebug b ;;; k) m Q.
Proof. intros -> H. unfold assert_. rewrite orb_true_r. apply runs_bind, runs_ret, H. Qed.

Lemma frameb_only out a n m m' : frameb (FMem tag) m m' -> only tag out a n m m'.
Proof. intros F b i Ht _. apply F. intros ->. apply Ht. reflexivity. Qed.

Lemma fpu_up_stage_ok :
  0 <= NC ->
  stage_ok addr fpu_up_run tag (iir_up_inv coef (fcoef_ok o coef) fpu_stt)
    (iir_up_rel coef e0 e1) (fun n => 0 < n) (fun n => 2 * n) 0 False.
Proof.
  intros HN m l yl b input output I0 Rl Hn Di Do Hi _ Mo [D|[[] _]] Hsep. rewrite Z.add_0_r in D.
  unfold fpu_up_run, fpu_up_process_block.
  apply assert_runs.
  { specialize (Hsep ltac:(lia)). unfold asep, over, paddr in *. destruct Hsep as [[Q|Q]|[F [Q1 Q2]]]; try contradiction; rewrite ?Q1; lia. }
  apply assert_runs; [lia|].
  eapply up_loop_ok with (input := input) (cok := fcoef_ok o coef) (stt := fpu_stt) (tag := tag).
  - apply fpu_stt_loc.
  - intros m1 V V'. apply fpu_stt_ext.
  - apply loops_do. exact Hn.
  - intros x k pos m' Hp Hk C1 S1 Fi Mo' _.
    apply runs_bind. eapply runs_load; [cbn [padd pb po]; exact Fi|].
    apply runs_bind. unfold fpu_up_process_sample.
    eapply runs_mono; [apply (fpu_step (sig x) (sig x) k m' HN Hk (sig_causal0 x) (sig_causal0 x) C1 S1)|].
    intros r m1 (-> & C2 & S2 & F2).
    assert (Nd : pb output <> FMem tag) by (intros E; rewrite E in Do; exact Do).
    assert (M1 : forall j, 0 <= j < 2 -> m1 (pb output) (po output + (2 * pos + j)) <> None).
    { intros j Hj. rewrite F2 by exact Nd. rewrite Z.add_assoc. apply (Mo' j Hj). }
    apply runs_bind. apply runs_store.
    { cbn [padd pb po]. specialize (M1 0 ltac:(lia)). replace (2 * pos + 0) with (pos * 2) in M1 by lia. exact M1. }
    cbn [padd pb po fst]. apply runs_store.
    { cbn [padd pb po]. apply mapped_upd_any. specialize (M1 1 ltac:(lia)).
      replace (2 * pos + 1) with (pos * 2 + 1) in M1 by lia. exact M1. }
    cbn [padd pb po snd].
    assert (L : forall b i, tag_of b = Some tag ->
      upd (upd m1 (pb output) (po output + pos * 2) (W coef (sig x) (sig x) e0 k))
          (pb output) (po output + (pos * 2 + 1)) (W coef (sig x) (sig x) e1 k) b i = m1 b i).
    { intros b' i Ht. assert (b' <> pb output) by (intros ->; destruct (pb output); cbn in Ht, Do; (discriminate || contradiction)).
      rewrite !upd_other by auto. reflexivity. }
    split; [exact (fpu_cok_loc _ _ L C2)|]. split; [exact (fpu_stt_loc _ _ _ L S2)|]. split; [|split].
    + rewrite upd_other by lia. apply upd_eq; [reflexivity | lia].
    + apply upd_eq; [reflexivity | lia].
    + intros b' i Ht Hr. rewrite !upd_other.
      * apply F2. intros ->. apply Ht. reflexivity.
      * destruct (blk_eqb_spec b' (pb output)) as [->|]; [|left; assumption].
        right. intros ->. apply Hr. split; cbn [padd pb po]; [reflexivity | lia].
      * destruct (blk_eqb_spec b' (pb output)) as [->|]; [|left; assumption].
        right. intros ->. apply Hr. split; cbn [padd pb po]; [reflexivity | lia].
  - exact I0.
  - exact Rl.
  - exact Di.
  - exact Do.
  - exact Hi.
  - exact Mo.
  - exact D.
Qed.

Definition fpu_comb (a b : A) : A := fmul fhalf (fadd a b).

Lemma fpu_down_stage_ok :
  0 <= NC ->
  stage_ok addr fpu_down_run tag (iir_down_inv coef (fcoef_ok o coef) fpu_stt)
    (iir_down_rel coef e0 e1 fpu_comb) (fun n => 0 < n /\ n mod 2 = 0) (fun n => n / 2) 0 True.
Proof.
  intros HN m l yl b input output I0 Rl [Hn Hev] Di Do Hi Ms Mo D Hsep.
  assert (Eb : len b = 2 * (len b / 2)) by (pose proof (Z.div_mod (len b) 2); lia).
  unfold fpu_down_run, fpu_down_process_block.
  apply assert_runs.
  { specialize (Hsep ltac:(lia)). unfold asep, over, paddr in *. destruct Hsep as [[Q|Q]|[F [Q1 Q2]]]; try contradiction; rewrite ?Q1; lia. }
  apply assert_runs; [lia|].
  eapply down_loop_ok with (input := input) (cok := fcoef_ok o coef) (stt := fpu_stt) (tag := tag) (slack := 0).
  - apply fpu_stt_loc.
  - intros m1 V V'. apply fpu_stt_ext.
  - exact Eb.
  - lia.
  - apply loops_do. lia.
  - intros x k pos m' Hp Hk C1 S1 Fe Fo Mi Mo' _.
    apply runs_bind. unfold fpu_down_process_sample. apply runs_bind.
    eapply runs_load.
    { rewrite padd_padd. cbn [padd pb po]. replace (pos * 2 + 1) with (2 * pos + 1) by lia. exact Fo. }
    apply runs_bind. eapply runs_load.
    { rewrite padd_padd. cbn [padd pb po]. replace (pos * 2 + 0) with (2 * pos) by lia. exact Fe. }
    apply runs_bind.
    eapply runs_mono; [apply (fpu_step (osig x) (esig x) k m' HN Hk (osig_causal0 x) (esig_causal0 x) C1 S1)|].
    intros r m1 (-> & C2 & S2 & F2). apply runs_ret. cbn [fst snd].
    assert (Nd : pb output <> FMem tag) by (intros E; rewrite E in Do; exact Do).
    apply runs_store.
    { cbn [padd pb po]. rewrite F2 by exact Nd. pose proof (Mo' 0 ltac:(lia)) as Q.
      cbn [padd pb po] in Q. rewrite Z.add_0_r in Q. exact Q. }
    cbn [padd pb po].
    match goal with |- context [upd m1 _ _ ?w] => set (v := w) end.
    assert (L : forall b i, tag_of b = Some tag -> upd m1 (pb output) (po output + pos) v b i = m1 b i).
    { intros b' i Ht. assert (b' <> pb output) by (intros ->; destruct (pb output); cbn in Ht, Do; (discriminate || contradiction)).
      rewrite !upd_other by auto. reflexivity. }
    split; [exact (fpu_cok_loc _ _ L C2)|]. split; [exact (fpu_stt_loc _ _ _ L S2)|]. split.
    + apply upd_same.
    + intros b' i Ht Hr. rewrite upd_other.
      * apply F2. intros ->. apply Ht. reflexivity.
      * destruct (blk_eqb_spec b' (pb output)) as [->|]; [|left; assumption].
        right. intros ->. apply Hr. split; cbn [padd pb po]; [reflexivity | lia].
  - exact I0.
  - exact Rl.
  - exact Di.
  - exact Do.
  - exact Hi.
  - intros k Hk. lia.
  - exact Mo.
  - destruct D as [D|[_ D]]; [left | right]; exact D.
Qed.

Lemma fpu_state_zero m X0 X1 : causal0 X0 -> causal0 X1 ->
  hasb m (FMem tag) (NC + 2) (fun _ => f0) -> fpu_stt m (fun i => W coef X0 X1 i (-1)).
Proof. intros H0 H1 H. eapply hasb_ext; [exact H|]. intros j Hj. cbn beta. symmetry. apply W_neg; auto. lia. Qed.

Lemma fpu_construct_runs m :
  0 <= NC ->
  runs (fpu_construct o coef) m (fun _ m' =>
    iir_up_inv coef (fcoef_ok o coef) fpu_stt m' [] /\
    iir_down_inv coef (fcoef_ok o coef) fpu_stt m' [] /\
    (forall b i, tag_of b <> Some tag -> m' b i = m b i)).
Proof.
  intros HN. unfold fpu_construct.
  apply runs_bind. unfold alloc at 1, runs at 1.
  apply runs_bind. unfold alloc at 1, runs at 1.
  set (m2 := fun b' i => if blk_eqb b' (FMem tag) then _ else _).
  apply runs_for with (Inv := fun k _ m' =>
    (forall i, 0 <= i < k -> m' (FCoef tag) (i + 2) = Some (coef i)) /\
    (forall i, 0 <= i < NC + 2 -> m' (FCoef tag) i <> None) /\ frameb (FCoef tag) m2 m').
  - split; [intros i Hi; lia|]. split; [|apply frameb_refl].
    intros i Hi. unfold m2. destruct (blk_eqb_spec (FCoef tag) (FMem tag)); [discriminate|].
    rewrite blk_eqb_refl. replace ((0 <=? i) && (i <? NC + 2)) with true by lia. discriminate.
  - intros k _ m' Hk (H1 & H2 & F). apply runs_store; unfold fcoef; cbn [pb po].
    + apply H2. lia.
    + split; [|split].
      * intros i Hi. destruct (Z.eq_dec i k) as [->|]; [apply upd_same|].
        rewrite upd_other by lia. apply H1. lia.
      * intros i Hi. apply mapped_upd_any, H2, Hi.
      * eapply frameb_trans; [exact F | apply frameb_upd].
  - intros _ m' (H1 & _ & F).
    assert (C : fcoef_ok o coef m') by (intros i Hi; apply H1; lia).
    assert (S : hasb m' (FMem tag) (NC + 2) (fun _ => f0)).
    { intros i Hi. rewrite F by discriminate. unfold m2. rewrite blk_eqb_refl.
      replace ((0 <=? i) && (i <? NC + 2)) with true by lia. reflexivity. }
    split; [|split].
    + split; [exact C|]. apply fpu_state_zero; auto using sig_causal0.
    + split; [exact C|]. apply fpu_state_zero; auto using osig_causal0, esig_causal0.
    + intros b i Hb. rewrite F by (intros ->; apply Hb; reflexivity). unfold m2.
      destruct (blk_eqb_spec b (FMem tag)) as [->|_]; [exfalso; apply Hb; reflexivity|].
      destruct (blk_eqb_spec b (FCoef tag)) as [->|_]; [exfalso; apply Hb; reflexivity|]. reflexivity.
Qed.

Lemma fpu_clear_runs m V :
  0 <= NC -> fcoef_ok o coef m -> fpu_stt m V ->
  runs (fpu_clear_buffers o) m (fun _ m' =>
    iir_up_inv coef (fcoef_ok o coef) fpu_stt m' [] /\
    iir_down_inv coef (fcoef_ok o coef) fpu_stt m' [] /\
    (forall b i, tag_of b <> Some tag -> m' b i = m b i)).
Proof.
  intros HN C S. unfold fpu_clear_buffers.
  apply runs_for with (Inv := fun k _ m' =>
    (forall i, 0 <= i < k -> m' (FMem tag) i = Some f0) /\
    (forall i, 0 <= i < NC + 2 -> m' (FMem tag) i <> None) /\ frameb (FMem tag) m m').
  - split; [intros i Hi; lia|]. split; [|apply frameb_refl]. intros i Hi. eapply hasb_mapped; eauto.
  - intros k _ m' Hk (H1 & H2 & F). apply runs_store; unfold fmem; cbn [pb po].
    + apply H2. lia.
    + split; [|split].
      * intros i Hi. destruct (Z.eq_dec i k) as [->|]; [apply upd_same|].
        rewrite upd_other by lia. apply H1. lia.
      * intros i Hi. apply mapped_upd_any, H2, Hi.
      * eapply frameb_trans; [exact F | apply frameb_upd].
  - intros _ m' (H1 & _ & F).
    assert (C' : fcoef_ok o coef m') by exact (fcoef_frameb _ _ _ _ F C).
    assert (S' : hasb m' (FMem tag) (NC + 2) (fun _ => f0)) by (intros i Hi; apply H1; lia).
    split; [|split].
    + split; [exact C'|]. apply fpu_state_zero; auto using sig_causal0.
    + split; [exact C'|]. apply fpu_state_zero; auto using osig_causal0, esig_causal0.
    + intros b i Hb. apply F. intros ->. apply Hb. reflexivity.
Qed.
End Fpu.
