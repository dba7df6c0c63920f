(** * Upsampler2 satisfies the stage contract *)
From Coq Require Import ZArith List Lia Bool ZifyNat ZifyBool.
From Verif Require Import Arith Mem FirModel Wp FirKernel FirUpProof Stage.
Import ListNotations.
Open Scope Z_scope.
Open Scope m_scope.

Section Up.
Context {A : arith} (addr : blk -> Z) (o : fir) (t : Z -> A).
Implicit Types (m : mem A) (X : Z -> A).
Notation N := (f_order o).
Notation tag := (f_tag o).

(** the window of position k of stream x starts N-1 samples earlier *)
Definition win (x : list A) (k : Z) : A := sig x (k - (N - 1)).

(** relation between input and output stream over any arithmetic *)
Definition fir_up_rel (x y : list A) : Prop :=
  len y = 2 * len x /\
  forall k, 0 <= k < len x ->
    fir_val o t (win x) k (len x) (nthZ y (2 * k)) /\
    nthZ y (2 * k + 1) = win x (k + N / 2).

Definition up_inv m (l : list A) : Prop :=
  taps_ok o t m /\ mapped m (Ptr (Hist tag) 0) (2 * N) /\
  has m (Ptr (Hist tag) 0) (N - 1) (fun k => win l (len l + k)).

Lemma up_inv_local : local tag up_inv.
Proof.
  intros m m' l E ((T1 & T2) & M & H). split; [split|split]; intros k Hk; cbn [pb po];
    rewrite E by reflexivity; [apply T1 | apply T2 | apply M | apply H]; exact Hk.
Qed.

Lemma win_app x b k : 2 <= N -> k <= len x -> win (x ++ b) k = win x k.
Proof. intros. unfold win. apply sig_app1. lia. Qed.

Lemma fir_up_rel_nil : fir_up_rel [] [].
Proof. split; [reflexivity|]. intros k Hk. cbn in Hk. lia. Qed.

(** an output position depends on the window up to position k + N - 1 only *)
Lemma fir_val_win_app x b k n v : 2 <= N -> 0 <= k < n -> n <= len x ->
  fir_val o t (win x) k n v -> fir_val o t (win (x ++ b)) k n v.
Proof.
  intros HN Hk Hn H. eapply fir_val_ext; [lia | exact Hk | | exact H].
  intros i Hi. unfold win. symmetry. apply sig_app1. lia.
Qed.

Lemma fir_up_rel_app x y b z : 2 <= N ->
  fir_up_rel x y -> len z = 2 * len b ->
  (forall k, 0 <= k < len b ->
    fir_val o t (win (x ++ b)) (len x + k) (len x + len b) (nthZ z (2 * k)) /\
    nthZ z (2 * k + 1) = win (x ++ b) (len x + k + N / 2)) ->
  fir_up_rel (x ++ b) (y ++ z).
Proof.
  intros HN [L H] Lz Hz. assert (HH : 0 <= N / 2 < N) by (split; [apply Z.div_pos | apply Z.div_lt]; lia).
  pose proof (len_nonneg x). pose proof (len_nonneg b). split; [rewrite !len_app; lia|].
  intros k Hk. rewrite len_app in Hk. destruct (Z.lt_ge_cases k (len x)) as [Hlt|Hge].
  - destruct (H k ltac:(lia)) as [V1 V2]. rewrite !nthZ_app1 by lia. split.
    + apply fir_val_more with (n := len x); [rewrite len_app; lia|].
      apply fir_val_win_app; [exact HN | lia | lia | exact V1].
    + rewrite V2. unfold win. symmetry. apply sig_app1. lia.
  - destruct (Hz (k - len x) ltac:(lia)) as [V1 V2].
    replace (2 * k) with (len y + 2 * (k - len x)) by lia.
    replace (len y + 2 * (k - len x) + 1) with (len y + (2 * (k - len x) + 1)) by lia.
    rewrite !nthZ_app2 by lia.
    replace (len x + (k - len x)) with k in V1, V2 by lia.
    rewrite len_app. split; assumption.
Qed.

Lemma up_construct_runs m :
  2 <= N ->
  runs (up_construct o t) m (fun _ m' =>
    up_inv m' [] /\ (forall b i, tag_of b <> Some tag -> m' b i = m b i)).
Proof.
  intros HN. unfold up_construct.
  apply runs_bind. unfold alloc at 1, runs at 1.
  apply runs_bind. unfold alloc at 1, runs at 1.
  set (m2 := fun b' i => if blk_eqb b' (Hist tag) then _ else _).
  assert (T0 : has m2 (Ptr (Taps tag) 0) N t).
  { intros k Hk. unfold m2. cbn [pb po]. rewrite Z.add_0_l.
    destruct (blk_eqb_spec (Taps tag) (Hist tag)) as [E|_]; [discriminate|].
    rewrite blk_eqb_refl. replace ((0 <=? k) && (k <? N)) with true by lia. reflexivity. }
  eapply runs_mono; [apply compute_sse_taps_runs with (t := t); [lia | exact T0]|].
  intros _ m3 [Hs Hf].
  assert (Hh : has m3 (Ptr (Hist tag) 0) (2 * N) (fun _ => f0)).
  { intros k Hk. cbn [pb po]. rewrite Hf by discriminate. unfold m2. rewrite blk_eqb_refl.
    replace ((0 <=? 0 + k) && (0 + k <? 2 * N)) with true by lia. reflexivity. }
  split.
  - split; [split; [|exact Hs]|split].
    + intros k Hk. cbn [pb]. rewrite Hf by discriminate. apply T0. exact Hk.
    + apply (has_mapped _ _ _ _ Hh).
    + intros k Hk. rewrite Hh by lia. unfold win. rewrite sig_neg; [reflexivity | cbn; lia].
  - intros b i Hb. assert (Hb' : forall b', tag_of b' = Some tag -> blk_eqb b b' = false).
    { intros b' E. destruct (blk_eqb_spec b b'); congruence. }
    rewrite Hf by (intros ->; apply Hb; reflexivity).
    unfold m2. now rewrite !Hb' by reflexivity.
Qed.

Lemma up_reset_runs m l :
  2 <= N -> up_inv m l ->
  runs (up_reset o) m (fun _ m' =>
    up_inv m' [] /\ (forall b i, tag_of b <> Some tag -> m' b i = m b i)).
Proof.
  intros HN ((T1 & T2) & M & H). unfold up_reset.
  eapply runs_mono; [apply fill_runs; exact M|].
  intros _ m' [Hh F]. split; [split; [|split]|].
  - apply (taps_ok_frame o t m m' (Ptr (Hist tag) 0) (2 * N)); [|exact F|].
    + split; discriminate.
    + split; assumption.
  - apply (has_mapped _ _ _ _ Hh).
  - intros k Hk. rewrite Hh by lia. unfold win. rewrite sig_neg; [reflexivity | cbn; lia].
  - intros b i Hb. apply F. intros [-> _]. apply Hb. reflexivity.
Qed.

(** up to what the alignment of the arrays allows *)
Definition up_aligned : Prop :=
  aligned16 addr (Ptr (SseTaps tag) 0) = true /\ aligned16 addr (Ptr (Hist tag) 0) = true.

Lemma up_stage_ok :
  2 <= N < 2 ^ 30 -> up_aligned ->
  stage_ok addr (up_process_block addr o) tag up_inv fir_up_rel
    (fun n => n < 2 ^ 31 - 4) (fun n => 2 * n) 0 False.
Proof.
  intros HN [AlS AlH] m l yl b input output (T0 & Mh & Hh) Rl Hn Di Do Hi _ Mo [D0|[[] _]] _.
  assert (HH : 0 <= N / 2 < N) by (split; [apply Z.div_pos | apply Z.div_lt]; lia).
  set (n := len b) in *. pose proof (len_nonneg b) as Hn0. fold n in Hn0.
  pose proof (len_nonneg l) as Hq0. set (q := len l) in *.
  rewrite Z.add_0_r in D0.
  unfold up_process_block. set (ht := Z.min n (N - 1)).
  assert (Not : outside_taps o output).
  { split; intros E; rewrite E in Do; exact Do. }
  assert (Dh : forall a k k', disj (Ptr (Hist tag) a) k output k').
  { intros a k k'. left. cbn [pb]. intros E. rewrite <- E in Do. exact Do. }
  assert (Dih : forall a k k', disj input k (Ptr (Hist tag) a) k').
  { intros a k k'. left. cbn [pb]. intros E. rewrite E in Di. exact Di. }
  (* copy of the first samples behind the history *)
  apply runs_bind. eapply runs_mono.
  { apply copy_fwd_runs with (X := nthZ b).
    - intros k Hk. apply Hi. unfold ht in Hk. lia.
    - intros k Hk. cbn [pb po]. replace (N - 1 + k) with (0 + (N - 1 + k)) by lia. apply Mh.
      unfold ht in Hk. lia.
    - apply Dih. }
  intros _ m1 [H1 F1].
  assert (Hw : has m1 (Ptr (Hist tag) 0) (ht + N - 1) (fun k => win (l ++ b) (q + k))).
  { intros k Hk. cbn [pb po]. destruct (Z.lt_ge_cases k (N - 1)) as [Hlt|Hge].
    - rewrite F1 by (intros [_ R]; cbn [po] in R; lia).
      pose proof (Hh k ltac:(lia)) as E. cbn [pb po] in E. rewrite E. f_equal. unfold win.
      symmetry. apply sig_app1. fold q. lia.
    - specialize (H1 (k - (N - 1)) ltac:(lia)). cbn [pb po] in H1.
      replace (0 + k) with (N - 1 + (k - (N - 1))) by lia. rewrite H1. f_equal.
      unfold win. replace (q + k - (N - 1)) with (len l + (k - (N - 1))) by (fold q; lia).
      symmetry. apply sig_app2. lia. }
  assert (T1 : taps_ok o t m1).
  { eapply taps_ok_frame; [|exact F1|exact T0]. split; discriminate. }
  assert (Mo1 : mapped m1 output (2 * n)).
  { eapply frame_mapped; [exact F1 | | exact Mo]. left. cbn [pb].
    intros E. rewrite E in Do. exact Do. }
  assert (Hi1 : has m1 input n (nthZ b)).
  { eapply frame_has; [exact F1 | apply Dih | exact Hi]. }
  assert (Mh1 : mapped m1 (Ptr (Hist tag) 0) (2 * N)).
  { intros k Hk E. cbn [pb po] in E. destruct (Z.lt_ge_cases k (ht + N - 1)) as [Hlt|Hge].
    - specialize (Hw k ltac:(lia)). cbn [pb po] in Hw. rewrite Hw in E. discriminate.
    - rewrite F1 in E by (intros [_ R]; cbn [po] in R; unfold ht in *; lia).
      exact (Mh k Hk E). }
  (* the outputs computed from the history *)
  apply runs_bind. eapply runs_mono.
  { apply up_block_aligned_runs with (X := fun k => win (l ++ b) (q + k)) (t := t).
    - lia.
    - exact T1.
    - exact Not.
    - intros _. split; assumption.
    - unfold ht; lia.
    - unfold ht; lia.
    - exact Hw.
    - intros k Hk. apply Mo1. unfold ht in Hk. lia.
    - apply Dh. }
  intros _ m2 [V2 F2].
  assert (T2 : taps_ok o t m2) by exact (taps_ok_frame o t m1 m2 output _ Not F2 T1).
  assert (F2' : frame output (2 * n) m1 m2).
  { eapply frame_wider; [exact F2 | reflexivity | lia | unfold ht; lia]. }
  assert (Hi2 : has m2 input n (nthZ b)) by exact (frame_has _ _ _ _ _ _ _ F2' D0 Hi1).
  assert (Hw2 : has m2 (Ptr (Hist tag) 0) (ht + N - 1) (fun k => win (l ++ b) (q + k))).
  { eapply frame_has; [exact F2 | apply Dh | exact Hw]. }
  assert (Mh2 : mapped m2 (Ptr (Hist tag) 0) (2 * N)).
  { eapply frame_mapped; [exact F2 | apply Dh | exact Mh1]. }
  assert (Hlen : len (l ++ b) = q + n) by (rewrite len_app; reflexivity).
  (* common final argument *)
  assert (Fin : forall m3 : mem A,
    taps_ok o t m3 -> mapped m3 (Ptr (Hist tag) 0) (2 * N) ->
    has m3 (Ptr (Hist tag) 0) (N - 1) (fun k => win (l ++ b) (q + n + k)) ->
    mapped m3 output (2 * n) ->
    (forall k, 0 <= k < n -> exists v,
       m3 (pb output) (po output + 2 * k) = Some v /\
       fir_val o t (win (l ++ b)) (q + k) (q + n) v /\
       m3 (pb output) (po output + (2 * k + 1)) = Some (win (l ++ b) (q + k + N / 2))) ->
    (forall b' i, ~ priv tag b' -> ~ inr output (2 * n) b' i -> m3 b' i = m b' i) ->
    exists y, len y = 2 * n /\ fir_up_rel (l ++ b) (yl ++ y) /\
      has m3 output (len y) (nthZ y) /\ up_inv m3 (l ++ b) /\
      (forall b' i, ~ priv tag b' -> ~ inr output (2 * n) b' i -> m3 b' i = m b' i)).
  { intros m3 T3 M3 H3 Mo3 V3 Fr3.
    destruct (has_read m3 output (2 * n) ltac:(lia) Mo3) as (y & Ly & Hy).
    exists y. split; [exact Ly|]. split; [|split; [|split; [|exact Fr3]]].
    - apply fir_up_rel_app; [lia | exact Rl | exact Ly |].
      intros k Hk. fold n in Hk |- *. fold q. destruct (V3 k Hk) as (v & E1 & E2 & E3).
      rewrite Hy in E1 by lia. rewrite Hy in E3 by lia.
      assert (Y1 : nthZ y (2 * k) = v) by congruence.
      assert (Y2 : nthZ y (2 * k + 1) = win (l ++ b) (q + k + N / 2)) by congruence.
      rewrite Y1, Y2. split; [exact E2 | reflexivity].
    - rewrite Ly. exact Hy.
    - split; [exact T3|]. split; [exact M3|]. rewrite Hlen. exact H3. }
  (* values written so far *)
  assert (V2' : forall k, 0 <= k < ht -> exists v,
       m2 (pb output) (po output + 2 * k) = Some v /\
       fir_val o t (win (l ++ b)) (q + k) (q + n) v /\
       m2 (pb output) (po output + (2 * k + 1)) = Some (win (l ++ b) (q + k + N / 2))).
  { intros k Hk. destruct (V2 k Hk) as (v & E1 & E2 & E3). exists v. split; [exact E1|]. split.
    - apply fir_val_shift in E2; [|lia]. eapply fir_val_more; [|exact E2]. unfold ht; lia.
    - rewrite E3. f_equal. f_equal. lia. }
  destruct (Z.ltb_spec ht n) as [Hlt|Hge].
  - (* more samples than fit into the history *)
    assert (Eht : ht = N - 1) by (unfold ht in *; lia).
    apply runs_bind. eapply runs_mono.
    { rewrite u32_small by lia.
      apply up_block_unaligned_runs with (X := nthZ b) (t := t).
      - lia.
      - exact T2.
      - exact Not.
      - intros _. exact AlS.
      - lia.
      - lia.
      - replace (n - ht + N - 1) with n by lia. exact Hi2.
      - intros k Hk. cbn [padd pb po]. rewrite <- Z.add_assoc.
        intros E. rewrite F2 in E by (intros [_ R]; lia). exact (Mo1 (2 * ht + k) ltac:(lia) E).
      - destruct D0 as [D0|D0]; [left; cbn [padd pb]; exact D0 | right; cbn [padd po]; lia]. }
    intros _ m3 [V3 F3].
    assert (F3' : frame output (2 * n) m2 m3).
    { eapply frame_wider; [exact F3 | reflexivity | cbn [padd po]; lia | cbn [padd po]; lia]. }
    assert (Hi3 : has m3 input n (nthZ b)) by exact (frame_has _ _ _ _ _ _ _ F3' D0 Hi2).
    assert (Mh3 : mapped m3 (Ptr (Hist tag) 0) (2 * N)).
    { eapply frame_mapped; [exact F3' | apply Dh | exact Mh2]. }
    eapply runs_mono.
    { apply copy_fwd_runs with (X := fun k => nthZ b (n - ht + k)).
      - eapply has_sub; [exact Hi3 | lia | lia].
      - intros k Hk. apply Mh3. lia.
      - left. cbn [padd pb]. intros E. rewrite E in Di. exact Di. }
    intros _ m4 [H4 F4].
    assert (Dho : forall k, disj output k (Ptr (Hist tag) 0) ht).
    { intros k. left. cbn [pb]. intros E. rewrite E in Do. exact Do. }
    apply Fin.
    + eapply taps_ok_frame; [|exact F4|].
      * split; discriminate.
      * eapply taps_ok_frame; [exact Not | exact F3' | exact T2].
    + intros k Hk E. cbn [pb po] in E. destruct (Z.lt_ge_cases k ht).
      * specialize (H4 k ltac:(lia)). cbn [pb po] in H4. rewrite H4 in E. discriminate.
      * rewrite F4 in E by (intros [_ R]; cbn [po] in R; lia). exact (Mh3 k Hk E).
    + intros k Hk. specialize (H4 k ltac:(lia)). rewrite H4. f_equal. unfold win.
      replace (q + n + k - (N - 1)) with (len l + (n - ht + k)) by (fold q; lia).
      symmetry. apply sig_app2. lia.
    + eapply frame_mapped; [exact F4 | apply Dho |].
      intros k Hk E. destruct (Z.lt_ge_cases k (2 * ht)).
      * rewrite F3 in E by (intros [_ R]; cbn [padd po] in R; lia).
        destruct (V2' (k / 2)) as (v & E1 & _ & E3); [split; [apply Z.div_pos; lia | apply Z.div_lt_upper_bound; lia]|].
        pose proof (Z.div_mod k 2 ltac:(lia)). pose proof (Z.mod_pos_bound k 2 ltac:(lia)).
        destruct (Z.eq_dec (k mod 2) 0).
        -- replace k with (2 * (k / 2)) in E by lia. congruence.
        -- replace k with (2 * (k / 2) + 1) in E by lia. congruence.
      * destruct (V3 ((k - 2 * ht) / 2)) as (v & E1 & _ & E3);
          [split; [apply Z.div_pos; lia | apply Z.div_lt_upper_bound; lia]|].
        pose proof (Z.div_mod (k - 2 * ht) 2 ltac:(lia)).
        pose proof (Z.mod_pos_bound (k - 2 * ht) 2 ltac:(lia)).
        cbn [padd pb po] in E1, E3.
        destruct (Z.eq_dec ((k - 2 * ht) mod 2) 0).
        -- replace (po output + k) with (po output + 2 * ht + 2 * ((k - 2 * ht) / 2)) in E by lia. congruence.
        -- replace (po output + k) with (po output + 2 * ht + (2 * ((k - 2 * ht) / 2) + 1)) in E by lia. congruence.
    + intros k Hk.
      assert (Z4 : forall i, m4 (pb output) i = m3 (pb output) i).
      { intros i. apply F4. intros [E _]. cbn [pb] in E. rewrite E in Do. exact Do. }
      rewrite !Z4. destruct (Z.lt_ge_cases k ht) as [Hk1|Hk1].
      * destruct (V2' k ltac:(lia)) as (v & E1 & E2 & E3). exists v.
        rewrite !F3 by (intros [_ R]; cbn [padd po] in R; lia). auto.
      * destruct (V3 (k - ht) ltac:(lia)) as (v & E1 & E2 & E3). cbn [padd pb po] in E1, E3. exists v.
        replace (po output + 2 * ht + 2 * (k - ht)) with (po output + 2 * k) in E1 by lia.
        replace (po output + 2 * ht + (2 * (k - ht) + 1)) with (po output + (2 * k + 1)) in E3 by lia.
        split; [exact E1|]. split.
        -- replace (q + k) with (q + ht + (k - ht)) by lia.
           replace (q + n) with (q + ht + (n - ht)) by lia.
           apply fir_val_shift; [lia|].
           eapply fir_val_ext; [lia | lia | | exact E2].
           intros i Hi'. unfold win. replace (q + ht + i - (N - 1)) with (len l + i) by (fold q; lia).
           symmetry. apply sig_app2. lia.
        -- rewrite E3. f_equal. unfold win.
           replace (q + k + N / 2 - (N - 1)) with (len l + (k - ht + N / 2)) by (fold q; lia).
           symmetry. apply sig_app2. lia.
    + intros b' i Hp Hr.
      assert (Hb' : b' <> Hist tag) by (intros ->; apply Hp; left; reflexivity).
      rewrite F4 by (intros [E _]; exact (Hb' E)).
      rewrite F3' by exact Hr. rewrite F2' by exact Hr.
      apply F1. intros [E _]. exact (Hb' E).
  - (* all samples fit into the history *)
    assert (Eht : ht = n) by (unfold ht in *; lia).
    eapply runs_mono.
    { apply memmove_runs with (X := fun k => win (l ++ b) (q + n + k)).
      - lia.
      - intros k Hk. cbn [pb po]. specialize (Hw2 (n + k) ltac:(lia)). cbn [pb po] in Hw2.
        rewrite Z.add_0_l in Hw2. rewrite Hw2. f_equal. f_equal. lia.
      - intros k Hk. apply Mh2. lia. }
    intros _ m4 [H4 F4].
    assert (Z4 : forall i, m4 (pb output) i = m2 (pb output) i).
    { intros i. apply F4. intros [E _]. cbn [pb] in E. rewrite E in Do. exact Do. }
    apply Fin.
    + eapply taps_ok_frame; [|exact F4|exact T2]. split; discriminate.
    + intros k Hk E. cbn [pb po] in E. destruct (Z.lt_ge_cases k (N - 1)).
      * specialize (H4 k ltac:(lia)). cbn [pb po] in H4. rewrite H4 in E. discriminate.
      * rewrite F4 in E by (intros [_ R]; cbn [po] in R; lia). exact (Mh2 k Hk E).
    + exact H4.
    + intros k Hk E. rewrite Z4 in E.
      destruct (V2' (k / 2)) as (v & E1 & _ & E3); [split; [apply Z.div_pos; lia | apply Z.div_lt_upper_bound; lia]|].
      pose proof (Z.div_mod k 2 ltac:(lia)). pose proof (Z.mod_pos_bound k 2 ltac:(lia)).
      destruct (Z.eq_dec (k mod 2) 0).
      * replace k with (2 * (k / 2)) in E by lia. congruence.
      * replace k with (2 * (k / 2) + 1) in E by lia. congruence.
    + intros k Hk. rewrite !Z4. apply V2'. lia.
    + intros b' i Hp Hr.
      assert (Hb' : b' <> Hist tag) by (intros ->; apply Hp; left; reflexivity).
      rewrite F4 by (intros [E _]; exact (Hb' E)).
      rewrite F2' by exact Hr. apply F1. intros [E _]. exact (Hb' E).
Qed.
End Up.
