(** * The code treats samples uniformly

    Control flow and addresses never depend on sample values: running the same
    code over two arithmetics related by R, on memories whose cells are related
    by R, gives related results and related cells.  The two runs may use
    different addresses, as long as the alignments are the same. *)
From Coq Require Import ZArith List Lia Bool.
From Verif Require Import Arith Mem FirModel IirModel Tables ResamplerModel.
Import ListNotations.
Open Scope Z_scope.
Open Scope m_scope.

Section Param.
Context {A B : arith} (R : A -> B -> Prop).

Record arith_rel : Prop := {
  ar_0 : R f0 f0;
  ar_1 : R f1 f1;
  ar_half : R fhalf fhalf;
  ar_add : forall a b a' b', R a b -> R a' b' -> R (fadd a a') (fadd b b');
  ar_sub : forall a b a' b', R a b -> R a' b' -> R (fsub a a') (fsub b b');
  ar_mul : forall a b a' b', R a b -> R a' b' -> R (fmul a a') (fmul b b');
  ar_dy : forall m e, R (fdy m e) (fdy m e) }.

Definition cellR (a : option A) (b : option B) : Prop :=
  match a with Some v => exists w, b = Some w /\ R v w | None => True end.
Definition memR (m1 : mem A) (m2 : mem B) : Prop := forall b i, cellR (m1 b i) (m2 b i).

Definition MR {X Y} (XR : X -> Y -> Prop) (c1 : M A X) (c2 : M B Y) : Prop :=
  forall m1 m2, memR m1 m2 ->
    match c1 m1, c2 m2 with
    | Ok (x, m1'), Ok (y, m2') => XR x y /\ memR m1' m2'
    | _, _ => True
    end.

Context (AR : arith_rel).

Lemma MR_ret {X Y} (XR : X -> Y -> Prop) x y : XR x y -> MR XR (ret x) (ret y).
Proof. intros H m1 m2 Hm. split; assumption. Qed.
Lemma MR_fail {X Y} (XR : X -> Y -> Prop) e : MR XR (fail e) (fail e).
Proof. intros m1 m2 Hm. exact I. Qed.
Lemma MR_bind {X Y X' Y'} (XR : X -> Y -> Prop) (XR' : X' -> Y' -> Prop) c1 c2 k1 k2 :
  MR XR c1 c2 -> (forall x y, XR x y -> MR XR' (k1 x) (k2 y)) -> MR XR' (bind c1 k1) (bind c2 k2).
Proof.
  intros H K m1 m2 Hm. unfold bind. specialize (H m1 m2 Hm).
  destruct (c1 m1) as [[x m1']|e1], (c2 m2) as [[y m2']|e2]; try exact I.
  - destruct H as [H1 H2]. apply K; assumption.
  - destruct (k1 x m1') as [[? ?]|]; exact I.
Qed.
Lemma MR_mono {X Y} (XR XR' : X -> Y -> Prop) c1 c2 : (forall x y, XR x y -> XR' x y) -> MR XR c1 c2 -> MR XR' c1 c2.
Proof.
  intros K H m1 m2 Hm. specialize (H m1 m2 Hm).
  destruct (c1 m1) as [[x m1']|e1], (c2 m2) as [[y m2']|e2]; try exact I.
  destruct H; split; auto.
Qed.
Lemma MR_load p : MR R (load p) (load p).
Proof.
  intros m1 m2 Hm. unfold load. specialize (Hm (pb p) (po p)) as H.
  destruct (m1 (pb p) (po p)); [|exact I]. destruct H as (w & -> & H). split; assumption.
Qed.
Lemma MR_store p v w : R v w -> MR eq (store p v) (store p w).
Proof.
  intros Hv m1 m2 Hm. unfold store. specialize (Hm (pb p) (po p)) as H.
  destruct (m1 (pb p) (po p)); [|exact I]. destruct H as (w' & -> & H).
  split; [reflexivity|]. intros b i. unfold upd. destruct (_ && _); [exists w; auto | apply Hm].
Qed.
Lemma MR_alloc b n g1 g2 : (forall i, R (g1 i) (g2 i)) -> MR eq (alloc b n g1) (alloc b n g2).
Proof.
  intros Hg m1 m2 Hm. split; [reflexivity|]. intros b' i. destruct (blk_eqb b' b); [|apply Hm].
  destruct (_ && _); [eexists; split; [reflexivity | apply Hg] | exact I].
Qed.
Lemma MR_free b : MR eq (free b) (free b).
Proof.
  intros m1 m2 Hm. split; [reflexivity|]. intros b' i. destruct (blk_eqb b' b); [exact I | apply Hm].
Qed.
Lemma MR_for {X Y} (XR : X -> Y -> Prop) n i b1 b2 x y : XR x y ->
  (forall k x y, XR x y -> MR XR (b1 k x) (b2 k y)) -> MR XR (for_up n i b1 x) (for_up n i b2 y).
Proof.
  intros Hx K. revert i x y Hx. induction n as [|n IH]; intros i x y Hx; cbn [for_up].
  - now apply MR_ret.
  - eapply MR_bind; [apply K, Hx|]. intros x' y' H'. now apply IH.
Qed.
Lemma MR_while' {X} f (c c' : X -> bool) (b1 : X -> M A X) (b2 : X -> M B X) x :
  (forall x, c x = c' x) ->
  (forall x, MR eq (b1 x) (b2 x)) -> MR eq (while f c b1 x) (while f c' b2 x).
Proof.
  intros E K. revert x. induction f as [|f IH]; intros x; cbn [while]; rewrite <- E.
  - destruct (c x); [apply MR_fail | now apply MR_ret].
  - destruct (c x); [|now apply MR_ret]. eapply MR_bind; [apply K|]. intros x' y' ->. apply IH.
Qed.
Lemma MR_while {X} f c (b1 : X -> M A X) (b2 : X -> M B X) x :
  (forall x, MR eq (b1 x) (b2 x)) -> MR eq (while f c b1 x) (while f c b2 x).
Proof.
  intros K. revert x. induction f as [|f IH]; intros x; cbn [while].
  - destruct (c x); [apply MR_fail | now apply MR_ret].
  - destruct (c x); [|now apply MR_ret]. eapply MR_bind; [apply K|]. intros x' y' ->. apply IH.
Qed.

Definition vR (a : v4 A) (b : v4 B) : Prop := R (l0 a) (l0 b) /\ R (l1 a) (l1 b) /\ R (l2 a) (l2 b) /\ R (l3 a) (l3 b).

Lemma vR_map2 (f1 : A -> A -> A) (f2 : B -> B -> B) a b a' b' :
  (forall x y x' y', R x y -> R x' y' -> R (f1 x x') (f2 y y')) -> vR a b -> vR a' b' ->
  vR (vmap2 f1 a a') (vmap2 f2 b b').
Proof. intros H (? & ? & ? & ?) (? & ? & ? & ?). unfold vR, vmap2. cbn. auto. Qed.
Lemma vR_set1 x y : R x y -> vR (vset1 x) (vset1 y).
Proof. intros H. unfold vR. cbn. auto. Qed.

Variables addr addr2 : blk -> Z.
Variables ndebug ndebug2 : bool.
Hypothesis same_alignment : forall p, aligned16 addr p = aligned16 addr2 p.

Ltac step :=
  first
  [ apply MR_load | apply MR_fail
  | eapply MR_bind; [|intros ? ? ?] ].

Lemma MR_loadu4 p : MR vR (loadu4 p) (loadu4 p).
Proof. unfold loadu4. repeat step. apply MR_ret. unfold vR. cbn. auto. Qed.
Lemma MR_load4 p : MR vR (load4 addr p) (load4 addr2 p).
Proof. unfold load4. rewrite <- same_alignment. destruct (aligned16 addr p); [apply MR_loadu4 | apply MR_fail]. Qed.
Lemma MR_store4 p v w : vR v w -> MR eq (store4 addr p v) (store4 addr2 p w).
Proof.
  intros (? & ? & ? & ?). unfold store4. rewrite <- same_alignment. destruct (aligned16 addr p); [|apply MR_fail].
  repeat (eapply MR_bind; [apply MR_store; assumption | intros ? ? _]). apply MR_store; assumption.
Qed.

Lemma MR_one_sample input taps n :
  MR R (fir_process_one_sample input taps n) (fir_process_one_sample input taps n).
Proof.
  unfold fir_process_one_sample. apply MR_for; [apply AR|]. intros k x y H. repeat step.
  apply MR_ret. apply AR; [assumption | apply AR; assumption].
Qed.

Lemma R_hsum v w : vR v w -> R (hsum v) (hsum w).
Proof. intros (? & ? & ? & ?). unfold hsum. repeat apply AR; assumption. Qed.

Lemma MR_4samples input st n o0 o1 o2 o3 :
  MR eq (fir_process_4samples_sse addr input st n o0 o1 o2 o3) (fir_process_4samples_sse addr2 input st n o0 o1 o2 o3).
Proof.
  unfold fir_process_4samples_sse.
  assert (HM : forall j, MR vR
    (bind (load4 addr (padd input (4 * 0))) (fun x => bind (load4 addr (padd st (4 * j))) (fun t => ret (vmap2 fmul x t))))
    (bind (load4 addr2 (padd input (4 * 0))) (fun x => bind (load4 addr2 (padd st (4 * j))) (fun t => ret (vmap2 fmul x t))))).
  { intros j. eapply MR_bind; [apply MR_load4 | intros ? ? ?]. eapply MR_bind; [apply MR_load4 | intros ? ? ?].
    apply MR_ret. apply vR_map2; try assumption. apply AR. }
  eapply MR_bind; [apply HM | intros a0 b0 H0].
  eapply MR_bind; [apply HM | intros a1 b1 H1].
  eapply MR_bind; [apply HM | intros a2 b2 H2].
  eapply MR_bind; [apply HM | intros a3 b3 H3].
  assert (HA : forall i j acc acc', vR acc acc' -> MR vR
    (bind (load4 addr (padd input (4 * i))) (fun x => bind (load4 addr (padd st (4 * (i * 4 + j)))) (fun t => ret (vmap2 fadd acc (vmap2 fmul x t)))))
    (bind (load4 addr2 (padd input (4 * i))) (fun x => bind (load4 addr2 (padd st (4 * (i * 4 + j)))) (fun t => ret (vmap2 fadd acc' (vmap2 fmul x t)))))).
  { intros i j acc acc' Ha. eapply MR_bind; [apply MR_load4 | intros ? ? ?]. eapply MR_bind; [apply MR_load4 | intros ? ? ?].
    apply MR_ret. apply vR_map2; try assumption; [apply AR|]. apply vR_map2; try assumption. apply AR. }
  eapply MR_bind with (XR := fun a b => let '(a0, a1, a2, a3) := a in let '(b0, b1, b2, b3) := b in
    vR a0 b0 /\ vR a1 b1 /\ vR a2 b2 /\ vR a3 b3).
  - apply MR_for; [auto|]. intros k [[[c0 c1] c2] c3] [[[d0 d1] d2] d3] (K0 & K1 & K2 & K3).
    eapply MR_bind; [apply HA; eassumption | intros ? ? ?].
    eapply MR_bind; [apply HA; eassumption | intros ? ? ?].
    eapply MR_bind; [apply HA; eassumption | intros ? ? ?].
    eapply MR_bind; [apply HA; eassumption | intros ? ? ?].
    apply MR_ret. auto.
  - intros [[[c0 c1] c2] c3] [[[d0 d1] d2] d3] (K0 & K1 & K2 & K3).
    repeat (eapply MR_bind; [apply MR_store, R_hsum; assumption | intros ? ? _]). apply MR_store, R_hsum; assumption.
Qed.

Lemma MR_sse_taps tag n : MR eq (fir_compute_sse_taps (A := A) tag n) (fir_compute_sse_taps (A := B) tag n).
Proof.
  unfold fir_compute_sse_taps. eapply MR_bind; [apply MR_alloc; intros; apply AR | intros ? ? _].
  apply MR_for; [reflexivity|]. intros j ? ? _. apply MR_for; [reflexivity|]. intros i ? ? _.
  eapply MR_bind; [apply MR_load | intros ? ? ?]. now apply MR_store.
Qed.

Lemma MR_copy_fwd src n dst : MR eq (copy_fwd (A := A) src n dst) (copy_fwd (A := B) src n dst).
Proof.
  unfold copy_fwd. apply MR_for; [reflexivity|]. intros k ? ? _.
  eapply MR_bind; [apply MR_load | intros ? ? ?]. now apply MR_store.
Qed.
Lemma MR_load_list p n : MR (Forall2 R) (load_list (A := A) p n) (load_list (A := B) p n).
Proof.
  revert p. induction n as [|n IH]; intros p; cbn [load_list]; [apply MR_ret; constructor|].
  eapply MR_bind; [apply MR_load | intros ? ? ?]. eapply MR_bind; [apply IH | intros ? ? ?].
  apply MR_ret. now constructor.
Qed.
Lemma MR_store_list p l1 l2 : Forall2 R l1 l2 -> MR eq (store_list p l1) (store_list p l2).
Proof.
  intros H. revert p. induction H as [|x y l l' Hx _ IH]; intros p; cbn [store_list]; [now apply MR_ret|].
  eapply MR_bind; [apply MR_store, Hx | intros ? ? _]. apply IH.
Qed.
Lemma MR_memmove dst src n : MR eq (memmove_f (A := A) dst src n) (memmove_f (A := B) dst src n).
Proof. unfold memmove_f. eapply MR_bind; [apply MR_load_list | intros ? ? ?]. now apply MR_store_list. Qed.
Lemma MR_fill p n v w : R v w -> MR eq (fill p n v) (fill p n w).
Proof. intros H. unfold fill. apply MR_for; [reflexivity|]. intros ? ? ? _. now apply MR_store. Qed.

(** *** Upsampler2 *)
Lemma MR_up_construct o t1 t2 : (forall i, R (t1 i) (t2 i)) -> MR eq (up_construct o t1) (up_construct o t2).
Proof.
  intros H. unfold up_construct. eapply MR_bind; [apply MR_alloc; exact H | intros ? ? _].
  eapply MR_bind; [apply MR_alloc; intros; apply AR | intros ? ? _]. apply MR_sse_taps.
Qed.
Lemma MR_up4 o input output :
  MR eq (up_process_4samples_aligned (A := A) addr o input output) (up_process_4samples_aligned (A := B) addr2 o input output).
Proof.
  unfold up_process_4samples_aligned.
  assert (H : forall i k, MR eq
    (bind (load (A := A) (padd input (f_order o / 2 + k))) (fun x => store (padd output i) x))
    (bind (load (A := B) (padd input (f_order o / 2 + k))) (fun x => store (padd output i) x))).
  { intros. eapply MR_bind; [apply MR_load | intros ? ? ?]. now apply MR_store. }
  do 4 (eapply MR_bind; [apply H | intros ? ? _]). apply MR_4samples.
Qed.
Lemma MR_up1 o input output :
  MR eq (up_process_sample_unaligned (A := A) o input output) (up_process_sample_unaligned (A := B) o input output).
Proof.
  unfold up_process_sample_unaligned. eapply MR_bind; [apply MR_one_sample | intros ? ? ?].
  eapply MR_bind; [apply MR_store; assumption | intros ? ? _]. eapply MR_bind; [apply MR_load | intros ? ? ?].
  now apply MR_store.
Qed.
Lemma MR_up_aligned o input n output :
  MR eq (up_process_block_aligned (A := A) addr o input n output) (up_process_block_aligned (A := B) addr2 o input n output).
Proof.
  unfold up_process_block_aligned. eapply MR_bind with (XR := eq).
  - destruct (f_sse o); [|now apply MR_ret]. apply MR_while. intros i.
    eapply MR_bind; [apply MR_up4 | intros ? ? _]. now apply MR_ret.
  - intros i j ->. eapply MR_bind with (XR := eq); [|intros; now apply MR_ret]. apply MR_while. intros i.
    eapply MR_bind; [apply MR_up1 | intros ? ? _]. now apply MR_ret.
Qed.
Lemma MR_up_unaligned o input n output :
  MR eq (up_process_block_unaligned (A := A) addr o input n output) (up_process_block_unaligned (A := B) addr2 o input n output).
Proof.
  unfold up_process_block_unaligned. eapply MR_bind with (XR := eq).
  - destruct (f_sse o); [|now apply MR_ret]. apply MR_while'; [intros; now rewrite same_alignment|]. intros i.
    eapply MR_bind; [apply MR_up1 | intros ? ? _]. now apply MR_ret.
  - intros i j ->. apply MR_up_aligned.
Qed.
Lemma MR_up_block o input n output :
  MR eq (up_process_block (A := A) addr o input n output) (up_process_block (A := B) addr2 o input n output).
Proof.
  unfold up_process_block. eapply MR_bind; [apply MR_copy_fwd | intros ? ? _].
  eapply MR_bind; [apply MR_up_aligned | intros ? ? _].
  destruct (_ <? _); [|apply MR_memmove]. eapply MR_bind; [apply MR_up_unaligned | intros ? ? _]. apply MR_copy_fwd.
Qed.
Lemma MR_up_reset o : MR eq (up_reset (A := A) o) (up_reset (A := B) o).
Proof. apply MR_fill, AR. Qed.

(** *** Downsampler2 *)
Lemma MR_down_construct o t1 t2 : (forall i, R (t1 i) (t2 i)) -> MR eq (down_construct o t1) (down_construct o t2).
Proof.
  intros H. unfold down_construct. eapply MR_bind; [apply MR_alloc; exact H | intros ? ? _].
  eapply MR_bind; [apply MR_alloc; intros; apply AR | intros ? ? _].
  eapply MR_bind; [apply MR_alloc; intros; apply AR | intros ? ? _]. apply MR_sse_taps.
Qed.
Lemma MR_down4 o st ie io output :
  MR eq (down_process_4samples_aligned (A := A) addr o st ie io output) (down_process_4samples_aligned (A := B) addr2 o st ie io output).
Proof.
  unfold down_process_4samples_aligned. eapply MR_bind; [apply MR_4samples | intros ? ? _].
  assert (H : forall k, MR eq
    (bind (load (A := A) (padd output k)) (fun y => bind (load (padd io ((f_order o / 2 - 1 + k) * st))) (fun x =>
      store (padd output k) (fadd y (fmul fhalf x)))))
    (bind (load (A := B) (padd output k)) (fun y => bind (load (padd io ((f_order o / 2 - 1 + k) * st))) (fun x =>
      store (padd output k) (fadd y (fmul fhalf x)))))).
  { intros k. eapply MR_bind; [apply MR_load | intros ? ? ?]. eapply MR_bind; [apply MR_load | intros ? ? ?].
    apply MR_store. apply AR; [assumption | apply AR; [apply AR | assumption]]. }
  do 3 (eapply MR_bind; [apply H | intros ? ? _]). apply H.
Qed.
Lemma MR_down1 o st ie io :
  MR R (down_process_sample_unaligned (A := A) o st ie io) (down_process_sample_unaligned (A := B) o st ie io).
Proof.
  unfold down_process_sample_unaligned. eapply MR_bind; [apply MR_one_sample | intros ? ? ?].
  eapply MR_bind; [apply MR_load | intros ? ? ?]. apply MR_ret.
  apply AR; [assumption | apply AR; [apply AR | assumption]].
Qed.
Lemma MR_down_aligned o st ie io output n :
  MR eq (down_process_block_aligned (A := A) addr o st ie io output n) (down_process_block_aligned (A := B) addr2 o st ie io output n).
Proof.
  unfold down_process_block_aligned. eapply MR_bind with (XR := eq).
  - destruct (f_sse o); [|now apply MR_ret]. apply MR_while. intros i.
    eapply MR_bind; [apply MR_down4 | intros ? ? _]. now apply MR_ret.
  - intros i j ->. eapply MR_bind with (XR := eq); [|intros; now apply MR_ret]. apply MR_while. intros i.
    eapply MR_bind; [apply MR_down1 | intros ? ? ?]. eapply MR_bind; [apply MR_store; assumption | intros ? ? _].
    now apply MR_ret.
Qed.
Lemma MR_down_unaligned o st ie io output n :
  MR eq (down_process_block_unaligned (A := A) addr o st ie io output n) (down_process_block_unaligned (A := B) addr2 o st ie io output n).
Proof.
  unfold down_process_block_unaligned. eapply MR_bind with (XR := eq).
  - destruct (f_sse o); [|now apply MR_ret]. apply MR_while'; [intros; now rewrite same_alignment|]. intros i.
    eapply MR_bind; [apply MR_down1 | intros ? ? ?]. eapply MR_bind; [apply MR_store; assumption | intros ? ? _].
    now apply MR_ret.
  - intros i j ->. apply MR_down_aligned.
Qed.
Lemma MR_deinterleave d n output : MR eq (deinterleave2 (A := A) d n output) (deinterleave2 (A := B) d n output).
Proof.
  unfold deinterleave2. apply MR_for; [reflexivity|]. intros k ? ? _.
  eapply MR_bind; [apply MR_load | intros ? ? ?]. now apply MR_store.
Qed.
Lemma MR_down_chunk o input n output :
  MR eq (down_process_chunk (A := A) addr o input n output) (down_process_chunk (A := B) addr2 o input n output).
Proof.
  unfold down_process_chunk. eapply MR_bind; [apply MR_deinterleave | intros ? ? _].
  eapply MR_bind; [apply MR_copy_fwd | intros ? ? _]. eapply MR_bind; [apply MR_deinterleave | intros ? ? _].
  eapply MR_bind; [apply MR_down_aligned | intros ? ? _]. destruct (_ <? _).
  - eapply MR_bind; [apply MR_down_unaligned | intros ? ? _]. eapply MR_bind; [apply MR_copy_fwd | intros ? ? _].
    apply MR_deinterleave.
  - eapply MR_bind; [apply MR_memmove | intros ? ? _]. apply MR_memmove.
Qed.
Lemma MR_down_block g1 g2 o input n output : (forall i, R (g1 i) (g2 i)) ->
  MR eq (down_process_block (A := A) addr g1 o input n output) (down_process_block (A := B) addr2 g2 o input n output).
Proof.
  intros Hg. unfold down_process_block. destruct (negb _); [now apply MR_ret|].
  eapply MR_bind; [apply MR_alloc; exact Hg | intros ? ? _].
  eapply MR_bind with (XR := eq).
  - apply MR_while. intros [[k inp] outp]. eapply MR_bind; [apply MR_down_chunk | intros ? ? _]. now apply MR_ret.
  - intros ? ? _. eapply MR_bind; [apply MR_free | intros ? ? _]. now apply MR_ret.
Qed.
Lemma MR_down_reset o : MR eq (down_reset (A := A) o) (down_reset (A := B) o).
Proof. unfold down_reset. eapply MR_bind; [apply MR_fill, AR | intros ? ? _]. apply MR_fill, AR. Qed.

(** *** hiir *)
Lemma MR_assert b c : MR eq (assert_ (A := A) ndebug b) (assert_ (A := B) ndebug2 c).
Proof.
  unfold assert_. intros m1 m2 Hm. destruct (ndebug || b), (ndebug2 || c); try exact I. split; [reflexivity | exact Hm].
Qed.
Lemma MR_fpu_construct o c1 c2 : (forall i, R (c1 i) (c2 i)) -> MR eq (fpu_construct o c1) (fpu_construct o c2).
Proof.
  intros H. unfold fpu_construct. eapply MR_bind; [apply MR_alloc; intros; apply AR | intros ? ? _].
  eapply MR_bind; [apply MR_alloc; intros; apply AR | intros ? ? _].
  apply MR_for; [reflexivity|]. intros k ? ? _. apply MR_store, H.
Qed.
Definition pR (a : A * A) (b : B * B) : Prop := R (fst a) (fst b) /\ R (snd a) (snd b).

Lemma R_ap x m c p x' m' c' p' : R x x' -> R m m' -> R c c' -> R p p' ->
  R (fadd (fmul (fsub x m) c) p) (fadd (fmul (fsub x' m') c') p').
Proof. intros. apply AR; [apply AR; [apply AR|]|]; assumption. Qed.

Lemma MR_stage_fpu o n x y x' y' : R x x' -> R y y' -> MR pR (stage_fpu_pos o n x y) (stage_fpu_pos o n x' y').
Proof.
  enough (K : (forall x y x' y', R x x' -> R y y' -> MR pR (stage_fpu_pos o n x y) (stage_fpu_pos o n x' y')) /\
    (forall x y x' y', R x x' -> R y y' -> MR pR (stage_fpu_pos o (S n) x y) (stage_fpu_pos o (S n) x' y'))) by (apply K).
  clear x y x' y'. induction n as [|n [IH1 IH2]].
  - split; intros x y x' y' Hx Hy; cbn [stage_fpu_pos].
    + eapply MR_bind; [apply MR_store; assumption | intros ? ? _].
      eapply MR_bind; [apply MR_store; assumption | intros ? ? _]. apply MR_ret. split; assumption.
    + do 3 (eapply MR_bind; [apply MR_load | intros ? ? ?]).
      eapply MR_bind; [apply MR_store; assumption | intros ? ? _].
      eapply MR_bind; [apply MR_store; assumption | intros ? ? _].
      eapply MR_bind; [apply MR_store, R_ap; assumption | intros ? ? _].
      apply MR_ret. split; cbn [fst snd]; [apply R_ap; assumption | assumption].
  - split; [exact IH2|]. intros x y x' y' Hx Hy; cbn [stage_fpu_pos].
    do 6 (eapply MR_bind; [apply MR_load | intros ? ? ?]).
    eapply MR_bind; [apply MR_store; assumption | intros ? ? _].
    eapply MR_bind; [apply MR_store; assumption | intros ? ? _].
    apply IH1; apply R_ap; assumption.
Qed.
Lemma MR_do_while n (b1 : Z -> M A unit) (b2 : Z -> M B unit) : (forall k, MR eq (b1 k) (b2 k)) ->
  MR eq (do_while_pos n b1) (do_while_pos n b2).
Proof.
  intros H. unfold do_while_pos. eapply MR_bind; [apply H | intros ? ? _].
  eapply MR_bind with (XR := eq); [|intros; now apply MR_ret]. apply MR_while. intros k.
  eapply MR_bind; [apply H | intros ? ? _]. now apply MR_ret.
Qed.
Lemma MR_fpu_up o outp inp n :
  MR eq (fpu_up_process_block (A := A) addr ndebug o outp inp n) (fpu_up_process_block (A := B) addr2 ndebug2 o outp inp n).
Proof.
  unfold fpu_up_process_block. do 2 (eapply MR_bind; [apply MR_assert | intros ? ? _]).
  apply MR_do_while. intros k. eapply MR_bind; [apply MR_load | intros ? ? ?].
  eapply MR_bind; [apply MR_stage_fpu; assumption | intros ? ? [? ?]].
  eapply MR_bind; [apply MR_store; assumption | intros ? ? _]. now apply MR_store.
Qed.
Lemma MR_fpu_down o outp inp n :
  MR eq (fpu_down_process_block (A := A) addr ndebug o outp inp n) (fpu_down_process_block (A := B) addr2 ndebug2 o outp inp n).
Proof.
  unfold fpu_down_process_block. do 2 (eapply MR_bind; [apply MR_assert | intros ? ? _]).
  apply MR_do_while. intros k. eapply MR_bind with (XR := R).
  - unfold fpu_down_process_sample. do 2 (eapply MR_bind; [apply MR_load | intros ? ? ?]).
    eapply MR_bind; [apply MR_stage_fpu; assumption | intros ? ? [? ?]]. apply MR_ret.
    apply AR; [apply AR | apply AR; assumption].
  - intros. now apply MR_store.
Qed.
Lemma MR_fpu_clear o : MR eq (fpu_clear_buffers (A := A) o) (fpu_clear_buffers (A := B) o).
Proof. unfold fpu_clear_buffers. apply MR_for; [reflexivity|]. intros k ? ? _. apply MR_store, AR. Qed.
Lemma MR_sse_construct o c1 c2 : (forall i, R (c1 i) (c2 i)) -> MR eq (sse_construct o c1) (sse_construct o c2).
Proof.
  intros H. unfold sse_construct. eapply MR_bind; [apply MR_alloc; intros; apply AR | intros ? ? _].
  eapply MR_bind; [apply MR_alloc; intros; apply AR | intros ? ? _].
  eapply MR_bind with (XR := eq); [destruct (_ <? _); [apply MR_store, AR | now apply MR_ret] | intros ? ? _].
  apply MR_for; [reflexivity|]. intros k ? ? _. apply MR_store, H.
Qed.
Lemma MR_stage_sse_rec o n x x' : vR x x' -> MR vR (stage_sse_pos_rec addr o n x) (stage_sse_pos_rec addr2 o n x').
Proof.
  intros Hx. induction n as [|n IH]; cbn [stage_sse_pos_rec]; [now apply MR_ret|].
  eapply MR_bind; [apply IH | intros ? ? ?]. eapply MR_bind; [apply MR_load4 | intros ? ? ?].
  eapply MR_bind; [apply MR_store4; assumption | intros ? ? _].
  do 2 (eapply MR_bind; [apply MR_load4 | intros ? ? ?]). apply MR_ret.
  apply vR_map2; [apply AR| |assumption]. apply vR_map2; [apply AR| |assumption].
  apply vR_map2; [apply AR| |]; assumption.
Qed.
Lemma MR_stage_sse o x x' : vR x x' -> MR vR (stage_sse_pos addr o x) (stage_sse_pos addr2 o x').
Proof.
  intros Hx. unfold stage_sse_pos. eapply MR_bind; [apply MR_stage_sse_rec, Hx | intros ? ? ?].
  eapply MR_bind; [apply MR_store4; assumption | intros ? ? _]. now apply MR_ret.
Qed.
Lemma MR_sse_up o outp inp n :
  MR eq (sse_up_process_block (A := A) addr ndebug o outp inp n) (sse_up_process_block (A := B) addr2 ndebug2 o outp inp n).
Proof.
  unfold sse_up_process_block. do 2 (eapply MR_bind; [apply MR_assert | intros ? ? _]).
  apply MR_for; [reflexivity|]. intros k ? ? _. eapply MR_bind; [apply MR_load | intros ? ? ?].
  eapply MR_bind; [apply MR_stage_sse, vR_set1; assumption | intros ? ? (? & ? & ? & ?)].
  eapply MR_bind; [apply MR_store; assumption | intros ? ? _]. now apply MR_store.
Qed.
Lemma MR_sse_down o outp inp n :
  MR eq (sse_down_process_block (A := A) addr ndebug o outp inp n) (sse_down_process_block (A := B) addr2 ndebug2 o outp inp n).
Proof.
  unfold sse_down_process_block. do 2 (eapply MR_bind; [apply MR_assert | intros ? ? _]).
  apply MR_for; [reflexivity|]. intros k ? ? _. eapply MR_bind; [apply MR_loadu4 | intros ? ? ?].
  eapply MR_bind; [apply MR_stage_sse; assumption | intros ? ? (? & ? & ? & ?)].
  apply MR_store. apply AR; [apply AR; assumption | apply AR].
Qed.
Lemma MR_sse_clear o : MR eq (sse_clear_buffers (A := A) addr o) (sse_clear_buffers (A := B) addr2 o).
Proof.
  unfold sse_clear_buffers. apply MR_for; [reflexivity|]. intros k ? ? _. apply MR_store4, vR_set1, AR.
Qed.

(** *** Resampler2 *)
Lemma R_lit d s : R (lit d s) (lit d s).
Proof. unfold lit. destruct (lit_float d s) as [m e]. apply AR. Qed.
Lemma R_nth_f (l1 : list A) (l2 : list B) i : Forall2 R l1 l2 -> R (nth_f l1 i) (nth_f l2 i).
Proof.
  unfold nth_f. generalize (Z.to_nat i). intros n H. revert n.
  induction H as [|x y l l' Hx _ IH]; intros [|n]; cbn [nth]; auto; apply AR.
Qed.
Lemma R_map_lit t s : Forall2 R (map (fun d => lit d s) t) (map (fun d => lit d s) t).
Proof. induction t as [|d t IH]; cbn [map]; constructor; [apply R_lit | exact IH]. Qed.

Lemma MR_impl_block g1 g2 i input n output : (forall k j, R (g1 k j) (g2 k j)) ->
  MR eq (impl_process_block (A := A) addr ndebug g1 i input n output) (impl_process_block (A := B) addr2 ndebug2 g2 i input n output).
Proof.
  intros Hg. destruct i; cbn [impl_process_block].
  - apply MR_up_block.
  - eapply MR_bind; [apply MR_down_block; auto | intros ? ? _]. now apply MR_ret.
  - apply MR_fpu_up.
  - apply MR_fpu_down.
  - apply MR_sse_up.
  - apply MR_sse_down.
Qed.
Lemma MR_call_impl g1 g2 i input n output : (forall k j, R (g1 k j) (g2 k j)) ->
  MR eq (call_impl (A := A) addr ndebug g1 i input n output) (call_impl (A := B) addr2 ndebug2 g2 i input n output).
Proof.
  intros Hg. unfold call_impl. eapply MR_bind with (XR := eq).
  - destruct i; cbn [deref]; [now apply MR_ret | apply MR_fail].
  - intros i' ? <-. now apply MR_impl_block.
Qed.
Lemma MR_cascade g1 g2 r input n output : (forall k j, R (g1 k j) (g2 k j)) ->
  MR eq (cascade_chunk (A := A) addr ndebug g1 r input n output) (cascade_chunk (A := B) addr2 ndebug2 g2 r input n output).
Proof.
  intros Hg. unfold cascade_chunk.
  eapply MR_bind; [apply MR_alloc; auto | intros ? ? _].
  eapply MR_bind; [apply MR_alloc; auto | intros ? ? _].
  eapply MR_bind with (XR := eq).
  - destruct (r_mode r); (eapply MR_bind with (XR := eq); [|intros ? ? _; now apply MR_ret]);
      destruct (r_ratio r =? 4);
      repeat (eapply MR_bind; [apply MR_call_impl; exact Hg | intros ? ? _]); apply MR_call_impl; exact Hg.
  - intros p ? <-. eapply MR_bind; [apply MR_free | intros ? ? _]. eapply MR_bind; [apply MR_free | intros ? ? _].
    now apply MR_ret.
Qed.
Theorem MR_process_block g1 g2 r input n output : (forall n k j, R (g1 n k j) (g2 n k j)) ->
  MR eq (process_block (A := A) addr ndebug g1 r input n output) (process_block (A := B) addr2 ndebug2 g2 r input n output).
Proof.
  intros Hg. unfold process_block. destruct (r_ratio r =? 2); [now apply MR_call_impl|].
  destruct (r_ratio r =? 1); [apply MR_copy_fwd|].
  eapply MR_bind with (XR := eq); [|intros; now apply MR_ret].
  apply MR_while. intros [[k inp] outp]. eapply MR_bind; [apply MR_cascade; auto | intros p ? <-]. now apply MR_ret.
Qed.
End Param.
