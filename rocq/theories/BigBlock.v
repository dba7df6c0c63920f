(** * Upsampling blocks of 2^31 samples and more

    Upsampler2 computes output positions (2 * i) as unsigned int.  Here we only
    follow which elements are accessed, for blocks of any size the interface
    admits. *)
From Coq Require Import ZArith List Lia Bool ZifyNat ZifyBool.
From Verif Require Import Arith Mem FirModel IirModel Tables ResamplerModel Wp FirKernel FirUpProof Stage FirUpStage.
Import ListNotations.
Open Scope Z_scope.
Open Scope m_scope.

Section Big.
Context {A : arith} (addr : blk -> Z) (o : fir) (m0 : mem A) (output : ptr) (W : Z).
Implicit Types m : mem A.
Notation N := (f_order o).
Notation tag := (f_tag o).

(** what may be written: the history, and W elements of the output *)
Definition target (b : blk) (i : Z) : Prop := b = Hist tag \/ inr output W b i.

(** everything mapped stays mapped, nothing else is changed *)
Definition keeps m : Prop :=
  (forall b i, m0 b i <> None -> m b i <> None) /\
  (forall b i, ~ target b i -> m b i = m0 b i).

Lemma keeps_refl : keeps m0.
Proof. split; auto. Qed.

Lemma k_load p m (Q : A -> mem A -> Prop) :
  keeps m -> m0 (pb p) (po p) <> None -> (forall v, Q v m) -> runs (load p) m Q.
Proof.
  intros [K _] H HQ. specialize (K _ _ H). destruct (m (pb p) (po p)) as [v|] eqn:E; [|congruence].
  eapply runs_load; [exact E | apply HQ].
Qed.

Lemma k_store p v m (Q : unit -> mem A -> Prop) :
  keeps m -> m0 (pb p) (po p) <> None -> target (pb p) (po p) ->
  (forall m', keeps m' -> Q tt m') -> runs (store p v) m Q.
Proof.
  intros [K F] H T HQ. apply runs_store; [apply K, H|]. apply HQ. split.
  - intros b i Hb. apply mapped_upd_any, K, Hb.
  - intros b i Hn. rewrite upd_other; [apply F, Hn|].
    destruct (blk_eqb_spec b (pb p)) as [->|]; [|left; congruence].
    right. intros ->. apply Hn, T.
Qed.

Lemma k_load4 p m (Q : v4 A -> mem A -> Prop) :
  keeps m -> aligned16 addr p = true -> mapped m0 p 4 -> (forall v, Q v m) -> runs (load4 addr p) m Q.
Proof.
  intros K Al H HQ. unfold load4. rewrite Al.
  assert (L : forall k, 0 <= k < 4 -> forall Q' : A -> mem A -> Prop, (forall v, Q' v m) -> runs (load (padd p k)) m Q').
  { intros k Hk Q' HQ'. apply k_load; [exact K | apply (H k Hk) | exact HQ']. }
  assert (L0 : forall Q' : A -> mem A -> Prop, (forall v, Q' v m) -> runs (load p) m Q').
  { intros Q' HQ'. rewrite <- (padd_0 p). apply L; [lia | exact HQ']. }
  repeat (apply runs_bind; (apply L0 || (apply L; [lia|])); intros ?).
  apply runs_ret, HQ.
Qed.

Definition taps_there : Prop :=
  mapped m0 (Ptr (Taps tag) 0) N /\ mapped m0 (Ptr (SseTaps tag) 0) ((N + 6) / 4 * 16) /\
  mapped m0 (Ptr (Hist tag) 0) (2 * N) /\
  aligned16 addr (Ptr (SseTaps tag) 0) = true /\ aligned16 addr (Ptr (Hist tag) 0) = true.

(** n elements at p may be written *)
Definition room (p : ptr) (n : Z) : Prop :=
  mapped m0 p n /\ (forall k, 0 <= k < n -> target (pb p) (po p + k)).

Lemma room_sub p n a k : room p n -> 0 <= a -> a + k <= n -> room (padd p a) k.
Proof.
  intros [M T] Ha Hk. split; [exact (mapped_sub _ _ _ _ _ M Ha Hk)|].
  intros i Hi. cbn [padd pb po]. rewrite <- Z.add_assoc. apply T. lia.
Qed.

Lemma k_store_room p n k v m (Q : unit -> mem A -> Prop) :
  keeps m -> room p n -> 0 <= k < n -> (forall m', keeps m' -> Q tt m') -> runs (store (padd p k) v) m Q.
Proof. intros K [M T] Hk HQ. apply k_store; [exact K | apply (M k Hk) | apply (T k Hk) | exact HQ]. Qed.

Lemma k_load_at p n k m (Q : A -> mem A -> Prop) :
  keeps m -> mapped m0 p n -> 0 <= k < n -> (forall v, Q v m) -> runs (load (padd p k)) m Q.
Proof. intros K M Hk HQ. apply k_load; [exact K | apply (M k Hk) | exact HQ]. Qed.

Definition done {X} (x : X) m : Prop := keeps m.

Lemma one_sample m input : 0 <= N -> keeps m -> taps_there -> mapped m0 input N ->
  runs (fir_process_one_sample input (Ptr (Taps tag) 0) N) m done.
Proof.
  intros HN K (T & _) Mi. unfold fir_process_one_sample.
  apply runs_for with (Inv := fun _ _ m' => keeps m'); [exact K | | intros ? ? ?; assumption].
  intros k y m' Hk K'. apply runs_bind. eapply k_load_at; [exact K' | exact Mi | lia|]. intros v.
  apply runs_bind. eapply k_load_at; [exact K' | exact T | lia|]. intros w. apply runs_ret. exact K'.
Qed.

Lemma sample_unaligned m input out : 2 <= N -> keeps m -> taps_there -> mapped m0 input N -> room out 2 ->
  runs (up_process_sample_unaligned o input out) m done.
Proof.
  intros HN K T Mi R. unfold up_process_sample_unaligned. apply runs_bind.
  eapply runs_mono; [apply one_sample; [lia | exact K | exact T | exact Mi]|]. intros s m1 K1. unfold done in K1.
  apply runs_bind. rewrite <- (padd_0 out) at 1. eapply k_store_room; [exact K1 | exact R | lia|]. intros m2 K2.
  apply runs_bind. eapply k_load_at; [exact K2 | exact Mi | |].
  { split; [apply Z.div_pos | apply Z.div_lt]; lia. }
  intros x. eapply k_store_room; [exact K2 | exact R | lia|]. intros m3 K3. exact K3.
Qed.

Lemma al_add p k : aligned16 addr p = true -> k mod 4 = 0 -> aligned16 addr (padd p k) = true.
Proof.
  unfold aligned16, paddr. intros H E. cbn [padd pb po].
  apply Z.eqb_eq in H. apply Z.eqb_eq. clear - H E.
  assert (X : k = 4 * (k / 4)) by (rewrite (Z.div_mod k 4) at 1; lia).
  rewrite X. replace (addr (pb p) + 4 * (po p + 4 * (k / 4))) with (addr (pb p) + 4 * po p + (k / 4) * 16) by ring.
  rewrite Z.mod_add by lia. exact H.
Qed.

(** number of samples looked at by a group of four, rounded up to vectors *)
Lemma four_samples m input out : 2 <= N -> keeps m -> taps_there ->
  aligned16 addr input = true -> mapped m0 input ((N + 6) / 4 * 4) -> room out 8 ->
  runs (up_process_4samples_aligned addr o input out) m done.
Proof.
  intros HN K (_ & Ts & _ & Als & _) Ali Mi R. unfold up_process_4samples_aligned.
  set (g := (N + 6) / 4) in *.
  assert (Hg : 4 * g <= N + 6 < 4 * g + 4).
  { unfold g. pose proof (Z.div_mod (N + 6) 4 ltac:(lia)). pose proof (Z.mod_pos_bound (N + 6) 4 ltac:(lia)). lia. }
  assert (HH : 0 <= N / 2 /\ N / 2 + 3 < 4 * g).
  { pose proof (Z.div_mod N 2 ltac:(lia)). pose proof (Z.mod_pos_bound N 2 ltac:(lia)). lia. }
  do 4 (apply runs_bind; apply runs_bind;
        eapply k_load_at; [eassumption | exact Mi | lia |]; intros ?;
        eapply k_store_room; [eassumption | exact R | lia |]; clear dependent m; intros m K).
  unfold fir_process_4samples_sse. cbv zeta.
  assert (LI : forall i m' (Q : v4 A -> mem A -> Prop), keeps m' -> 0 <= i < g -> (forall v, Q v m') ->
            runs (load4 addr (padd input (4 * i))) m' Q).
  { intros i m' Q K' Hi HQ. apply k_load4; [exact K' | apply al_add; [exact Ali | rewrite Z.mul_comm; apply Z.mod_mul; lia] | | exact HQ].
    eapply mapped_sub; [exact Mi | lia | lia]. }
  assert (LT : forall j m' (Q : v4 A -> mem A -> Prop), keeps m' -> 0 <= j < 4 * g -> (forall v, Q v m') ->
            runs (load4 addr (padd (Ptr (SseTaps tag) 0) (4 * j))) m' Q).
  { intros i m' Q K' Hi HQ. apply k_load4; [exact K' | apply al_add; [exact Als | rewrite Z.mul_comm; apply Z.mod_mul; lia] | | exact HQ].
    eapply mapped_sub; [exact Ts | lia | lia]. }
  do 4 (apply runs_bind; apply runs_bind; apply LI; [exact K | lia |]; intros ?;
        apply runs_bind; apply LT; [exact K | lia |]; intros ?; apply runs_ret).
  apply runs_bind.
  apply runs_for with (Inv := fun _ _ m' => keeps m'); [exact K | |].
  - intros k [[[c0 c1] c2] c3] m' Hk K'.
    do 4 (apply runs_bind; apply runs_bind; apply LI; [exact K' | lia |]; intros ?;
          apply runs_bind; apply LT; [exact K' | lia |]; intros ?; apply runs_ret).
    apply runs_ret. exact K'.
  - intros [[[r0 r1] r2] r3] m' K'. clear dependent m. rename m' into m, K' into K.
    do 3 (apply runs_bind; eapply k_store_room; [exact K | exact R | lia |]; clear dependent m; intros m K).
    eapply k_store_room; [exact K | exact R | lia |]. intros m' K'. exact K'.
Qed.

Lemma u32_even i : 0 <= i -> exists k, u32 (2 * i) = 2 * k /\ 0 <= k < 2 ^ 31.
Proof.
  intros Hi. unfold u32. exists (i mod 2 ^ 31).
  change (2 ^ 32) with (2 * 2 ^ 31). rewrite Z.mul_mod_distr_l by lia.
  split; [reflexivity | apply Z.mod_pos_bound; lia].
Qed.

Lemma u32_eights i : 0 <= i -> i mod 4 = 0 -> exists k, u32 (i * 2) = 8 * k /\ 0 <= k < 2 ^ 29.
Proof.
  intros Hi E. unfold u32. exists (i / 4 mod 2 ^ 29).
  assert (X : i * 2 = 8 * (i / 4)) by (pose proof (Z.div_mod i 4 ltac:(lia)); lia).
  rewrite X. change (2 ^ 32) with (8 * 2 ^ 29). rewrite Z.mul_mod_distr_l by lia.
  split; [reflexivity | apply Z.mod_pos_bound; lia].
Qed.

(** room for everything the unsigned indices can address *)
Lemma block_aligned m input n out : 2 <= N -> keeps m -> taps_there ->
  0 <= n < 2 ^ 32 - 6 -> (f_sse o = true -> aligned16 addr input = true) ->
  mapped m0 input (n + N - 1) -> room out (Z.min (2 * n) (2 ^ 32)) ->
  runs (up_process_block_aligned addr o input n out) m done.
Proof.
  intros HN K T Hn Ali Mi R. unfold up_process_block_aligned.
  assert (Hr : forall i, 0 <= i < n -> 0 <= u32 (2 * i) /\ u32 (2 * i) + 2 <= Z.min (2 * n) (2 ^ 32)).
  { intros i Hi. destruct (u32_even i ltac:(lia)) as (k & E & Hk). rewrite E.
    assert (L : 2 * k <= 2 * i) by (rewrite <- E; apply Z.mod_le; lia). lia. }
  apply runs_bind.
  assert (P : runs (if f_sse o then
      while (Z.to_nat n) (fun i => u32 (i + 6) <? n)
        (fun i => up_process_4samples_aligned addr o (padd input i) (padd out (u32 (i * 2))) ;;; ret (u32 (i + 4))) 0
      else ret 0) m (fun i m' => 0 <= i < 2 ^ 32 /\ keeps m')).
  { destruct (f_sse o) eqn:Es; [|apply runs_ret; split; [lia | exact K]].
    apply runs_while with (Inv := fun i m' => 0 <= i <= n /\ i mod 4 = 0 /\ keeps m') (meas := fun i => n - i).
    - split; [lia | split; [reflexivity | exact K]].
    - intros i m' (Hi & _) C. rewrite u32_small in C by lia. lia.
    - lia.
    - intros i m' (Hi & E & K') C. rewrite u32_small in C by lia. apply Z.ltb_lt in C.
      apply runs_bind. eapply runs_mono.
      + apply four_samples; [exact HN | exact K' | exact T | apply al_add; [apply Ali; reflexivity | exact E] | |].
        * eapply mapped_sub; [exact Mi | lia |].
          pose proof (Z.div_mod (N + 6) 4 ltac:(lia)). pose proof (Z.mod_pos_bound (N + 6) 4 ltac:(lia)). lia.
        * destruct (u32_eights i ltac:(lia) E) as (k & Ek & Hk).
          assert (L : 8 * k <= i * 2) by (rewrite <- Ek; apply Z.mod_le; lia).
          rewrite Ek. eapply room_sub; [exact R | lia | lia].
      + intros [] m1 K1. apply runs_ret. rewrite u32_small by lia. split; [|lia].
        split; [lia|]. split; [|exact K1]. rewrite Z.add_mod, E by lia. reflexivity.
    - intros i m' (Hi & _ & K') _. split; [lia | exact K']. }
  eapply runs_mono; [exact P|]. intros i0 m1 (Hi0 & K1). clear P.
  apply runs_bind.
  apply runs_while with (Inv := fun i m' => 0 <= i < 2 ^ 32 /\ keeps m') (meas := fun i => n - i).
  - split; [lia | exact K1].
  - intros i m' _ C. lia.
  - lia.
  - intros i m' (Hi & K') C. apply Z.ltb_lt in C. apply runs_bind. eapply runs_mono.
    + apply sample_unaligned; [exact HN | exact K' | exact T | |].
      * eapply mapped_sub; [exact Mi | lia | lia].
      * eapply room_sub; [exact R | apply Hr; lia | apply Hr; lia].
    + intros [] m2 K2. apply runs_ret. rewrite u32_small by lia. split; [split; [lia | exact K2] | lia].
  - intros i m' (_ & K') _. apply runs_ret. exact K'.
Qed.

Lemma al_reach p : addr (pb p) mod 4 = 0 -> exists k, 0 <= k <= 3 /\ aligned16 addr (padd p k) = true.
Proof.
  intros E. unfold aligned16, paddr. cbn [padd pb po].
  pose proof (Z.div_mod (addr (pb p)) 4 ltac:(lia)) as X. rewrite E, Z.add_0_r in X.
  set (q := addr (pb p) / 4) in *. exists ((- (q + po p)) mod 4).
  pose proof (Z.mod_pos_bound (- (q + po p)) 4 ltac:(lia)) as Y.
  split; [lia|]. apply Z.eqb_eq. rewrite X.
  pose proof (Z.div_mod (- (q + po p)) 4 ltac:(lia)) as V.
  set (r := (- (q + po p)) mod 4) in *. set (s := (- (q + po p)) / 4) in *.
  replace (4 * q + 4 * (po p + r)) with ((- s) * 16) by lia. apply Z.mod_mul. lia.
Qed.

Lemma block_unaligned m input n out : 2 <= N -> keeps m -> taps_there ->
  addr (pb input) mod 4 = 0 -> 0 <= n < 2 ^ 32 - 6 ->
  mapped m0 input (n + N - 1) -> room out (Z.min (2 * n) (2 ^ 32 + 6)) ->
  runs (up_process_block_unaligned addr o input n out) m done.
Proof.
  intros HN K T Al Hn Mi R. unfold up_process_block_unaligned.
  destruct (al_reach input Al) as (k0 & Hk0 & Ak0).
  apply runs_bind.
  assert (P : runs (if f_sse o then
      while (Z.to_nat n) (fun i => negb (aligned16 addr (padd input i)) && (i <? n))
        (fun i => up_process_sample_unaligned o (padd input i) (padd out (u32 (2 * i))) ;;; ret (u32 (i + 1))) 0
      else ret 0) m (fun i m' => 0 <= i <= Z.min 3 n /\ (f_sse o = true -> aligned16 addr (padd input i) = true \/ i = n) /\ keeps m')).
  { destruct (f_sse o) eqn:Es; [|apply runs_ret; split; [lia | split; [discriminate | exact K]]].
    apply runs_while with (Inv := fun i m' => 0 <= i <= Z.min k0 n /\ keeps m') (meas := fun i => n - i).
    - split; [lia | exact K].
    - intros i m' _ C. lia.
    - lia.
    - intros i m' (Hi & K') C. apply andb_prop in C. destruct C as [C1 C2]. apply Z.ltb_lt in C2.
      assert (i <> k0) by (intros ->; rewrite Ak0 in C1; discriminate).
      apply runs_bind. eapply runs_mono.
      + apply sample_unaligned; [exact HN | exact K' | exact T | |].
        * eapply mapped_sub; [exact Mi | lia | lia].
        * rewrite u32_small by lia. eapply room_sub; [exact R | lia | lia].
      + intros [] m1 K1. apply runs_ret. rewrite u32_small by lia. split; [split; [lia | exact K1] | lia].
    - intros i m' (Hi & K') C. split; [lia|]. split; [|exact K']. intros _.
      destruct (aligned16 addr (padd input i)); [left; reflexivity | right]. cbn in C. lia. }
  eapply runs_mono; [exact P|]. intros i m1 (Hi & Ai & K1). clear P.
  rewrite u32_small by lia.
  destruct (Z.eq_dec i n) as [->|Hne].
  - rewrite Z.sub_diag. unfold up_process_block_aligned.
    destruct (f_sse o); cbn -[Z.mul Z.add]; apply runs_ret; exact K1.
  - apply block_aligned; [exact HN | exact K1 | exact T | lia | | |].
    + intros E. destruct (Ai E) as [H|H]; [exact H | contradiction].
    + eapply mapped_sub; [exact Mi | lia | lia].
    + eapply room_sub; [exact R | lia | lia].
Qed.

Lemma k_copy m src n dst : keeps m -> mapped m0 src n -> room dst n -> runs (copy_fwd src n dst) m done.
Proof.
  intros K Ms Md. unfold copy_fwd.
  apply runs_for with (Inv := fun _ _ m' => keeps m'); [exact K | | intros ? ? ?; assumption].
  intros k y m' Hk K'. apply runs_bind. eapply k_load_at; [exact K' | exact Ms | lia|]. intros v.
  eapply k_store_room; [exact K' | exact Md | lia|]. intros m2 K2. exact K2.
Qed.

Lemma hist_room a k : taps_there -> 0 <= a -> a + k <= 2 * N -> room (Ptr (Hist tag) a) k.
Proof.
  intros (_ & _ & M & _) Ha Hk. split.
  - exact (mapped_sub _ _ _ a k M Ha Hk).
  - intros i Hi. left. reflexivity.
Qed.
End Big.

(** a block longer than the history: terminates, and only the history and the first
    2^32 + 2 (N + 2) output samples are written *)
Lemma up_big {A : arith} addr (o : fir) (m : mem A) input n output :
  2 <= f_order o < 2 ^ 30 -> taps_there addr o m ->
  addr (pb input) mod 4 = 0 -> f_order o - 1 < n < 2 ^ 32 - 6 ->
  mapped m input n -> mapped m output (2 * n) ->
  runs (up_process_block addr o input n output) m (fun _ m' =>
    forall b i, b <> Hist (f_tag o) -> ~ inr output (Z.min (2 * n) (2 ^ 32 + 2 * (f_order o + 2))) b i -> m' b i = m b i).
Proof.
  intros HN T Al Hn Mi Mo. set (N := f_order o) in *.
  set (W := Z.min (2 * n) (2 ^ 32 + 2 * (N + 2))).
  assert (K : keeps o m output W m) by apply keeps_refl.
  assert (R : room o m output W output W).
  { split.
    - intros k Hk. apply Mo. lia.
    - intros k Hk. right. split; [reflexivity | lia]. }
  unfold up_process_block. fold N. rewrite Z.min_r by lia.
  apply runs_bind. eapply runs_mono.
  { apply (k_copy o m output W); [exact K | | apply (hist_room addr); [exact T | fold N; lia | fold N; lia]].
    intros k Hk. apply Mi. lia. }
  intros [] m1 K1. apply runs_bind. eapply runs_mono.
  { apply (block_aligned addr o m output W); [lia | exact K1 | exact T | lia | intros _; apply T | |].
    - destruct T as (_ & _ & M & _). intros k Hk. apply M. fold N in Hk |- *. lia.
    - pose proof (room_sub o m output W output W 0 (Z.min (2 * (N - 1)) (2 ^ 32)) R) as Q.
      rewrite padd_0 in Q. apply Q; lia. }
  intros [] m2 K2. replace (N - 1 <? n) with true by lia.
  apply runs_bind. rewrite u32_small by lia. eapply runs_mono.
  { apply (block_unaligned addr o m output W); [lia | exact K2 | exact T | exact Al | lia | |].
    - intros k Hk. apply Mi. fold N in Hk. lia.
    - eapply room_sub; [exact R | lia | lia]. }
  intros [] m3 K3. eapply runs_mono.
  { apply (k_copy o m output W); [exact K3 | | apply (hist_room addr); [exact T | lia | fold N; lia]].
    eapply mapped_sub; [exact Mi | lia | lia]. }
  intros [] m4 [_ F]. intros b i Hb Hi. apply F. intros [H|H]; [exact (Hb H) | exact (Hi H)].
Qed.
