(** * Downsampler2 satisfies the stage contract *)
From Coq Require Import ZArith List Lia Bool ZifyNat ZifyBool.
From Verif Require Import Arith Mem FirModel Wp FirKernel FirUpProof FirDownProof Stage.
Import ListNotations.
Open Scope Z_scope.
Open Scope m_scope.

Section Down.
Context {A : arith} (addr : blk -> Z) (o : fir) (t : Z -> A).
Implicit Types (m : mem A) (X : Z -> A).
Notation N := (f_order o).
Notation tag := (f_tag o).
Notation H := (f_order o / 2 - 1).

(** windows of position k into the even and the odd input samples *)
Definition winE (x : list A) (k : Z) : A := sig x (2 * (k - (N - 1))).
Definition winO (x : list A) (k : Z) : A := sig x (2 * (k - (N - 1)) + 1).

(** relation between input and output stream over any arithmetic *)
Definition fir_down_rel (x y : list A) : Prop :=
  len x = 2 * len y /\
  forall k, 0 <= k < len y -> down_val o t (winE x) (winO x) k (len y) (nthZ y k).

Lemma has_at m b n X k : has m (Ptr b 0) n X -> 0 <= k < n -> m b k = Some (X k).
Proof. intros Q Hk. exact (Q k Hk). Qed.

Lemma H_pos : 2 <= N -> 0 <= H < N.
Proof. intros HN. pose proof (Z.div_le_lower_bound N 2 1). pose proof (Z.div_lt N 2). lia. Qed.

(** of the odd history only the entries from H on are used *)
Definition down_inv m (l : list A) : Prop :=
  taps_ok o t m /\
  mapped m (Ptr (HistE tag) 0) (2 * N) /\ mapped m (Ptr (HistO tag) 0) (2 * N) /\
  has m (Ptr (HistE tag) 0) (N - 1) (fun k => winE l (len l / 2 + k)) /\
  (forall k, H <= k < N - 1 -> m (HistO tag) k = Some (winO l (len l / 2 + k))).

Lemma down_inv_local : local tag down_inv.
Proof.
  intros m m' l E ((T1 & T2) & M1 & M2 & H1 & H2).
  split; [split|split; [|split; [|split]]]; intros k Hk; cbn [pb po];
    rewrite E by reflexivity; [apply T1 | apply T2 | apply M1 | apply M2 | apply H1 | apply H2]; exact Hk.
Qed.

Lemma fir_down_rel_nil : fir_down_rel [] [].
Proof. split; [reflexivity|]. intros k Hk. cbn in Hk. lia. Qed.

Lemma down_val_more X Y k n n' v : n <= n' -> down_val o t X Y k n v -> down_val o t X Y k n' v.
Proof. intros Hn (w & Hw & E). exists w. split; [eapply fir_val_more; eauto | exact E]. Qed.

Lemma fir_down_rel_app x y b z : 2 <= N ->
  fir_down_rel x y -> len b = 2 * len z ->
  (forall k, 0 <= k < len z ->
    down_val o t (winE (x ++ b)) (winO (x ++ b)) (len y + k) (len y + len z) (nthZ z k)) ->
  fir_down_rel (x ++ b) (y ++ z).
Proof.
  intros HN [L Hx] Lb Hz.
  assert (HH : 0 <= H < N) by (pose proof (Z.div_le_lower_bound N 2 1); pose proof (Z.div_lt N 2); lia).
  pose proof (len_nonneg y). pose proof (len_nonneg z). split; [rewrite !len_app; lia|].
  intros k Hk. rewrite len_app in Hk |- *. destruct (Z.lt_ge_cases k (len y)) as [Hlt|Hge].
  - rewrite nthZ_app1 by lia. destruct (Hx k ltac:(lia)) as (v & V1 & V2).
    exists v. split.
    + apply fir_val_more with (n := len y); [lia|].
      eapply fir_val_ext; [lia | | | exact V1]; [lia|].
      intros i Hi. unfold winE. symmetry. apply sig_app1. lia.
    + rewrite V2. do 2 f_equal. unfold winO. symmetry. apply sig_app1. lia.
  - specialize (Hz (k - len y) ltac:(lia)). replace (len y + (k - len y)) with k in Hz by lia.
    replace k with (len y + (k - len y)) at 2 by lia. rewrite nthZ_app2 by lia. exact Hz.
Qed.

Lemma down_construct_runs m :
  2 <= N ->
  runs (down_construct o t) m (fun _ m' =>
    down_inv m' [] /\ (forall b i, tag_of b <> Some tag -> m' b i = m b i)).
Proof.
  intros HN. unfold down_construct.
  apply runs_bind. unfold alloc at 1, runs at 1.
  apply runs_bind. unfold alloc at 1, runs at 1.
  apply runs_bind. unfold alloc at 1, runs at 1.
  set (m2 := fun b' i => if blk_eqb b' (HistO tag) then _ else _).
  assert (T0 : has m2 (Ptr (Taps tag) 0) N t).
  { intros k Hk. unfold m2. cbn [pb po]. rewrite Z.add_0_l.
    destruct (blk_eqb_spec (Taps tag) (HistO tag)) as [E|_]; [discriminate|].
    destruct (blk_eqb_spec (Taps tag) (HistE tag)) as [E|_]; [discriminate|].
    rewrite blk_eqb_refl. replace ((0 <=? k) && (k <? N)) with true by lia. reflexivity. }
  eapply runs_mono; [apply compute_sse_taps_runs with (t := t); [lia | exact T0]|].
  intros _ m3 [Hs Hf].
  assert (Hh : has m3 (Ptr (HistE tag) 0) (2 * N) (fun _ => f0)).
  { intros k Hk. cbn [pb po]. rewrite Hf by discriminate. unfold m2.
    destruct (blk_eqb_spec (HistE tag) (HistO tag)) as [E|_]; [discriminate|]. rewrite blk_eqb_refl.
    replace ((0 <=? 0 + k) && (0 + k <? 2 * N)) with true by lia. reflexivity. }
  assert (Hh' : has m3 (Ptr (HistO tag) 0) (2 * N) (fun _ => f0)).
  { intros k Hk. cbn [pb po]. rewrite Hf by discriminate. unfold m2. rewrite blk_eqb_refl.
    replace ((0 <=? 0 + k) && (0 + k <? 2 * N)) with true by lia. reflexivity. }
  split.
  - split; [split; [|exact Hs]|split; [|split; [|split]]].
    + intros k Hk. cbn [pb]. rewrite Hf by discriminate. apply T0. exact Hk.
    + apply (has_mapped _ _ _ _ Hh).
    + apply (has_mapped _ _ _ _ Hh').
    + intros k Hk. rewrite Hh by lia. unfold winE. rewrite sig_neg; [reflexivity | change (@len A [] / 2) with 0; lia].
    + intros k Hk. pose proof (H_pos HN). rewrite (has_at _ _ _ _ k Hh') by lia. unfold winO. rewrite sig_neg; [reflexivity | change (@len A [] / 2) with 0; lia].
  - intros b i Hb. assert (Hb' : forall b', tag_of b' = Some tag -> blk_eqb b b' = false).
    { intros b' E. destruct (blk_eqb_spec b b'); congruence. }
    rewrite Hf by (intros ->; apply Hb; reflexivity).
    unfold m2. now rewrite !Hb' by reflexivity.
Qed.

Lemma down_reset_runs m l :
  2 <= N -> down_inv m l ->
  runs (down_reset o) m (fun _ m' =>
    down_inv m' [] /\ (forall b i, tag_of b <> Some tag -> m' b i = m b i)).
Proof.
  intros HN ((T1 & T2) & M1 & M2 & H1 & H2). unfold down_reset.
  apply runs_bind. eapply runs_mono; [apply fill_runs; exact M1|].
  intros _ m1 [Hh F].
  eapply runs_mono.
  { apply fill_runs. eapply frame_mapped; [exact F | left; discriminate | exact M2]. }
  intros _ m' [Hh' F'].
  assert (Hh2 : has m' (Ptr (HistE tag) 0) (2 * N) (fun _ => f0)).
  { eapply frame_has; [exact F' | left; discriminate | exact Hh]. }
  split; [split; [|split; [|split; [|split]]]|].
  - eapply taps_ok_frame; [|exact F'|]; [split; discriminate|].
    eapply taps_ok_frame; [|exact F|]; [split; discriminate|]. split; assumption.
  - apply (has_mapped _ _ _ _ Hh2).
  - apply (has_mapped _ _ _ _ Hh').
  - intros k Hk. rewrite Hh2 by lia. unfold winE. rewrite sig_neg; [reflexivity | change (@len A [] / 2) with 0; lia].
  - intros k Hk. pose proof (H_pos HN). rewrite (has_at _ _ _ _ k Hh') by lia. unfold winO. rewrite sig_neg; [reflexivity | change (@len A [] / 2) with 0; lia].
  - intros b i Hb. rewrite F' by (intros [-> _]; apply Hb; reflexivity).
    apply F. intros [-> _]. apply Hb. reflexivity.
Qed.

(** the alignment the allocator and the stack array provide *)
Definition down_aligned : Prop :=
  aligned16 addr (Ptr (SseTaps tag) 0) = true /\ aligned16 addr (Ptr (HistE tag) 0) = true /\
  aligned16 addr (Ptr DBlock 0) = true.

Lemma down_chunk_ok m l yl b input output n :
  2 <= N < 2 ^ 30 -> down_aligned ->
  down_inv m l -> fir_down_rel l yl -> len b = 2 * n -> n <= 1024 ->
  mapped m (Ptr DBlock 0) 1024 ->
  is_data (pb input) -> is_data (pb output) ->
  has m input (2 * n) (nthZ b) -> mapped m output n ->
  (disj input (2 * n) output n \/ (f_sse o = false /\ N mod 2 = 0) /\ over input output) ->
  runs (down_process_chunk addr o input (2 * n) output) m (fun _ m' =>
    exists y, len y = n /\ fir_down_rel (l ++ b) (yl ++ y) /\
      has m' output n (nthZ y) /\ down_inv m' (l ++ b) /\ mapped m' (Ptr DBlock 0) 1024 /\
      (forall b' i, ~ priv tag b' -> ~ inr output n b' i -> m' b' i = m b' i)).
Proof.
  intros HN (AlS & AlH & AlD) (T0 & ME & MO & HE & HO) Rl Hb Hn MD Di Do Hi Mo D0.
  assert (HH : 0 <= H < N) by (pose proof (Z.div_le_lower_bound N 2 1); pose proof (Z.div_lt N 2); lia).
  pose proof (len_nonneg b) as Hn0. assert (Hn1 : 0 <= n) by lia.
  assert (Eq : len l = 2 * len yl) by apply Rl. set (q := len yl) in *.
  assert (Hq0 : 0 <= q) by apply len_nonneg.
  assert (El2 : len l / 2 = q) by (rewrite Eq, Z.mul_comm; apply Z.div_mul; lia).
  rewrite El2 in HE, HO.
  unfold down_process_chunk. replace (2 * n / 2) with n by (rewrite Z.mul_comm, Z.div_mul; lia).
  set (ht := Z.min n (N - 1)).
  assert (Not : outside_taps o output).
  { split; intros E; rewrite E in Do; exact Do. }
  assert (Dpriv : forall c a k k', ~ is_data c -> disj (Ptr c a) k output k').
  { intros c a k k' Hc. left. cbn [pb]. intros E. rewrite E in Hc. exact (Hc Do). }
  assert (Dpriv' : forall c a k k', ~ is_data c -> disj output k (Ptr c a) k').
  { intros c a k k' Hc. left. cbn [pb]. intros E. rewrite <- E in Hc. exact (Hc Do). }
  assert (Din : forall p c a k k', pb p = pb input -> ~ is_data c -> disj p k (Ptr c a) k').
  { intros p c a k k' Ep Hc. left. cbn [pb]. rewrite Ep. intros E. rewrite <- E in Hc. exact (Hc Di). }
  assert (NE : ~ is_data (HistE tag)) by (cbn; tauto).
  assert (NO : ~ is_data (HistO tag)) by (cbn; tauto).
  assert (ND : ~ is_data DBlock) by (cbn; tauto).
  set (Ev := fun k => nthZ b (2 * k)). set (Od := fun k => nthZ b (2 * k + 1)).
  set (E := fun k => winE (l ++ b) (q + k)). set (O := fun k => winO (l ++ b) (q + k)).
  assert (Eold : forall k, 0 <= k < N - 1 -> winE l (q + k) = E k).
  { intros k Hk. unfold E, winE. symmetry. apply sig_app1. lia. }
  assert (Oold : forall k, 0 <= k < N - 1 -> winO l (q + k) = O k).
  { intros k Hk. unfold O, winO. symmetry. apply sig_app1. lia. }
  assert (Enew : forall k, 0 <= k -> E (N - 1 + k) = Ev k).
  { intros k Hk. unfold E, Ev, winE.
    replace (2 * (q + (N - 1 + k) - (N - 1))) with (len l + 2 * k) by lia. apply sig_app2. lia. }
  assert (Onew : forall k, 0 <= k -> O (N - 1 + k) = Od k).
  { intros k Hk. unfold O, Od, winO.
    replace (2 * (q + (N - 1 + k) - (N - 1)) + 1) with (len l + (2 * k + 1)) by lia. apply sig_app2. lia. }
  assert (HiE : forall m', has m' input (2 * n) (nthZ b) -> has_st m' input 2 n Ev).
  { intros m' Hi' k Hk. rewrite (Z.mul_comm k 2). apply Hi'. lia. }
  assert (HiO : forall m', has m' input (2 * n) (nthZ b) -> has_st m' (padd input 1) 2 n Od).
  { intros m' Hi' k Hk. cbn [padd pb po].
    replace (po input + 1 + k * 2) with (po input + (2 * k + 1)) by lia. apply Hi'. lia. }
  (* the even samples to the stack array *)
  apply runs_bind. eapply runs_mono.
  { apply deinterleave2_runs with (k := n) (X := Ev).
    - reflexivity.
    - apply HiE, Hi.
    - intros k Hk. apply MD. lia.
    - apply Din; [reflexivity | exact ND]. }
  intros _ m1 [D1 F1].
  assert (Hi1 : has m1 input (2 * n) (nthZ b)).
  { eapply frame_has; [exact F1 | apply Din; [reflexivity | exact ND] | exact Hi]. }
  (* first samples behind the histories *)
  apply runs_bind. eapply runs_mono.
  { apply copy_fwd_runs with (X := Ev).
    - intros k Hk. apply D1. unfold ht in Hk. lia.
    - eapply frame_mapped; [exact F1 | left; discriminate |].
      intros k Hk. cbn [pb po]. specialize (ME (N - 1 + k)). cbn [pb po] in ME.
      rewrite Z.add_0_l in ME. apply ME. unfold ht in Hk. lia.
    - left; discriminate. }
  intros _ m2 [E2 F2].
  assert (Hi2 : has m2 input (2 * n) (nthZ b)).
  { eapply frame_has; [exact F2 | apply Din; [reflexivity | exact NE] | exact Hi1]. }
  apply runs_bind. eapply runs_mono.
  { apply deinterleave2_runs with (k := ht) (X := Od).
    - lia.
    - intros k Hk. apply (HiO m2 Hi2). unfold ht in Hk. lia.
    - eapply frame_mapped; [exact F2 | left; discriminate |].
      eapply frame_mapped; [exact F1 | left; discriminate |].
      intros k Hk. cbn [pb po]. specialize (MO (N - 1 + k)). cbn [pb po] in MO.
      rewrite Z.add_0_l in MO. apply MO. unfold ht in Hk. lia.
    - apply Din; [reflexivity | exact NO]. }
  intros _ m3 [O3 F3].
  assert (Hi3 : has m3 input (2 * n) (nthZ b)).
  { eapply frame_has; [exact F3 | apply Din; [reflexivity | exact NO] | exact Hi2]. }
  assert (WE : has m3 (Ptr (HistE tag) 0) (ht + N - 1) E).
  { eapply frame_has; [exact F3 | left; discriminate |].
    intros k Hk. cbn [pb po]. destruct (Z.lt_ge_cases k (N - 1)) as [Hlt|Hge].
    - rewrite F2 by (intros [_ R]; cbn [po] in R; lia). rewrite F1 by (intros [Hx _]; discriminate).
      specialize (HE k ltac:(lia)). cbn [pb po] in HE. rewrite HE, Eold by lia. reflexivity.
    - specialize (E2 (k - (N - 1)) ltac:(lia)). cbn [pb po] in E2.
      replace (0 + k) with (N - 1 + (k - (N - 1))) by lia. rewrite E2, <- Enew by lia.
      do 2 f_equal. lia. }
  assert (WO : forall k, H <= k < ht + N - 1 -> m3 (HistO tag) k = Some (O k)).
  { intros k Hk. destruct (Z.lt_ge_cases k (N - 1)) as [Hlt|Hge].
    - rewrite F3 by (intros [_ R]; cbn [po] in R; lia).
      rewrite F2 by (intros [Hx _]; discriminate). rewrite F1 by (intros [Hx _]; discriminate).
      rewrite (HO k ltac:(lia)), Oold by lia. reflexivity.
    - specialize (O3 (k - (N - 1)) ltac:(lia)). cbn [pb po] in O3.
      replace k with (N - 1 + (k - (N - 1))) by lia. rewrite O3, <- Onew by lia. reflexivity. }
  assert (D3 : has m3 (Ptr DBlock 0) n Ev).
  { eapply frame_has; [exact F3 | left; discriminate |].
    eapply frame_has; [exact F2 | left; discriminate | exact D1]. }
  assert (ME3 : mapped m3 (Ptr (HistE tag) 0) (2 * N)).
  { intros k Hk Ex. destruct (Z.lt_ge_cases k (ht + N - 1)) as [Hlt|Hge].
    - rewrite (WE k) in Ex by lia. discriminate.
    - cbn [pb po] in Ex. rewrite F3 in Ex by (intros [Hx _]; discriminate).
      rewrite F2 in Ex by (intros [_ R]; cbn [po] in R; unfold ht in *; lia).
      rewrite F1 in Ex by (intros [Hx _]; discriminate). exact (ME k Hk Ex). }
  assert (MO3 : mapped m3 (Ptr (HistO tag) 0) (2 * N)).
  { intros k Hk Ex. cbn [pb po] in Ex. rewrite Z.add_0_l in Ex.
    assert (Hc : H <= k < ht + N - 1 \/ ~ (N - 1 <= k < N - 1 + ht)) by lia. destruct Hc as [Hlt|Hge].
    - rewrite (WO k) in Ex by lia. discriminate.
    - rewrite F3 in Ex by (intros [_ R]; cbn [po] in R; unfold ht in *; lia).
      rewrite F2 in Ex by (intros [Hx _]; discriminate).
      rewrite F1 in Ex by (intros [Hx _]; discriminate). exact (MO k Hk Ex). }
  assert (MD3 : mapped m3 (Ptr DBlock 0) 1024).
  { intros k Hk Ex. destruct (Z.lt_ge_cases k n) as [Hlt|Hge].
    - rewrite (D3 k) in Ex by lia. discriminate.
    - cbn [pb po] in Ex. rewrite F3 in Ex by (intros [Hx _]; discriminate).
      rewrite F2 in Ex by (intros [Hx _]; discriminate).
      rewrite F1 in Ex by (intros [_ R]; cbn [po] in R; lia). exact (MD k Hk Ex). }
  assert (T3 : taps_ok o t m3).
  { eapply taps_ok_frame; [|exact F3|]; [split; discriminate|].
    eapply taps_ok_frame; [|exact F2|]; [split; discriminate|].
    eapply taps_ok_frame; [|exact F1|exact T0]. split; discriminate. }
  assert (Z3 : forall b' i, ~ priv tag b' -> m3 b' i = m b' i).
  { intros b' i Hp. rewrite F3, F2, F1; [reflexivity| | |]; intros [-> _]; apply Hp.
    - right; reflexivity.
    - left; reflexivity.
    - left; reflexivity. }
  assert (Mo3 : mapped m3 output n).
  { intros k Hk. rewrite Z3 by (apply data_not_priv; exact Do). apply Mo. exact Hk. }
  clear D1 F1 E2 F2 O3 F3 Hi1 Hi2 m1 m2 HE HO ME MO MD Mo T0.
  (* outputs computed from the histories *)
  apply runs_bind. eapply runs_mono.
  { apply down_block_aligned_runs with (X := E) (Y := O) (t := t).
    - lia.
    - lia.
    - exact T3.
    - exact Not.
    - intros _. split; assumption.
    - unfold ht; lia.
    - unfold ht; lia.
    - exact WE.
    - intros k Hk. cbn [padd pb po]. rewrite (WO (0 + (N / 2 - 1) * 1 + k * 1)) by (unfold ht in *; lia). do 2 f_equal. lia.
    - intros k Hk. apply Mo3. unfold ht in *. lia.
    - apply Dpriv, NE.
    - left. apply (Dpriv (HistO tag)), NO. }
  intros _ m4 [V4 F4].
  assert (F4' : frame output n m3 m4).
  { eapply frame_wider; [exact F4 | reflexivity | lia | unfold ht; lia]. }
  assert (T4 : taps_ok o t m4) by exact (taps_ok_frame _ _ _ _ _ _ Not F4 T3).
  assert (Hi4 : forall k, H <= k < n -> m4 (pb input) (po input + (2 * k + 1)) = Some (Od k)).
  { intros k Hk. rewrite F4; [apply Hi3; lia|]. intros [Ex R].
    destruct D0 as [[D0|D0]|((_ & D1) & D2 & D3')]; [congruence | unfold ht in *; lia |].
    pose proof (Z.div_mod N 2 ltac:(lia)). unfold ht in *. lia. }
  assert (Mo4 : mapped m4 output n).
  { intros k Hk Ex. destruct (Z.lt_ge_cases k ht) as [Hlt|Hge].
    - destruct (V4 k ltac:(lia)) as (w & Ew & _). congruence.
    - rewrite F4 in Ex by (intros [_ R]; lia). exact (Mo3 k Hk Ex). }
  assert (V4' : forall k, 0 <= k < ht -> exists w, m4 (pb output) (po output + k) = Some w /\
     down_val o t (winE (l ++ b)) (winO (l ++ b)) (q + k) (q + n) w).
  { intros k Hk. destruct (V4 k Hk) as (w & Ew & v & Hv & Ev'). exists w. split; [exact Ew|].
    exists v. split.
    - eapply fir_val_more; [|apply fir_val_shift; [exact Hq0 | exact Hv]]. unfold ht; lia.
    - rewrite Ev'. unfold O. rewrite Z.add_assoc. reflexivity. }
  (* common final argument *)
  assert (Fin : forall m5 : mem A,
    taps_ok o t m5 ->
    mapped m5 (Ptr (HistE tag) 0) (2 * N) -> mapped m5 (Ptr (HistO tag) 0) (2 * N) ->
    has m5 (Ptr (HistE tag) 0) (N - 1) (fun k => E (n + k)) ->
    (forall k, H <= k < N - 1 -> m5 (HistO tag) k = Some (O (n + k))) ->
    mapped m5 (Ptr DBlock 0) 1024 -> mapped m5 output n ->
    (forall k, 0 <= k < n -> exists w, m5 (pb output) (po output + k) = Some w /\
      down_val o t (winE (l ++ b)) (winO (l ++ b)) (q + k) (q + n) w) ->
    (forall b' i, ~ priv tag b' -> ~ inr output n b' i -> m5 b' i = m3 b' i) ->
    exists y, len y = n /\ fir_down_rel (l ++ b) (yl ++ y) /\
      has m5 output n (nthZ y) /\ down_inv m5 (l ++ b) /\ mapped m5 (Ptr DBlock 0) 1024 /\
      (forall b' i, ~ priv tag b' -> ~ inr output n b' i -> m5 b' i = m b' i)).
  { intros m5 T5 ME5 MO5 HE5 HO5 MD5 Mo5 V5 Fr5.
    destruct (has_read m5 output n ltac:(lia) Mo5) as (y & Ly & Hy).
    assert (El : len (l ++ b) / 2 = q + n).
    { rewrite len_app, Eq, Hb. replace (2 * q + 2 * n) with ((q + n) * 2) by lia.
      apply Z.div_mul. lia. }
    exists y. split; [exact Ly|]. split; [|split; [exact Hy|split; [|split; [exact MD5|]]]].
    - apply fir_down_rel_app; [lia | exact Rl | lia |].
      fold q. rewrite Ly. intros k Hk. destruct (V5 k Hk) as (w & Ew & Vw).
      rewrite Hy in Ew by lia. assert (Hyw : nthZ y k = w) by congruence. rewrite Hyw. exact Vw.
    - split; [exact T5|]. split; [exact ME5|]. split; [exact MO5|]. rewrite El. split.
      + eapply has_ext; [exact HE5|]. intros k Hk. unfold E. f_equal. lia.
      + intros k Hk. rewrite HO5 by exact Hk. unfold O. do 2 f_equal. lia.
    - intros b' i Hp Hr. rewrite Fr5 by assumption. apply Z3, Hp. }
  assert (KE : forall m5, frame output n m4 m5 -> mapped m5 (Ptr (HistE tag) 0) (2 * N)).
  { intros m5 F5. eapply frame_mapped; [exact F5 | apply Dpriv, NE |].
    eapply frame_mapped; [exact F4' | apply Dpriv, NE | exact ME3]. }
  assert (KO : forall m5, frame output n m4 m5 -> mapped m5 (Ptr (HistO tag) 0) (2 * N)).
  { intros m5 F5. eapply frame_mapped; [exact F5 | apply Dpriv, NO |].
    eapply frame_mapped; [exact F4' | apply Dpriv, NO | exact MO3]. }
  assert (KD : forall m5, frame output n m4 m5 -> has m5 (Ptr DBlock 0) n Ev).
  { intros m5 F5. eapply frame_has; [exact F5 | apply Dpriv, ND |].
    eapply frame_has; [exact F4' | apply Dpriv, ND | exact D3]. }
  assert (KM : forall m5, frame output n m4 m5 -> mapped m5 (Ptr DBlock 0) 1024).
  { intros m5 F5. eapply frame_mapped; [exact F5 | apply Dpriv, ND |].
    eapply frame_mapped; [exact F4' | apply Dpriv, ND | exact MD3]. }
  destruct (Z.ltb_spec ht n) as [Hlt|Hge].
  - (* more samples than fit into the history *)
    assert (Eht : ht = N - 1) by (unfold ht in *; lia).
    apply runs_bind. eapply runs_mono.
    { apply down_block_unaligned_runs with (X := Ev) (Y := Od) (t := t).
      - lia.
      - lia.
      - exact T4.
      - exact Not.
      - intros _. split; assumption.
      - lia.
      - lia.
      - intros k Hk. apply (KD m4 (frame_refl _ _ _)). lia.
      - intros k Hk. cbn [padd pb po]. pose proof (Hi4 (k + (N / 2 - 1)) ltac:(lia)) as Q. rewrite <- Q. f_equal. lia.
      - intros k Hk. cbn [padd pb po]. rewrite <- Z.add_assoc. apply Mo4. lia.
      - left. cbn [pb padd]. intros Ex. rewrite <- Ex in Do. exact Do.
      - destruct D0 as [[D0|D0]|((D0 & D1) & D2 & D3')].
        + left. left. cbn [padd pb]. exact D0.
        + left. right. cbn [padd po]. lia.
        + right. split; [exact D0|]. cbn [padd pb po]. split; [exact D2|].
          pose proof (Z.div_mod N 2 ltac:(lia)). lia. }
    intros _ m5 [V5 F5].
    assert (F5' : frame output n m4 m5).
    { eapply frame_wider; [exact F5 | reflexivity | cbn [padd po]; lia | cbn [padd po]; lia]. }
    assert (Mo5 : mapped m5 output n).
    { intros k Hk Ex. destruct (Z.lt_ge_cases k ht).
      - rewrite F5 in Ex by (intros [_ R]; cbn [padd po] in R; lia). exact (Mo4 k Hk Ex).
      - destruct (V5 (k - ht) ltac:(lia)) as (w & Ew & _). cbn [padd pb po] in Ew.
        replace (po output + ht + (k - ht)) with (po output + k) in Ew by lia. congruence. }
    assert (Hi5 : forall k, n - ht + H <= k < n -> m5 (pb input) (po input + (2 * k + 1)) = Some (Od k)).
    { intros k Hk. rewrite F5'; [apply Hi4; lia|]. intros [Ex R].
      destruct D0 as [[D0|D0]|((_ & D1) & D2 & D3')]; [congruence | lia |].
      pose proof (Z.div_mod N 2 ltac:(lia)). lia. }
    assert (Mi5 : mapped m5 input (2 * n)).
    { intros k Hk Ex.
      destruct (Z.le_gt_cases (po output) (po input + k)), (Z.lt_ge_cases (po input + k) (po output + n)),
        (blk_eqb_spec (pb input) (pb output)) as [Eb|Eb];
        try (rewrite F5', F4', Hi3 in Ex by (lia || (intros [E1 E2]; (congruence || lia))); discriminate).
      rewrite Eb in Ex. apply (Mo5 (po input + k - po output) ltac:(lia)). rewrite <- Ex. f_equal. lia. }
    apply runs_bind. eapply runs_mono.
    { apply copy_fwd_runs with (X := fun k => Ev (n - ht + k)).
      - intros k Hk. cbn [padd pb po]. rewrite <- Z.add_assoc. apply (KD m5 F5'). lia.
      - intros k Hk. apply (KE m5 F5'). lia.
      - left; discriminate. }
    intros _ m6 [E6 F6].
    assert (Q6 : forall i, m6 (pb input) i = m5 (pb input) i).
    { intros i. apply F6. intros [Ex _]. cbn [pb] in Ex. rewrite Ex in Di. exact Di. }
    set (Od' := fun k => match m5 (pb input) (po input + (2 * (n - ht + k) + 1)) with Some v => v | None => f0 end).
    assert (EOd : forall k, H <= k < ht -> Od' k = Od (n - ht + k)).
    { intros k Hk. unfold Od'. rewrite Hi5 by lia. reflexivity. }
    eapply runs_mono.
    { apply deinterleave2_runs with (k := ht) (X := Od').
      - lia.
      - intros k Hk. cbn [padd pb po]. rewrite Q6.
        replace (po input + 1 + (2 * n - ht * 2) + k * 2) with (po input + (2 * (n - ht + k) + 1)) by lia.
        unfold Od'. pose proof (Mi5 (2 * (n - ht + k) + 1) ltac:(lia)) as Q.
        destruct (m5 (pb input) (po input + (2 * (n - ht + k) + 1))); [reflexivity | contradiction].
      - eapply frame_mapped; [exact F6 | left; discriminate |].
        intros k Hk. apply (KO m5 F5'). lia.
      - apply Din; [reflexivity | exact NO]. }
    intros _ m7 [O7 F7].
    assert (Z7 : forall i, m7 (pb output) i = m5 (pb output) i).
    { intros i. rewrite F7, F6; [reflexivity| |]; intros [Ex _]; cbn [pb] in Ex; rewrite Ex in Do; exact Do. }
    apply Fin.
    + eapply taps_ok_frame; [|exact F7|]; [split; discriminate|].
      eapply taps_ok_frame; [|exact F6|]; [split; discriminate|].
      exact (taps_ok_frame _ _ _ _ _ _ Not F5' T4).
    + eapply frame_mapped; [exact F7 | left; discriminate |].
      intros k Hk Ex. cbn [pb po] in Ex. destruct (Z.lt_ge_cases k ht).
      * specialize (E6 k ltac:(lia)). cbn [pb po] in E6. rewrite E6 in Ex. discriminate.
      * rewrite F6 in Ex by (intros [_ R]; cbn [po] in R; lia). exact (KE m5 F5' k Hk Ex).
    + intros k Hk Ex. cbn [pb po] in Ex. destruct (Z.lt_ge_cases k ht).
      * specialize (O7 k ltac:(lia)). cbn [pb po] in O7. rewrite O7 in Ex. discriminate.
      * rewrite F7 in Ex by (intros [_ R]; cbn [po] in R; lia).
        rewrite F6 in Ex by (intros [Hx _]; discriminate). exact (KO m5 F5' k Hk Ex).
    + eapply frame_has; [exact F7 | left; discriminate |].
      intros k Hk. rewrite E6 by lia. rewrite <- Enew by lia. do 2 f_equal. lia.
    + intros k Hk. rewrite (has_at _ _ _ _ k O7) by lia. rewrite EOd by lia. rewrite <- Onew by lia. do 2 f_equal. lia.
    + eapply frame_mapped; [exact F7 | left; discriminate |].
      eapply frame_mapped; [exact F6 | left; discriminate |]. apply KM, F5'.
    + intros k Hk. rewrite Z7. apply Mo5. exact Hk.
    + intros k Hk. rewrite Z7. destruct (Z.lt_ge_cases k ht).
      * destruct (V4' k ltac:(lia)) as (w & Ew & Vw). exists w. split; [|exact Vw].
        rewrite F5 by (intros [_ R]; cbn [padd po] in R; lia). exact Ew.
      * destruct (V5 (k - ht) ltac:(lia)) as (w & Ew & v & Hv & Ev'). cbn [padd pb po] in Ew.
        replace (po output + ht + (k - ht)) with (po output + k) in Ew by lia.
        exists w. split; [exact Ew|]. exists v. split.
        -- replace (q + k) with (q + ht + (k - ht)) by lia.
           replace (q + n) with (q + ht + (n - ht)) by lia.
           apply fir_val_shift; [lia|].
           eapply fir_val_ext; [lia | | | exact Hv]; [lia|].
           intros i Hi'. rewrite <- Enew by lia. unfold E. f_equal. lia.
        -- rewrite Ev'. rewrite <- Onew by lia. unfold O. do 3 f_equal. lia.
    + intros b' i Hp Hr. rewrite F7 by (intros [-> _]; apply Hp; left; reflexivity).
      rewrite F6 by (intros [-> _]; apply Hp; left; reflexivity).
      rewrite F5' by exact Hr. apply F4'. exact Hr.
  - assert (Eht : ht = n) by (unfold ht in *; lia).
    apply runs_bind. eapply runs_mono.
    { apply memmove_runs with (X := fun k => E (n + k)).
      - lia.
      - intros k Hk. cbn [pb po]. specialize (WE (n + k) ltac:(lia)). cbn [pb po] in WE.
        rewrite F4' by (intros [Ex _]; cbn [pb] in Ex; rewrite <- Ex in Do; exact Do).
        rewrite Z.add_0_l in WE. exact WE.
      - intros k Hk. apply (KE m4 (frame_refl _ _ _)). lia. }
    intros _ m6 [E6 F6].
    set (O' := fun k => match m3 (HistO tag) (n + k) with Some v => v | None => f0 end).
    assert (EO : forall k, H <= k < N - 1 -> O' k = O (n + k)).
    { intros k Hk. unfold O'. rewrite WO by lia. reflexivity. }
    eapply runs_mono.
    { apply memmove_runs with (X := O').
      - lia.
      - intros k Hk. cbn [pb po].
        rewrite F6 by (intros [Ex _]; discriminate).
        rewrite F4' by (intros [Ex _]; cbn [pb] in Ex; rewrite <- Ex in Do; exact Do).
        unfold O'. pose proof (MO3 (n + k) ltac:(unfold ht in *; lia)) as Q. cbn [pb po] in Q. rewrite Z.add_0_l in Q.
        destruct (m3 (HistO tag) (n + k)); [reflexivity | contradiction].
      - eapply frame_mapped; [exact F6 | left; discriminate |].
        intros k Hk. apply (KO m4 (frame_refl _ _ _)). lia. }
    intros _ m7 [O7 F7].
    assert (Z7 : forall i, m7 (pb output) i = m4 (pb output) i).
    { intros i. rewrite F7, F6; [reflexivity| |]; intros [Ex _]; cbn [pb] in Ex; rewrite Ex in Do; exact Do. }
    apply Fin.
    + eapply taps_ok_frame; [|exact F7|]; [split; discriminate|].
      eapply taps_ok_frame; [|exact F6|exact T4]. split; discriminate.
    + eapply frame_mapped; [exact F7 | left; discriminate |].
      intros k Hk Ex. cbn [pb po] in Ex. destruct (Z.lt_ge_cases k (N - 1)).
      * specialize (E6 k ltac:(lia)). cbn [pb po] in E6. rewrite E6 in Ex. discriminate.
      * rewrite F6 in Ex by (intros [_ R]; cbn [po] in R; lia).
        exact (KE m4 (frame_refl _ _ _) k Hk Ex).
    + intros k Hk Ex. cbn [pb po] in Ex. destruct (Z.lt_ge_cases k (N - 1)).
      * specialize (O7 k ltac:(lia)). cbn [pb po] in O7. rewrite O7 in Ex. discriminate.
      * rewrite F7 in Ex by (intros [_ R]; cbn [po] in R; lia).
        rewrite F6 in Ex by (intros [Hx _]; discriminate). exact (KO m4 (frame_refl _ _ _) k Hk Ex).
    + eapply frame_has; [exact F7 | left; discriminate | exact E6].
    + intros k Hk. rewrite (has_at _ _ _ _ k O7) by lia. rewrite EO by lia. reflexivity.
    + eapply frame_mapped; [exact F7 | left; discriminate |].
      eapply frame_mapped; [exact F6 | left; discriminate |]. apply KM, frame_refl.
    + intros k Hk. rewrite Z7. apply Mo4. exact Hk.
    + intros k Hk. rewrite Z7. apply V4'. lia.
    + intros b' i Hp Hr. rewrite F7 by (intros [-> _]; apply Hp; left; reflexivity).
      rewrite F6 by (intros [-> _]; apply Hp; left; reflexivity).
      apply F4'. exact Hr.
Qed.

Definition down_run (garbage : Z -> A) (input : ptr) (n : Z) (output : ptr) : M A unit :=
  down_process_block addr garbage o input n output ;;; ret tt.

Lemma list_split (b : list A) k : 0 <= k <= len b ->
  exists b1 b2, b = b1 ++ b2 /\ len b1 = k.
Proof.
  intros Hk. exists (firstn (Z.to_nat k) b), (skipn (Z.to_nat k) b).
  rewrite firstn_skipn. split; [reflexivity|]. unfold len in *. rewrite firstn_length. lia.
Qed.

Lemma down_stage_ok garbage :
  2 <= N < 2 ^ 30 -> down_aligned ->
  stage_ok addr (down_run garbage) tag down_inv fir_down_rel
    (fun n => n mod 2 = 0) (fun n => n / 2) 0 (f_sse o = false /\ N mod 2 = 0).
Proof.
  intros HN Al m l yl b input output I0 Rl Hev Di Do Hi _ Mo D0 _.
  pose proof (len_nonneg b) as Hn0. rewrite Z.add_0_r in D0.
  assert (Eb : len b = 2 * (len b / 2)) by (pose proof (Z.div_mod (len b) 2); lia).
  unfold down_run, down_process_block.
  replace (len b mod 2 =? 0) with true by lia. cbn [negb].
  apply runs_bind. apply runs_bind. unfold alloc at 1, runs at 1.
  set (m0 := fun b' i => if blk_eqb b' DBlock then _ else _).
  assert (Z0 : forall b' i, b' <> DBlock -> m0 b' i = m b' i).
  { intros b' i Hb'. unfold m0. destruct (blk_eqb_spec b' DBlock); [contradiction | reflexivity]. }
  assert (MD0 : mapped m0 (Ptr DBlock 0) 1024).
  { intros k Hk. unfold m0. cbn [pb po]. rewrite blk_eqb_refl.
    replace ((0 <=? 0 + k) && (0 + k <? 1024)) with true by lia. discriminate. }
  assert (Iinp : forall p, is_data (pb p) -> pb p <> DBlock) by (intros p Hp E; rewrite E in Hp; exact Hp).
  clearbody m0. apply runs_bind.
  set (Inv := fun (s : Z * ptr * ptr) (m' : mem A) =>
    let '(n, inp, outp) := s in
    exists b1 b2 y1, b = b1 ++ b2 /\ n = len b2 /\ len b1 = 2 * len y1 /\
      inp = padd input (len b1) /\ outp = padd output (len y1) /\
      fir_down_rel (l ++ b1) (yl ++ y1) /\ has m' output (len y1) (nthZ y1) /\
      down_inv m' (l ++ b1) /\ mapped m' (Ptr DBlock 0) 1024 /\
      (forall b' i, ~ priv tag b' -> ~ inr output (len y1) b' i -> m' b' i = m b' i)).
  apply runs_while with (Inv := Inv) (meas := fun s => fst (fst s)).
  - exists [], b, []. rewrite !app_nil_r. split; [reflexivity|]. split; [reflexivity|].
    split; [reflexivity|]. change (@len A []) with 0. rewrite !padd_0.
    split; [reflexivity|]. split; [reflexivity|]. split; [exact Rl|].
    split; [intros k Hk; lia|]. split; [|split; [exact MD0|]].
    + eapply down_inv_local; [|exact I0]. intros b' i Ht. apply Z0. intros ->. discriminate.
    + intros b' i Hp _. apply Z0. intros ->. apply Hp. right. reflexivity.
  - intros [[n inp] outp] m' (b1 & b2 & y1 & _ & -> & _) Hc. cbn [fst].
    pose proof (len_nonneg b2). lia.
  - cbn [fst]. lia.
  - intros [[n inp] outp] m' (b1 & b2 & y1 & Eb1 & En & Lb1 & -> & -> & R1 & Hy1 & I1 & MD1 & Z1) Hc.
    subst n. pose proof (len_nonneg b2) as Hb2. pose proof (len_nonneg y1) as Hy0.
    assert (Lb : len b = len b1 + len b2) by (rewrite Eb1; apply len_app).
    set (k := Z.min (len b2) (1024 * 2)).
    assert (Ek : k = 2 * (k / 2)).
    { unfold k. destruct (Z.min_spec (len b2) (1024 * 2)) as [[_ ->]|[_ ->]]; [|reflexivity].
      replace (len b2) with ((len b / 2 - len y1) * 2) by lia. rewrite Z.div_mul; lia. }
    destruct (list_split b2 k ltac:(unfold k; lia)) as (c1 & c2 & Ec & Lc).
    assert (Lb2 : len b2 = len c1 + len c2) by (rewrite Ec; apply len_app).
    assert (Hb' : b = (b1 ++ c1) ++ c2) by (rewrite Eb1, Ec, app_assoc; reflexivity).
    assert (Dsub : forall k1 k2, 0 <= k2 -> len b1 + k1 <= len b -> len y1 + k2 <= len b / 2 ->
       disj (padd input (len b1)) k1 (padd output (len y1)) k2 \/
       (f_sse o = false /\ N mod 2 = 0) /\ over (padd input (len b1)) (padd output (len y1))).
    { intros k1 k2 Hk2 Hk1 Hk3. pose proof (len_nonneg b1).
      destruct D0 as [[D0|D0]|(D1 & D2 & D3)].
      - left. left. cbn [padd pb]. exact D0.
      - left. right. cbn [padd po]. lia.
      - right. split; [exact D1|]. split; cbn [padd pb po]; [exact D2 | lia]. }
    apply runs_bind. rewrite Ek.
    eapply runs_mono.
    { apply down_chunk_ok with (l := l ++ b1) (yl := yl ++ y1) (b := c1).
      - exact HN.
      - exact Al.
      - exact I1.
      - exact R1.
      - lia.
      - unfold k in *. lia.
      - exact MD1.
      - exact Di.
      - exact Do.
      - intros j Hj. cbn [padd pb po].
        rewrite Z1.
        + rewrite <- Z.add_assoc, (Hi (len b1 + j)) by (pose proof (len_nonneg b1); lia).
          rewrite Eb1, nthZ_app2, Ec, nthZ_app1 by lia. reflexivity.
        + apply data_not_priv, Di.
        + intros [E R]. pose proof (len_nonneg b1).
          destruct D0 as [[D0|D0]|(D1 & D2 & D3)]; [congruence | lia | lia].
      - intros j Hj. cbn [padd pb po]. rewrite <- Z.add_assoc.
        rewrite Z1.
        + apply Mo. lia.
        + apply data_not_priv, Do.
        + intros [E R]. lia.
      - apply Dsub; lia. }
    intros _ m2 (y & Ly & R2 & Hy & I2 & MD2 & Z2). apply runs_ret.
    split; [|cbn [fst]; unfold k in *; lia].
    exists (b1 ++ c1), c2, (y1 ++ y). split; [exact Hb'|].
    rewrite !len_app. split; [lia|]. split; [lia|].
    rewrite !padd_padd. split; [f_equal; lia|]. split.
    { f_equal. rewrite Ly. rewrite <- Ek. reflexivity. }
    rewrite !app_assoc. split; [exact R2|]. split.
    { intros j Hj. destruct (Z.lt_ge_cases j (len y1)).
      - rewrite nthZ_app1 by lia. rewrite Z2.
        + apply Hy1. lia.
        + apply data_not_priv, Do.
        + intros [E R]. cbn [padd po] in R. lia.
      - specialize (Hy (j - len y1) ltac:(lia)). cbn [padd pb po] in Hy.
        replace (po output + len y1 + (j - len y1)) with (po output + j) in Hy by lia.
        rewrite Hy. f_equal. replace j with (len y1 + (j - len y1)) at 2 by lia.
        symmetry. apply nthZ_app2. lia. }
    split; [exact I2|]. split; [exact MD2|].
    intros b' i Hp Hr. rewrite Z2.
    + apply Z1; [exact Hp|]. intros [E R]. apply Hr. split; [exact E | lia].
    + exact Hp.
    + intros [E R]. apply Hr. cbn [padd pb po] in E, R. split; [exact E | lia].
  - intros [[n inp] outp] m' (b1 & b2 & y1 & Eb1 & En & Lb1 & -> & -> & R1 & Hy1 & I1 & MD1 & Z1) Hc.
    assert (b2 = []).
    { destruct b2; [reflexivity|]. exfalso. unfold len in En. cbn [length] in En. lia. }
    subst b2. rewrite app_nil_r in Eb1. subst b1.
    apply runs_bind. unfold free at 1, runs at 1. apply runs_ret. apply runs_ret.
    assert (Ly : len b / 2 = len y1) by lia. rewrite Ly.
    exists y1. split; [reflexivity|]. split; [exact R1|]. split; [|split].
    + intros k Hk. destruct (blk_eqb_spec (pb output) DBlock) as [E|_]; [exfalso; exact (Iinp _ Do E)|].
      apply Hy1. exact Hk.
    + eapply down_inv_local; [|exact I1]. intros b' i Ht.
      destruct (blk_eqb_spec b' DBlock) as [->|_]; [discriminate | reflexivity].
    + intros b' i Hp Hr. destruct (blk_eqb_spec b' DBlock) as [->|_].
      * exfalso. apply Hp. right. reflexivity.
      * apply Z1; assumption.
Qed.
End Down.
