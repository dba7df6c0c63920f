(** * Downsampler2: the convolution loops over any arithmetic *)
From Coq Require Import ZArith List Lia Bool ZifyNat ZifyBool.
From Verif Require Import Arith Mem FirModel Wp FirKernel FirUpProof.
Import ListNotations.
Open Scope Z_scope.
Open Scope m_scope.

Section Strided.
Context {A : arith}.
Implicit Types (m : mem A) (X Y : Z -> A).

(** every st-th element at p *)
Definition has_st m (p : ptr) (st n : Z) Y : Prop :=
  forall k, 0 <= k < n -> m (pb p) (po p + k * st) = Some (Y k).

Lemma has_st_frame p n m m' q st k Y : 1 <= st ->
  frame p n m m' -> disj q ((k - 1) * st + 1) p n -> has_st m q st k Y -> has_st m' q st k Y.
Proof.
  intros Hst F D Hy i Hi. rewrite F; [auto|]. intros [E R].
  destruct D as [D|D]; [congruence|]. nia.
Qed.

Lemma has_st_sub m p st n Y a k : has_st m p st n Y -> 0 <= a -> a + k <= n ->
  has_st m (padd p (a * st)) st k (fun i => Y (a + i)).
Proof.
  intros Hy Ha Hk i Hi. cbn [padd pb po].
  replace (po p + a * st + i * st) with (po p + (a + i) * st) by lia. apply Hy. lia.
Qed.

Lemma has_st_1 m p n Y : has m p n Y -> has_st m p 1 n Y.
Proof. intros Hy k Hk. rewrite Z.mul_1_r. apply Hy. exact Hk. Qed.

Lemma deinterleave2_runs data n k output X m :
  n = 2 * k -> has_st m data 2 k X -> mapped m output k ->
  disj data ((k - 1) * 2 + 1) output k ->
  runs (deinterleave2 data n output) m (fun _ m' => has m' output k X /\ frame output k m m').
Proof.
  intros -> Hx Hm D. unfold deinterleave2.
  destruct (Z.lt_ge_cases k 0) as [Hk|Hk].
  { replace (Z.to_nat ((2 * k + 1) / 2)) with O.
    - apply runs_ret. split; [intros i Hi; lia | apply frame_refl].
    - assert ((2 * k + 1) / 2 < 1) by (apply Z.div_lt_upper_bound; lia). lia. }
  replace ((2 * k + 1) / 2) with k.
  2:{ apply Z.div_unique with (r := 1); lia. }
  apply runs_for with (Inv := fun i _ m' =>
    (forall j, 0 <= j < i -> m' (pb output) (po output + j) = Some (X j)) /\ frame output k m m'
    /\ mapped m' output k).
  - split; [lia | split; [apply frame_refl | exact Hm]].
  - intros i _ m' Hi (Hp & F & Mp). apply runs_bind.
    eapply runs_load.
    { cbn [padd pb po]. rewrite (Z.mul_comm 2 i).
      apply (has_st_frame output k m m' data 2 k X ltac:(lia) F D Hx). lia. }
    apply runs_store; cbn [padd pb po].
    + apply Mp. lia.
    + split; [|split].
      * intros j Hj. destruct (Z.eq_dec j i) as [->|]; [apply upd_same|].
        rewrite upd_other by lia. apply Hp. lia.
      * eapply frame_trans; [exact F|]. apply frame_upd. split; [reflexivity | lia].
      * apply mapped_upd, Mp.
  - intros _ m' (Hp & F & _). split; [|exact F]. intros j Hj. apply Hp. lia.
Qed.

End Strided.

Section Fir.
Context {A : arith} (addr : blk -> Z) (o : fir) (t : Z -> A).
Implicit Types (m : mem A) (X Y : Z -> A).
Notation N := (f_order o).
Notation tag := (f_tag o).
Notation H := (f_order o / 2 - 1).

(** Where the odd samples for n outputs may be: apart from the output or, without
    vector code, in the same array so that every sample is read before an output is
    written over it. *)
Definition odd_safe (input_odd : ptr) (st : Z) (output : ptr) (n : Z) : Prop :=
  disj (padd input_odd (H * st)) ((n - 1) * st + 1) output n \/
  f_sse o = false /\ pb output = pb input_odd /\ po output <= po input_odd + H * st.

(** value of output sample k *)
Definition down_val X Y (k n : Z) (w : A) : Prop :=
  exists v, fir_val o t X k n v /\ w = fadd v (fmul fhalf (Y (k + H))).

Definition down_done output X Y n k m' : Prop :=
  forall i, 0 <= i < k -> exists w,
    m' (pb output) (po output + i) = Some w /\ down_val X Y i n w.

Lemma down_done_frame output X Y n k m m' d : 0 <= d ->
  frame (padd output k) d m m' -> down_done output X Y n k m -> down_done output X Y n k m'.
Proof.
  intros Hd F Hw i Hi. destruct (Hw i Hi) as (w & H1 & H2). exists w.
  split; [|exact H2]. rewrite F; [exact H1|]. intros [_ R]; cbn [padd pb po] in R; lia.
Qed.

Lemma down_sample_runs st input_even input_odd i n X Y m :
  2 <= N -> 1 <= st -> taps_ok o t m -> 0 <= i < n ->
  has m input_even (n + N - 1) X -> m (pb input_odd) (po input_odd + (i + H) * st) = Some (Y (i + H)) ->
  down_process_sample_unaligned o st (padd input_even i) (padd input_odd (i * st)) m
  = Ok (fadd (dot (fun k => X (i + k)) t (Z.to_nat N)) (fmul fhalf (Y (i + H))), m).
Proof.
  intros HN Hst T0 Hi Hx Hy.
  assert (HH : 0 <= H) by (pose proof (Z.div_le_lower_bound N 2 1); lia).
  unfold down_process_sample_unaligned, bind.
  rewrite (one_sample_runs _ _ N (fun k => X (i + k)) t m ltac:(lia));
    [|eapply has_sub; [exact Hx | lia | lia] | apply T0].
  unfold load. rewrite padd_padd. cbn [padd pb po].
  replace (i * st + H * st) with ((i + H) * st) by lia.
  rewrite Hy. reflexivity.
Qed.

Lemma down_4samples_runs st input_even input_odd output i n X Y m :
  2 <= N -> 1 <= st -> taps_ok o t m -> outside_taps o output ->
  aligned16 addr (Ptr (SseTaps tag) 0) = true -> aligned16 addr (padd input_even i) = true ->
  0 <= i -> i + 6 < n ->
  has m input_even (n + N - 1) X -> has_st m (padd input_odd (H * st)) st n (fun k => Y (k + H)) -> mapped m output n ->
  disj (padd input_odd (H * st)) ((n - 1) * st + 1) output n ->
  runs (down_process_4samples_aligned addr o st (padd input_even i) (padd input_odd (i * st))
          (padd output i)) m (fun _ m' =>
    (forall j, 0 <= j <= 3 ->
      m' (pb output) (po output + (i + j))
        = Some (fadd (sse_out (fun k => X (i + k)) (sse_tap t N) N j) (fmul fhalf (Y (i + j + H))))) /\
    frame (padd output i) 4 m m' /\ mapped m' output n).
Proof.
  intros HN Hst T0 Ot As Ai Hi Hn Hx Hy Hm Do.
  assert (HH : 0 <= H) by (pose proof (Z.div_le_lower_bound N 2 1); lia).
  pose proof (groups_bound N ltac:(lia)) as Hg.
  assert (Do4 : disj (padd input_odd (H * st)) ((n - 1) * st + 1) (padd output i) 4).
  { destruct Do as [D|D]; cbn [padd pb po] in D; [left; cbn [padd pb po]; auto | right; cbn [padd pb po]; lia]. }
  assert (FU : forall m1 a v, 0 <= a < 4 -> frame (padd output i) 4 m m1 ->
     frame (padd output i) 4 m (upd m1 (pb output) (po output + (i + a)) v)).
  { intros m1 a v Ha F1. eapply frame_trans; [exact F1|]. apply frame_upd.
    split; cbn [padd pb po]; [reflexivity | lia]. }
  unfold down_process_4samples_aligned. apply runs_bind.
  assert (M1 : forall a, 0 <= a < 4 -> mapped m (padd (padd output i) a) 1).
  { intros a Ha k Hk. rewrite padd_padd. cbn [padd pb po]. rewrite <- Z.add_assoc. apply Hm. lia. }
  eapply runs_eq.
  { apply sse_kernel_runs with (X := fun k => X (i + k)) (st := sse_tap t N);
      [lia | exact Ai | exact As | | apply T0 | apply M1; lia | apply M1; lia | apply M1; lia | apply M1; lia].
    apply has_sub with (n := n + N - 1); [exact Hx|lia|lia]. }
  cbv zeta. rewrite !padd_padd. cbn [padd pb po].
  set (S j := sse_out (fun k => X (i + k)) (sse_tap t N) N j).
  set (m4 := upd _ _ _ _).
  assert (F4 : frame (padd output i) 4 m m4).
  { unfold m4. do 4 (apply FU; [lia|]). apply frame_refl. }
  assert (M4 : mapped m4 output n) by (unfold m4; do 4 apply mapped_upd; exact Hm).
  assert (V4 : forall j, 0 <= j <= 3 -> m4 (pb output) (po output + (i + j)) = Some (S j)).
  { intros j Hj.
    assert (j = 0 \/ j = 1 \/ j = 2 \/ j = 3) as [-> | [-> | [-> | ->]]] by lia;
      unfold m4; repeat (rewrite upd_other by lia); apply upd_eq; [reflexivity | lia
        | reflexivity | lia | reflexivity | lia | reflexivity | lia]. }
  clearbody m4.
  assert (ST : forall m1 k, 0 <= k <= 3 ->
     frame (padd output i) 4 m m1 -> mapped m1 output n ->
     m1 (pb output) (po output + (i + k)) = Some (S k) ->
     runs (y <- load (Ptr (pb output) (po output + (i + k))) ;;
           x <- load (Ptr (pb input_odd) (po input_odd + (i * st + (H + k) * st))) ;;
           store (Ptr (pb output) (po output + (i + k))) (fadd y (fmul fhalf x))) m1
       (fun _ m2 => m2 = upd m1 (pb output) (po output + (i + k)) (fadd (S k) (fmul fhalf (Y (i + k + H)))))).
  { intros m1 k Hk F1 Mm1 V1. apply runs_bind. eapply runs_load; [exact V1|].
    apply runs_bind. eapply runs_load.
    - cbn [padd pb po]. replace (i * st + (H + k) * st) with ((i + k + H) * st) by lia.
      pose proof (has_st_frame _ _ _ _ _ _ n _ Hst F1 Do4 Hy (i + k) ltac:(lia)) as Q. cbn [padd pb po] in Q.
      rewrite <- Q. f_equal. lia.
    - apply runs_store; cbn [padd pb po].
      + apply Mm1. lia.
      + reflexivity. }
  apply runs_bind. eapply runs_mono.
  { apply (ST m4 0); [lia | exact F4 | exact M4 | apply V4; lia]. }
  intros _ m5 ->.
  apply runs_bind. eapply runs_mono.
  { apply (ST _ 1); [lia | apply FU; [lia | exact F4] | apply mapped_upd, M4 |].
    rewrite upd_other by lia. apply V4; lia. }
  intros _ m5 ->.
  apply runs_bind. eapply runs_mono.
  { apply (ST _ 2); [lia | do 2 (apply FU; [lia|]); exact F4 | do 2 apply mapped_upd; exact M4 |].
    do 2 (rewrite upd_other by lia). apply V4; lia. }
  intros _ m5 ->.
  eapply runs_mono.
  { apply (ST _ 3); [lia | do 3 (apply FU; [lia|]); exact F4 | do 3 apply mapped_upd; exact M4 |].
    do 3 (rewrite upd_other by lia). apply V4; lia. }
  intros _ m5 ->. split; [|split].
  - intros j Hj. assert (j = 0 \/ j = 1 \/ j = 2 \/ j = 3) as [-> | [-> | [-> | ->]]] by lia;
      repeat (rewrite upd_other by lia); apply upd_eq; [reflexivity | lia
        | reflexivity | lia | reflexivity | lia | reflexivity | lia].
  - do 4 (apply FU; [lia|]). exact F4.
  - do 4 apply mapped_upd. exact M4.
Qed.

Lemma down_block_aligned_runs st input_even input_odd output n X Y m :
  2 <= N -> 1 <= st -> taps_ok o t m -> outside_taps o output ->
  (f_sse o = true -> aligned16 addr (Ptr (SseTaps tag) 0) = true /\ aligned16 addr input_even = true) ->
  0 <= n -> n * st + 6 < 2 ^ 32 ->
  has m input_even (n + N - 1) X -> has_st m (padd input_odd (H * st)) st n (fun k => Y (k + H)) -> mapped m output n ->
  disj input_even (n + N - 1) output n ->
  odd_safe input_odd st output n ->
  runs (down_process_block_aligned addr o st input_even input_odd output n) m (fun _ m' =>
    down_done output X Y n n m' /\ frame output n m m').
Proof.
  intros HN Hst T0 Ot Al Hn Hn32 Hx Hy Hm De Do.
  assert (HH : 0 <= H) by (pose proof (Z.div_le_lower_bound N 2 1); lia).
  unfold down_process_block_aligned. apply runs_bind.
  set (Inv := fun i m' => 0 <= i <= n /\ down_done output X Y n i m' /\ frame output i m m'
                          /\ mapped m' output n).
  assert (I0 : Inv 0 m).
  { split; [lia|]. split; [intros i Hi; lia|]. split; [apply frame_refl | exact Hm]. }
  apply runs_mono with (P := fun i m' => Inv i m').
  - destruct (f_sse o) eqn:Es; [|apply runs_ret; exact I0].
    destruct (Al eq_refl) as [As Ai].
    assert (Do' : disj (padd input_odd (H * st)) ((n - 1) * st + 1) output n).
    { destruct Do as [Do|[Q _]]; [exact Do | congruence]. }
    apply runs_while with (Inv := fun i m' => Inv i m' /\ i mod 4 = 0) (meas := fun i => n - i).
    + split; [exact I0 | reflexivity].
    + intros i m' [(Hi & _) _] Hc. rewrite u32_small in Hc by nia. lia.
    + lia.
    + intros i m' [(Hi & Hd & Fi & M') Hi4] Hc.
      assert (F : frame output n m m') by (eapply frame_wider; [exact Fi | reflexivity | lia | lia]). rewrite u32_small in Hc by nia.
      apply runs_bind. rewrite u32_small by nia.
      eapply runs_mono.
      * apply down_4samples_runs with (n := n) (X := X) (Y := Y).
        -- exact HN.
        -- exact Hst.
        -- exact (taps_ok_frame _ _ _ _ _ _ Ot F T0).
        -- exact Ot.
        -- exact As.
        -- pose proof (Z.div_mod i 4 ltac:(lia)).
           replace i with (4 * (i / 4)) by lia. rewrite aligned16_step. exact Ai.
        -- lia.
        -- lia.
        -- exact (frame_has _ _ _ _ _ _ _ F De Hx).
        -- exact (has_st_frame _ _ _ _ _ _ _ _ Hst F Do' Hy).
        -- exact M'.
        -- exact Do'.
      * intros _ m2 (V & F2 & M2). apply runs_ret. rewrite u32_small by nia.
        split; [|lia]. split; [|rewrite <- Z.add_mod_idemp_l, Hi4 by lia; reflexivity].
        split; [lia|]. split; [|split; [|exact M2]].
        -- intros k Hk. destruct (Z.lt_ge_cases k i) as [Hlt|Hge].
           ++ apply (down_done_frame output X Y n i m' m2 4 ltac:(lia) F2 Hd). lia.
           ++ specialize (V (k - i) ltac:(lia)). replace (i + (k - i)) with k in V by lia.
              eexists. split; [exact V|].
              exists (sse_out (fun a => X (i + a)) (sse_tap t N) N (k - i)).
              split; [|reflexivity].
              right. split; [exact Es|]. exists (k - i). split; [lia|]. split; [lia|]. split; [lia|].
              f_equal. replace (k - (k - i)) with i by lia. reflexivity.
        -- eapply frame_trans.
           ++ eapply frame_wider; [exact Fi | reflexivity | lia | lia].
           ++ eapply frame_wider; [exact F2 | reflexivity | cbn [padd pb po]; lia | cbn [padd pb po]; lia].
    + intros i m' [Hq _] _. exact Hq.
  - intros i0 m0 H0. apply runs_bind.
    apply runs_while with (Inv := Inv) (meas := fun i => n - i).
    + exact H0.
    + intros i m' _ Hc. lia.
    + destruct H0 as [H0 _]. lia.
    + intros i m' (Hi & Hd & Fi & M') Hc.
      assert (F : frame output n m m') by (eapply frame_wider; [exact Fi | reflexivity | lia | lia]).
      apply runs_bind. rewrite u32_small by nia.
      eapply runs_eq.
      { apply down_sample_runs with (n := n) (X := X) (Y := Y).
        - exact HN.
        - exact Hst.
        - exact (taps_ok_frame _ _ _ _ _ _ Ot F T0).
        - lia.
        - exact (frame_has _ _ _ _ _ _ _ F De Hx).
        - pose proof (Hy i ltac:(lia)) as Q. cbn [padd pb po] in Q. rewrite <- Q, Fi.
          + f_equal. lia.
          + intros [E1 E2]. destruct Do as [[D|D]|(_ & E & D)]; cbn [padd pb po] in *; [congruence | nia | nia]. }
      apply runs_bind. apply runs_store; [cbn [padd pb po]; apply M'; lia|].
      cbn [padd pb po]. apply runs_ret. rewrite u32_small by nia.
      split; [|lia]. split; [lia|]. split; [|split].
      * intros k Hk. destruct (Z.eq_dec k i) as [->|Hne].
        -- eexists. split; [apply upd_same|].
           exists (dot (fun a => X (i + a)) t (Z.to_nat N)). split; [left|]; reflexivity.
        -- rewrite upd_other by lia. apply Hd. lia.
      * eapply frame_trans; [eapply frame_wider; [exact Fi | reflexivity | lia | lia]|]. apply frame_upd. split; [reflexivity | lia].
      * apply mapped_upd, M'.
    + intros i m' (Hi & Hd & F & M') Hc. apply runs_ret.
      assert (i = n) by lia. subst i. split; assumption.
Qed.

(** the stack array is aligned, so the loop that looks for an aligned position
    makes no step *)
Lemma down_block_unaligned_runs st input_even input_odd output n X Y m :
  2 <= N -> 1 <= st -> taps_ok o t m -> outside_taps o output ->
  (f_sse o = true -> aligned16 addr (Ptr (SseTaps tag) 0) = true /\ aligned16 addr input_even = true) ->
  0 <= n -> n * st + 6 < 2 ^ 32 ->
  has m input_even (n + N - 1) X -> has_st m (padd input_odd (H * st)) st n (fun k => Y (k + H)) -> mapped m output n ->
  disj input_even (n + N - 1) output n ->
  odd_safe input_odd st output n ->
  runs (down_process_block_unaligned addr o st input_even input_odd output n) m (fun _ m' =>
    down_done output X Y n n m' /\ frame output n m m').
Proof.
  intros HN Hst T0 Ot Al Hn Hn32 Hx Hy Hm De Do.
  unfold down_process_block_unaligned. apply runs_bind.
  apply runs_mono with (P := fun i m' => i = 0 /\ m' = m).
  - destruct (f_sse o) eqn:Es; [|apply runs_ret; auto]. destruct (Al eq_refl) as [_ Ai].
    destruct (Z.to_nat n); cbn [while]; rewrite padd_0, Ai; cbn [negb andb]; apply runs_ret; auto.
  - intros i m' [-> ->]. rewrite Z.mul_0_l. change (u32 0) with 0. rewrite !padd_0.
    apply down_block_aligned_runs; assumption.
Qed.
End Fir.
