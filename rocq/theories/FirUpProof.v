(** * Upsampler2: contract of process_block over any arithmetic *)
From Coq Require Import ZArith List Lia Bool ZifyNat ZifyBool.
From Verif Require Import Arith Mem FirModel Wp FirKernel.
Import ListNotations.
Open Scope Z_scope.
Open Scope m_scope.

Section Fir.
Context {A : arith} (addr : blk -> Z) (o : fir) (t : Z -> A).
Implicit Types (m : mem A) (X : Z -> A).
Notation N := (f_order o).
Notation tag := (f_tag o).

(** the tap arrays are as the constructor left them *)
Definition taps_ok m : Prop :=
  has m (Ptr (Taps tag) 0) N t /\
  has m (Ptr (SseTaps tag) 0) (16 * groups N) (sse_tap t N).

(** v is the scalar result at window position k, or lane j of a vector result
    that used no more than the n positions available *)
Definition fir_val X (k n : Z) (v : A) : Prop :=
  v = dot (fun i => X (k + i)) t (Z.to_nat N) \/
  (f_sse o = true /\ exists j, 0 <= j <= 3 /\ j <= k /\ k - j + 6 < n /\
     v = sse_out (fun i => X (k - j + i)) (sse_tap t N) N j).

Lemma fir_val_shift X a k n v : 0 <= a ->
  fir_val (fun i => X (a + i)) k n v -> fir_val X (a + k) (a + n) v.
Proof.
  intros Ha [->|(Hs & j & Hj & Hk & Hn & ->)].
  - left. apply dot_ext; intros; [f_equal; lia | reflexivity].
  - right. split; [exact Hs|]. exists j. repeat split; try lia.
    unfold sse_out, lanes. f_equal.
    assert (E : forall l g, lane_acc (fun i => X (a + (k - j + i))) (sse_tap t N) j l g =
                       lane_acc (fun i => X (a + k - j + i)) (sse_tap t N) j l g).
    { intros l g. induction g as [|g IH]; cbn [lane_acc].
      - do 2 f_equal. lia.
      - rewrite IH. do 3 f_equal. lia. }
    now rewrite !E.
Qed.

Lemma fir_val_more X k n n' v : n <= n' -> fir_val X k n v -> fir_val X k n' v.
Proof.
  intros H [->|(Hs & j & Hj & Hk & Hn & ->)]; [left; reflexivity|].
  right. split; [exact Hs|]. exists j. repeat split; lia.
Qed.

Lemma fir_val_ext X Y k n v : 0 <= N -> 0 <= k < n ->
  (forall i, 0 <= i < n + N - 1 -> X i = Y i) -> fir_val X k n v -> fir_val Y k n v.
Proof.
  intros HN Hk E [->|(Hs & j & Hj & Hk' & Hn & ->)].
  - left. apply dot_ext; [|reflexivity]. intros i Hi. apply E. lia.
  - right. split; [exact Hs|]. exists j. repeat split; try lia.
    apply sse_out_ext; [lia | lia | | reflexivity].
    intros i Hi. apply E. pose proof (groups_bound N HN). lia.
Qed.

Definition outside_taps (p : ptr) : Prop := pb p <> Taps tag /\ pb p <> SseTaps tag.

Lemma taps_ok_frame m m' p n : outside_taps p -> frame p n m m' -> taps_ok m -> taps_ok m'.
Proof.
  intros [H1 H2] F [T1 T2]. split; eapply frame_has; eauto; left; cbn [padd pb po]; congruence.
Qed.

Ltac fr := eapply frame_trans; [eassumption|]; apply frame_upd; split; cbn [padd pb po]; [reflexivity | lia].

Lemma up_sample_runs input output i n X m :
  0 <= N -> taps_ok m -> outside_taps output ->
  0 <= i < n -> 2 * n < 2 ^ 32 ->
  N / 2 < N ->
  has m input (n + N - 1) X -> mapped m output (2 * n) -> disj input (n + N - 1) output (2 * n) ->
  runs (up_process_sample_unaligned o (padd input i) (padd output (2 * i))) m (fun _ m' =>
    m' (pb output) (po output + 2 * i) = Some (dot (fun k => X (i + k)) t (Z.to_nat N)) /\
    m' (pb output) (po output + (2 * i + 1)) = Some (X (i + N / 2)) /\
    frame (padd output (2 * i)) 2 m m' /\ mapped m' output (2 * n)).
Proof.
  intros HN T0 Ot Hi Hn HH Hx Hm D. pose proof (Z.div_pos N 2 HN ltac:(lia)) as Hh.
  unfold up_process_sample_unaligned. apply runs_bind.
  eapply runs_eq.
  { apply one_sample_runs with (X := fun k => X (i + k)) (t := t); [exact HN | | apply T0].
    eapply has_sub; [exact Hx | lia | lia]. }
  apply runs_bind. apply runs_store; [cbn [padd pb po]; apply Hm; lia|].
  set (m1 := upd m _ _ _).
  assert (F1 : frame (padd output (2 * i)) 2 m m1).
  { apply frame_upd. split; cbn [padd pb po]; [reflexivity | lia]. }
  apply runs_bind. eapply runs_load.
  { rewrite padd_padd. cbn [padd pb po].
    eapply (frame_has (padd output (2 * i)) 2 m m1 input (n + N - 1) X F1); [|exact Hx|].
    - destruct D as [D|D]; [left; cbn [padd pb po]; auto | right; cbn [padd pb po]; lia].
    - lia. }
  apply runs_store.
  { rewrite padd_padd. cbn [padd pb po]. apply mapped_upd_any. apply Hm. lia. }
  rewrite padd_padd. cbn [padd pb po]. split; [|split; [|split]].
  - rewrite upd_other by lia. apply upd_same.
  - apply upd_same.
  - eapply frame_trans; [exact F1|]. apply frame_upd. split; cbn [padd pb po]; [reflexivity | lia].
  - do 2 apply mapped_upd. exact Hm.
Qed.

Lemma up_4samples_runs input output i n X m :
  2 <= N -> taps_ok m -> outside_taps output ->
  aligned16 addr (Ptr (SseTaps tag) 0) = true -> aligned16 addr (padd input i) = true ->
  0 <= i -> i + 6 < n -> 2 * n < 2 ^ 32 ->
  has m input (n + N - 1) X -> mapped m output (2 * n) -> disj input (n + N - 1) output (2 * n) ->
  runs (up_process_4samples_aligned addr o (padd input i) (padd output (2 * i))) m (fun _ m' =>
    (forall j, 0 <= j <= 3 ->
      m' (pb output) (po output + 2 * (i + j))
        = Some (sse_out (fun k => X (i + k)) (sse_tap t N) N j) /\
      m' (pb output) (po output + (2 * (i + j) + 1)) = Some (X (i + j + N / 2))) /\
    frame (padd output (2 * i)) 8 m m' /\ mapped m' output (2 * n)).
Proof.
  intros HN T0 Ot As Ai Hi Hn Hn32 Hx Hm D.
  assert (HH : 0 <= N / 2 < N) by (split; [apply Z.div_pos | apply Z.div_lt]; lia).
  pose proof (groups_bound N ltac:(lia)) as Hg.
  assert (D8 : disj input (n + N - 1) (padd output (2 * i)) 8).
  { destruct D as [D|D]; [left; cbn [padd pb po]; auto | right; cbn [padd pb po]; lia]. }
  unfold up_process_4samples_aligned.
  assert (ST : forall m1 a k, 0 <= a < 8 -> 0 <= k <= 3 ->
     frame (padd output (2 * i)) 8 m m1 -> mapped m1 output (2 * n) ->
     runs (x <- load (padd (padd input i) (N / 2 + k)) ;; store (padd (padd output (2 * i)) a) x) m1
       (fun _ m2 => m2 = upd m1 (pb output) (po output + 2 * i + a) (X (i + k + N / 2)))).
  { intros m1 a k Ha Hk F1 M1. apply runs_bind. eapply runs_load.
    - rewrite padd_padd. cbn [padd pb po].
      apply (frame_has _ _ _ _ _ _ _ F1 D8 Hx). lia.
    - apply runs_store.
      + rewrite padd_padd. cbn [padd pb po]. apply M1. lia.
      + rewrite padd_padd. cbn [padd pb po]. f_equal; [lia | f_equal; lia]. }
  assert (FU : forall m1 a v, 0 <= a < 8 -> frame (padd output (2 * i)) 8 m m1 ->
     frame (padd output (2 * i)) 8 m (upd m1 (pb output) (po output + 2 * i + a) v)).
  { intros m1 a v Ha F1. eapply frame_trans; [exact F1|]. apply frame_upd.
    split; cbn [padd pb po]; [reflexivity | lia]. }
  do 4 (apply runs_bind; eapply runs_mono;
    [apply ST; [lia | lia | repeat (apply FU; [lia|]); apply frame_refl | repeat apply mapped_upd; exact Hm]
    | intros ? ? ->]).
  set (m4 := upd _ _ _ _).
  assert (F4 : frame (padd output (2 * i)) 8 m m4).
  { unfold m4. repeat (apply FU; [lia|]). apply frame_refl. }
  assert (M4 : mapped m4 output (2 * n)) by (unfold m4; repeat apply mapped_upd; exact Hm).
  assert (M1 : forall a, 0 <= a < 8 -> mapped m4 (padd (padd output (2 * i)) a) 1).
  { intros a Ha k Hk. rewrite padd_padd. cbn [padd pb po]. rewrite <- Z.add_assoc. apply M4. lia. }
  destruct (taps_ok_frame m m4 (padd output (2 * i)) 8 Ot F4 T0) as [_ T2].
  eapply runs_eq.
  { apply sse_kernel_runs with (X := fun k => X (i + k)) (st := sse_tap t N);
      [lia | exact Ai | exact As | | exact T2 | apply M1; lia | apply M1; lia | apply M1; lia | apply M1; lia].
    apply has_sub with (n := n + N - 1); [|lia|lia].
    exact (frame_has _ _ _ _ _ _ _ F4 D8 Hx). }
  cbv zeta. rewrite !padd_padd. cbn [padd pb po]. split; [|split].
  - intros j Hj.
    assert (j = 0 \/ j = 1 \/ j = 2 \/ j = 3) as [-> | [-> | [-> | ->]]] by lia;
      (split;
       [ repeat (rewrite upd_other by lia); apply upd_eq; [reflexivity | lia]
       | repeat (rewrite upd_other by lia); unfold m4;
         repeat (rewrite upd_other by lia); apply upd_eq; [reflexivity | lia] ]).
  - rewrite !Z.add_assoc. do 4 (apply FU; [lia|]). exact F4.
  - do 4 apply mapped_upd. exact M4.
Qed.

(** the outputs for positions 0..k-1 have been written *)
Definition up_done output X n k m' : Prop :=
  forall i, 0 <= i < k -> exists v,
    m' (pb output) (po output + 2 * i) = Some v /\ fir_val X i n v /\
    m' (pb output) (po output + (2 * i + 1)) = Some (X (i + N / 2)).

Lemma up_done_frame output X n k m m' d : 0 <= d ->
  frame (padd output (2 * k)) d m m' -> up_done output X n k m -> up_done output X n k m'.
Proof.
  intros Hd F H i Hi. destruct (H i Hi) as (v & H1 & H2 & H3). exists v.
  split; [|split; [exact H2|]]; (rewrite F; [assumption|]); intros [_ R]; cbn [padd pb po] in R; lia.
Qed.

Lemma up_block_aligned_runs input output n X m :
  2 <= N -> taps_ok m -> outside_taps output ->
  (f_sse o = true -> aligned16 addr (Ptr (SseTaps tag) 0) = true /\ aligned16 addr input = true) ->
  0 <= n -> 2 * n + 6 < 2 ^ 32 ->
  has m input (n + N - 1) X -> mapped m output (2 * n) -> disj input (n + N - 1) output (2 * n) ->
  runs (up_process_block_aligned addr o input n output) m (fun _ m' =>
    up_done output X n n m' /\ frame output (2 * n) m m').
Proof.
  intros HN T0 Ot Al Hn Hn32 Hx Hm D.
  assert (HH : 0 <= N / 2 < N) by (split; [apply Z.div_pos | apply Z.div_lt]; lia).
  unfold up_process_block_aligned. apply runs_bind.
  set (Inv := fun i m' => 0 <= i <= n /\ up_done output X n i m' /\ frame output (2 * n) m m'
                          /\ mapped m' output (2 * n)).
  assert (I0 : Inv 0 m).
  { split; [lia|]. split; [intros i Hi; lia|]. split; [apply frame_refl | exact Hm]. }
  apply runs_mono with (P := fun i m' => Inv i m').
  - destruct (f_sse o) eqn:Es; [|apply runs_ret; exact I0].
    destruct (Al eq_refl) as [As Ai].
    apply runs_while with (Inv := fun i m' => Inv i m' /\ i mod 4 = 0) (meas := fun i => n - i).
    + split; [exact I0 | reflexivity].
    + intros i m' [(Hi & _) _] Hc. rewrite u32_small in Hc by lia. lia.
    + lia.
    + intros i m' [(Hi & Hd & F & M') Hi4] Hc. rewrite u32_small in Hc by lia.
      apply runs_bind. rewrite u32_small by lia. rewrite (Z.mul_comm i 2).
      eapply runs_mono.
      * apply up_4samples_runs with (n := n) (X := X); try assumption; try lia.
        -- exact (taps_ok_frame _ _ _ _ Ot F T0).
        -- pose proof (Z.div_mod i 4 ltac:(lia)).
           replace i with (4 * (i / 4)) by lia. rewrite aligned16_step. exact Ai.
        -- exact (frame_has _ _ _ _ _ _ _ F D Hx).
      * intros _ m2 (V & F2 & M2). apply runs_ret. rewrite u32_small by lia.
        split; [|lia]. split; [|rewrite <- Z.add_mod_idemp_l, Hi4 by lia; reflexivity].
        split; [lia|]. split; [|split; [|exact M2]].
        -- intros k Hk. destruct (Z.lt_ge_cases k i) as [Hlt|Hge].
           ++ apply (up_done_frame output X n i m' m2 8 ltac:(lia) F2 Hd). lia.
           ++ destruct (V (k - i) ltac:(lia)) as [V1 V2].
              replace (i + (k - i)) with k in V1, V2 by lia.
              exists (sse_out (fun a => X (i + a)) (sse_tap t N) N (k - i)).
              split; [exact V1|]. split; [|exact V2].
              right. split; [exact Es|]. exists (k - i). split; [lia|]. split; [lia|]. split; [lia|].
              f_equal. replace (k - (k - i)) with i by lia. reflexivity.
        -- eapply frame_trans; [exact F|].
           eapply frame_wider; [exact F2 | reflexivity | cbn [padd pb po]; lia | cbn [padd pb po]; lia].
    + intros i m' [H _] _. exact H.
  - intros i0 m0 H0. apply runs_bind.
    apply runs_while with (Inv := Inv) (meas := fun i => n - i).
    + exact H0.
    + intros i m' _ Hc. lia.
    + destruct H0 as [H0 _]. lia.
    + intros i m' (Hi & Hd & F & M') Hc.
      apply runs_bind. rewrite u32_small by lia.
      eapply runs_mono.
      * apply up_sample_runs with (n := n) (X := X); try assumption; try lia.
        -- exact (taps_ok_frame _ _ _ _ Ot F T0).
        -- exact (frame_has _ _ _ _ _ _ _ F D Hx).
      * intros _ m2 (V1 & V2 & F2 & M2). apply runs_ret. rewrite u32_small by lia.
        split; [|lia]. split; [lia|]. split; [|split; [|exact M2]].
        -- intros k Hk. destruct (Z.eq_dec k i) as [->|Hne].
           ++ exists (dot (fun a => X (i + a)) t (Z.to_nat N)).
              split; [exact V1|]. split; [left; reflexivity | exact V2].
           ++ apply (up_done_frame output X n i m' m2 2 ltac:(lia) F2 Hd). lia.
        -- eapply frame_trans; [exact F|].
           eapply frame_wider; [exact F2 | reflexivity | cbn [padd pb po]; lia | cbn [padd pb po]; lia].
    + intros i m' (Hi & Hd & F & M') Hc. apply runs_ret.
      assert (i = n) by lia. subst i. split; assumption.
Qed.

Lemma up_block_unaligned_runs input output n X m :
  2 <= N -> taps_ok m -> outside_taps output ->
  (f_sse o = true -> aligned16 addr (Ptr (SseTaps tag) 0) = true) ->
  0 <= n -> 2 * n + 6 < 2 ^ 32 ->
  has m input (n + N - 1) X -> mapped m output (2 * n) -> disj input (n + N - 1) output (2 * n) ->
  runs (up_process_block_unaligned addr o input n output) m (fun _ m' =>
    up_done output X n n m' /\ frame output (2 * n) m m').
Proof.
  intros HN T0 Ot Al Hn Hn32 Hx Hm D.
  assert (HH : 0 <= N / 2 < N) by (split; [apply Z.div_pos | apply Z.div_lt]; lia).
  unfold up_process_block_unaligned. apply runs_bind.
  set (Inv := fun i m' => 0 <= i <= n /\ up_done output X n i m' /\ frame output (2 * n) m m'
                          /\ mapped m' output (2 * n)).
  assert (I0 : Inv 0 m).
  { split; [lia|]. split; [intros i Hi; lia|]. split; [apply frame_refl | exact Hm]. }
  apply runs_mono with (P := fun i m' => Inv i m' /\
     (f_sse o = true -> aligned16 addr (padd input i) = true \/ i = n)).
  - destruct (f_sse o) eqn:Es; [|apply runs_ret; split; [exact I0 | discriminate]].
    apply runs_while with (Inv := Inv) (meas := fun i => n - i).
    + exact I0.
    + intros i m' _ Hc. lia.
    + lia.
    + intros i m' (Hi & Hd & F & M') Hc.
      apply runs_bind. rewrite u32_small by lia.
      eapply runs_mono.
      * apply up_sample_runs with (n := n) (X := X); try assumption; try lia.
        -- exact (taps_ok_frame _ _ _ _ Ot F T0).
        -- exact (frame_has _ _ _ _ _ _ _ F D Hx).
      * intros _ m2 (V1 & V2 & F2 & M2). apply runs_ret. rewrite u32_small by lia.
        split; [|lia]. split; [lia|]. split; [|split; [|exact M2]].
        -- intros k Hk. destruct (Z.eq_dec k i) as [->|Hne].
           ++ exists (dot (fun a => X (i + a)) t (Z.to_nat N)).
              split; [exact V1|]. split; [left; reflexivity | exact V2].
           ++ apply (up_done_frame output X n i m' m2 2 ltac:(lia) F2 Hd). lia.
        -- eapply frame_trans; [exact F|].
           eapply frame_wider; [exact F2 | reflexivity | cbn [padd pb po]; lia | cbn [padd pb po]; lia].
    + intros i m' Hi Hc. split; [exact Hi|]. intros _. destruct Hi as [Hi _].
      destruct (aligned16 addr (padd input i)); [left; reflexivity | right; lia].
  - intros i m1 [(Hi & Hd & F & M1) Ha]. rewrite u32_small by lia.
    assert (Hx1 : has m1 input (n + N - 1) X) by exact (frame_has _ _ _ _ _ _ _ F D Hx).
    destruct (Z.eq_dec i n) as [->|Hne].
    + (* nothing left: both loops of the aligned part are skipped *)
      rewrite Z.sub_diag. unfold up_process_block_aligned.
      apply runs_bind. eapply runs_mono with (P := fun i m' => i = 0 /\ m' = m1).
      * destruct (f_sse o); [|apply runs_ret; auto].
        cbn [Z.to_nat while]. replace (u32 (0 + 6) <? 0) with false by reflexivity.
        apply runs_ret. auto.
      * intros i m2 [-> ->]. apply runs_bind. cbn [Z.to_nat while].
        replace (0 <? 0) with false by reflexivity. apply runs_ret. apply runs_ret.
        split; assumption.
    + eapply runs_mono.
      * apply up_block_aligned_runs with (X := fun k => X (i + k)).
        -- exact HN.
        -- exact (taps_ok_frame _ _ _ _ Ot F T0).
        -- exact Ot.
        -- intros Es. split; [auto|]. destruct (Ha Es); [assumption | lia].
        -- lia.
        -- lia.
        -- eapply has_sub; [exact Hx1 | lia | lia].
        -- eapply mapped_sub; [exact M1 | lia | lia].
        -- destruct D as [D|D]; [left; cbn [padd pb po]; auto | right; cbn [padd pb po]; lia].
      * intros _ m2 [Hd2 F2]. split.
        -- intros k Hk. destruct (Z.lt_ge_cases k i) as [Hlt|Hge].
           ++ apply (up_done_frame output X n i m1 m2 (2 * (n - i)) ltac:(lia) F2 Hd). lia.
           ++ destruct (Hd2 (k - i) ltac:(lia)) as (v & V1 & V2 & V3). exists v.
              cbn [padd pb po] in V1, V3.
              replace (po output + 2 * i + 2 * (k - i)) with (po output + 2 * k) in V1 by lia.
              replace (po output + 2 * i + (2 * (k - i) + 1)) with (po output + (2 * k + 1)) in V3 by lia.
              replace (i + (k - i + N / 2)) with (k + N / 2) in V3 by lia.
              split; [exact V1|]. split; [|exact V3].
              apply fir_val_shift in V2; [|lia].
              now replace (i + (k - i)) with k in V2 by lia; replace (i + (n - i)) with n in V2 by lia.
        -- eapply frame_trans; [exact F|].
           eapply frame_wider; [exact F2 | reflexivity | cbn [padd pb po]; lia | cbn [padd pb po]; lia].
Qed.
End Fir.
