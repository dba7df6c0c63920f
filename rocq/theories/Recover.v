(** * Which inputs an output of a FIR resampler depends on, with vector code: in single precision, recovery from NaN and infinities *)
From Coq Require Import ZArith Reals List Lia Lra Bool.
From Flocq Require Import Core BinarySingleNaN.
From Verif Require Import Arith ArithR ArithF Mem FirModel IirModel Tables ResamplerModel Wp Stage Cascade
  ResamplerProof ResamplerOk Spec SpecOk SpecR Client Feed StreamFacts DelayFacts ConfigFacts TableFacts FirReal FloatSum FloatFir FloatErr.
Import ListNotations.
Open Scope Z_scope.

Section Local.
Context {A : arith}.

(** the same samples from P up to Q *)
Definition agree (x x' : list A) (P Q : Z) : Prop := size x = size x' /\ forall k, P <= k < Q -> smp x k = smp x' k.

Lemma vlane_ext n (w w' t : Z -> A) s g : (forall i, s <= i <= 4 * Z.of_nat g + s -> w i = w' i) -> vlane n w t s g = vlane n w' t s g.
Proof.
  induction g as [|g IH]; intros H; cbn [vlane]; unfold vterm.
  - rewrite H by lia. reflexivity.
  - rewrite IH by (intros i Hi; apply H; lia). unfold vterm. now rewrite H by lia.
Qed.
Lemma vmac_ext n (w w' t : Z -> A) j : 2 <= n -> 0 <= j <= 3 -> (forall i, -3 <= i <= n + 5 -> w i = w' i) -> vmac n w t j = vmac n w' t j.
Proof.
  intros Hn Hj H. unfold vmac. pose proof (Z.div_mod (n + 6) 4 ltac:(lia)). pose proof (Z.mod_pos_bound (n + 6) 4 ltac:(lia)).
  assert (L : forall l, 0 <= l <= 3 -> vlane n w t (l - j) (Z.to_nat ((n + 6) / 4 - 1)) = vlane n w' t (l - j) (Z.to_nat ((n + 6) / 4 - 1))).
  { intros l Hl. apply vlane_ext. intros i Hi. apply H. lia. }
  now rewrite !L by lia.
Qed.
Lemma sum_of_ext vec n (w w' t : Z -> A) v : 2 <= n -> (forall i, -3 <= i <= n + 5 -> w i = w' i) -> sum_of vec n w t v -> sum_of vec n w' t v.
Proof.
  intros Hn H [->|(V & j & Hj & ->)].
  - left. apply mac_ext; [intros i Hi; apply H; lia | reflexivity].
  - right. split; [exact V|]. exists j. split; [exact Hj|]. now apply vmac_ext.
Qed.

Lemma up_any_local vec t (x x' y : list A) P Q : 2 <= size t -> agree x x' P Q -> fir_up_any vec t x y ->
  exists y', fir_up_any vec t x' y' /\ agree y y' (2 * (P + size t + 2)) (2 * (Q - 6)).
Proof.
  intros Ht [L H] [Sy Hy]. set (y' := tab (2 * size x') (fun j => if (2 * (P + size t + 2) <=? j) && (j <? 2 * (Q - 6)) then smp y j else fir_up_at t x' j)).
  pose proof (Nat2Z.is_nonneg (length x')) as P0. fold (size x') in P0.
  assert (S' : size y' = 2 * size x') by (unfold y'; now rewrite size_tab by lia).
  pose proof (Z.div_mod (size t) 2 ltac:(lia)) as D1. pose proof (Z.mod_pos_bound (size t) 2 ltac:(lia)) as D2.
  exists y'. split.
  - split; [exact S'|]. intros m Hm. specialize (Hy m ltac:(lia)). destruct Hy as [H1 H2].
    unfold y'. rewrite !smp_tab by lia. split.
    + destruct ((2 * (P + size t + 2) <=? 2 * m) && (2 * m <? 2 * (Q - 6))) eqn:B.
      * eapply sum_of_ext; [exact Ht | | exact H1]. intros i Hi. cbv beta. apply H. lia.
      * left. unfold fir_up_at. rewrite Z.even_mul. cbn [orb Z.even]. replace (2 * m / 2) with m by (rewrite Z.mul_comm, Z.div_mul; lia).
        unfold size. now rewrite Nat2Z.id.
    + destruct ((2 * (P + size t + 2) <=? 2 * m + 1) && (2 * m + 1 <? 2 * (Q - 6))) eqn:B.
      * rewrite H2. apply H. lia.
      * unfold fir_up_at. replace (Z.even (2 * m + 1)) with false by (rewrite Z.even_add, Z.even_mul; reflexivity).
        replace ((2 * m + 1) / 2) with m by (rewrite Z.mul_comm, Z.div_add_l by lia; cbn; lia). reflexivity.
  - split; [lia|]. intros k Hk. destruct (Z_lt_le_dec k 0); [now rewrite !smp_neg by lia|].
    destruct (Z_lt_le_dec k (2 * size x')); [|now rewrite !smp_over by lia]. unfold y'. rewrite smp_tab by lia.
    replace ((2 * (P + size t + 2) <=? k) && (k <? 2 * (Q - 6))) with true by lia. reflexivity.
Qed.

Lemma down_any_local vec t (x x' y : list A) P Q : 2 <= size t -> agree x x' P Q -> fir_down_any vec t x y ->
  exists y', fir_down_any vec t x' y' /\ agree y y' ((P + 1) / 2 + size t + 2) ((Q + 1) / 2 - 6).
Proof.
  intros Ht [L H] [Sy Hy]. set (y' := tab (size y) (fun j => if ((P + 1) / 2 + size t + 2 <=? j) && (j <? (Q + 1) / 2 - 6) then smp y j else fir_down_at t x' j)).
  pose proof (Nat2Z.is_nonneg (length y)) as P0. fold (size y) in P0.
  assert (S' : size y' = size y) by (unfold y'; now rewrite size_tab by lia).
  pose proof (Z.div_mod (size t) 2 ltac:(lia)) as D1. pose proof (Z.mod_pos_bound (size t) 2 ltac:(lia)) as D2.
  pose proof (Z.div_mod (P + 1) 2 ltac:(lia)) as D3. pose proof (Z.mod_pos_bound (P + 1) 2 ltac:(lia)) as D4.
  pose proof (Z.div_mod (Q + 1) 2 ltac:(lia)) as D5. pose proof (Z.mod_pos_bound (Q + 1) 2 ltac:(lia)) as D6.
  exists y'. split.
  - split; [lia|]. intros n Hn. rewrite S' in Hn. destruct (Hy n Hn) as (v & H1 & H2).
    unfold y'. rewrite smp_tab by lia. destruct (((P + 1) / 2 + size t + 2 <=? n) && (n <? (Q + 1) / 2 - 6)) eqn:B.
    + exists v. split.
      * eapply sum_of_ext; [exact Ht | | exact H1]. intros i Hi. cbv beta. apply H. lia.
      * rewrite H2. do 2 f_equal. apply H. lia.
    + eexists. split; [|reflexivity]. left. unfold size. now rewrite Nat2Z.id.
  - split; [lia|]. intros k Hk. destruct (Z_lt_le_dec k 0); [now rewrite !smp_neg by lia|].
    destruct (Z_lt_le_dec k (size y)); [|now rewrite !smp_over by lia]. unfold y'. rewrite smp_tab by lia.
    replace (((P + 1) / 2 + size t + 2 <=? k) && (k <? (Q + 1) / 2 - 6)) with true by lia. reflexivity.
Qed.
Lemma agree_less (x x' : list A) P Q P' Q' : agree x x' P Q -> P <= P' -> Q' <= Q -> agree x x' P' Q'.
Proof. intros [L H] HP HQ. split; [exact L|]. intros k Hk. apply H. lia. Qed.
End Local.

(** how many samples (at the lower rate) a sample is felt for, and how many before *)
Definition after (ratio p : Z) : Z :=
  if ratio =? 1 then 0 else if ratio =? 2 then pick p 4 18 26 34 44 54 else if ratio =? 4 then pick p 6 22 31 40 52 63 else pick p 7 24 33 43 55 67.
Definition before (ratio : Z) : Z := if ratio =? 1 then 0 else if ratio =? 2 then 6 else if ratio =? 4 then 9 else 11.

Theorem resample_local {A : arith} md p vec ratio (x x' y : list A) P Q : valid FILTER_FIR ratio p ->
  agree x x' (match md with UP => P | DOWN => ratio * P end) (match md with UP => Q | DOWN => ratio * Q end) ->
  resample_any FILTER_FIR md p vec ratio x y ->
  exists y', resample_any FILTER_FIR md p vec ratio x' y' /\
    agree y y' (match md with UP => ratio * (P + after ratio p) | DOWN => P + after ratio p end)
               (match md with UP => ratio * (Q - before ratio) | DOWN => Q - before ratio end).
Proof.
  intros [Hr HT] HA H.
  destruct Hr as [->|Hr].
  { unfold resample_any in *. cbn [Z.eqb Pos.eqb] in *. exists x'. unfold after, before. cbn [Z.eqb Pos.eqb]. destruct md; subst y; (split; [reflexivity|]); (eapply agree_less; [exact HA | lia | lia]). }
  assert (HP : fir_prec p) by (apply HT; lia).
  assert (SZ : forall md s, stage_no s -> size (coeffs (A := A) FILTER_FIR md p s) = if s =? 2 then pick p 2 16 24 32 42 52 else if s =? 4 then pick p 2 6 8 10 14 16 else pick p 2 4 6 8 10 12).
  { intros md' s Hs. rewrite <- (ft_len md' s p Hs HP), !coeffs_size. reflexivity. }
  assert (S2 : stage_no 2) by (unfold stage_no; auto). assert (S4 : stage_no 4) by (unfold stage_no; auto). assert (S8 : stage_no 8) by (unfold stage_no; auto).
  assert (B2 : forall md s, stage_no s -> 2 <= size (coeffs (A := A) FILTER_FIR md p s)) by (intros md' s Hs; apply (fir_size_even p md' s HP Hs)).
  destruct md.
  - pose proof (fun s (x x' y : list A) P Q Hs => up_any_local vec (coeffs FILTER_FIR UP p s) x x' y P Q (B2 UP s Hs)) as U.
    destruct Hr as [->|[->| ->]]; unfold resample_any, stage_any in *; cbn [Z.eqb Pos.eqb] in *.
    + destruct (U 2 _ _ _ _ _ S2 HA H) as (y' & Y & E). exists y'. split; [exact Y|]. rewrite (SZ UP 2 S2) in E. cbn [Z.eqb Pos.eqb] in E.
      eapply agree_less; [exact E| |]; unfold after, before; cbn [Z.eqb Pos.eqb]; [|lia]. destruct HP as [->|[->|[->|[->|[->| ->]]]]]; cbn -[Z.mul Z.div Z.add Z.sub]; lia.
    + destruct H as (a & H1 & H2). destruct (U 2 _ _ _ _ _ S2 HA H1) as (a' & Y1 & E1). destruct (U 4 _ _ _ _ _ S4 E1 H2) as (y' & Y & E). exists y'. split; [exists a'; auto|].
      rewrite (SZ UP 2 S2), (SZ UP 4 S4) in E. cbn [Z.eqb Pos.eqb] in E.
      eapply agree_less; [exact E| |]; unfold after, before; cbn [Z.eqb Pos.eqb]; [|lia]. destruct HP as [->|[->|[->|[->|[->| ->]]]]]; cbn -[Z.mul Z.div Z.add Z.sub]; lia.
    + destruct H as (a & b & H1 & H2 & H3). destruct (U 2 _ _ _ _ _ S2 HA H1) as (a' & Y1 & E1). destruct (U 4 _ _ _ _ _ S4 E1 H2) as (b' & Y2 & E2).
      destruct (U 8 _ _ _ _ _ S8 E2 H3) as (y' & Y & E). exists y'. split; [exists a', b'; auto|].
      rewrite (SZ UP 2 S2), (SZ UP 4 S4), (SZ UP 8 S8) in E. cbn [Z.eqb Pos.eqb] in E.
      eapply agree_less; [exact E| |]; unfold after, before; cbn [Z.eqb Pos.eqb]; [|lia]. destruct HP as [->|[->|[->|[->|[->| ->]]]]]; cbn -[Z.mul Z.div Z.add Z.sub]; lia.
  - pose proof (fun s (x x' y : list A) P Q Hs => down_any_local vec (coeffs FILTER_FIR DOWN p s) x x' y P Q (B2 DOWN s Hs)) as U.
    destruct Hr as [->|[->| ->]]; unfold resample_any, stage_any in *; cbn [Z.eqb Pos.eqb] in *.
    + destruct (U 2 _ _ _ _ _ S2 HA H) as (y' & Y & E). exists y'. split; [exact Y|]. rewrite (SZ DOWN 2 S2) in E. cbn [Z.eqb Pos.eqb] in E.
      eapply agree_less; [exact E| |]; unfold after, before; cbn [Z.eqb Pos.eqb]; [|Z.div_mod_to_equations; lia]. destruct HP as [->|[->|[->|[->|[->| ->]]]]]; cbn -[Z.mul Z.div Z.add Z.sub]; Z.div_mod_to_equations; lia.
    + destruct H as (a & H1 & H2). destruct (U 4 _ _ _ _ _ S4 HA H1) as (a' & Y1 & E1). destruct (U 2 _ _ _ _ _ S2 E1 H2) as (y' & Y & E). exists y'. split; [exists a'; auto|].
      rewrite (SZ DOWN 2 S2), (SZ DOWN 4 S4) in E. cbn [Z.eqb Pos.eqb] in E.
      eapply agree_less; [exact E| |]; unfold after, before; cbn [Z.eqb Pos.eqb]; [|Z.div_mod_to_equations; lia]. destruct HP as [->|[->|[->|[->|[->| ->]]]]]; cbn -[Z.mul Z.div Z.add Z.sub]; Z.div_mod_to_equations; lia.
    + destruct H as (a & b & H1 & H2 & H3). destruct (U 8 _ _ _ _ _ S8 HA H1) as (a' & Y1 & E1). destruct (U 4 _ _ _ _ _ S4 E1 H2) as (b' & Y2 & E2).
      destruct (U 2 _ _ _ _ _ S2 E2 H3) as (y' & Y & E). exists y'. split; [exists a', b'; auto|].
      rewrite (SZ DOWN 2 S2), (SZ DOWN 4 S4), (SZ DOWN 8 S8) in E. cbn [Z.eqb Pos.eqb] in E.
      eapply agree_less; [exact E| |]; unfold after, before; cbn [Z.eqb Pos.eqb]; [|Z.div_mod_to_equations; lia]. destruct HP as [->|[->|[->|[->|[->| ->]]]]]; cbn -[Z.mul Z.div Z.add Z.sub]; Z.div_mod_to_equations; lia.
Qed.

Lemma stage_shape {A : arith} {B : arith} md p vec s (x y : list A) (X : list B) : stage_any FILTER_FIR md p vec s x y -> size X = size x ->
  stage_any FILTER_FIR md p false s X (stage FILTER_FIR md p false s X) /\ size (stage FILTER_FIR md p false s X) = size y.
Proof.
  intros H L. pose proof (stage_any_size _ _ _ _ _ _ _ H) as S1.
  assert (Q : stage_any FILTER_FIR md p false s X (stage FILTER_FIR md p false s X)).
  { unfold stage_any, stage in *. destruct md; [apply fir_up2_any|]. apply fir_down2_any. destruct H as [E _]. rewrite L, E, Z.mul_comm. now apply Z.mod_mul. }
  split; [exact Q|]. apply stage_any_size in Q. destruct md; congruence.
Qed.
Lemma resample_shape {A : arith} {B : arith} md p vec ratio (x y : list A) (X : list B) : resample_any FILTER_FIR md p vec ratio x y -> size X = size x ->
  resample_any FILTER_FIR md p false ratio X (resample FILTER_FIR md p false ratio X).
Proof.
  intros H L. pose proof (fun s x y X => stage_shape (A := A) (B := B) md p vec s x y X) as S. unfold resample_any, resample in *.
  destruct md; repeat match goal with |- context [if ?c then _ else _] => destruct c end; try reflexivity.
  1, 4: exact (proj1 (S _ _ _ _ H L)).
  1, 3: destruct H as (a & H1 & H2); destruct (S _ _ _ _ H1 L) as [Q1 L1]; destruct (S _ _ _ _ H2 L1) as [Q2 L2]; eauto.
  1, 2: destruct H as (a & b & H1 & H2 & H3); destruct (S _ _ _ _ H1 L) as [Q1 L1]; destruct (S _ _ _ _ H2 L1) as [Q2 L2]; destruct (S _ _ _ _ H3 L2) as [Q3 L3]; eauto 6.
Qed.

(** samples outside of P..Q may be anything *)
Theorem resample_recovers md p vec ratio (x y : list F32) M P Q : valid FILTER_FIR ratio p -> (0 <= M <= bpow radix2 109)%R ->
  (forall i, (match md with UP => P | DOWN => ratio * P end) <= i < (match md with UP => Q | DOWN => ratio * Q end) -> 0 <= i < size x -> fin (smp x i) /\ (Rabs (val (smp x i)) <= M)%R) ->
  resample_any (A := F32) FILTER_FIR md p vec ratio x y ->
  forall j, (match md with UP => ratio * (P + after ratio p) | DOWN => P + after ratio p end) <= j < (match md with UP => ratio * (Q - before ratio) | DOWN => Q - before ratio end) ->
  fin (smp y j) /\
    (Rabs (val (smp y j) - smp (resample (A := RA) FILTER_FIR md p false ratio (vals x)) j) <= IZR (fir_units md ratio p) * bpow radix2 (-24) * M + bpow radix2 (-140))%R.
Proof.
  intros V [M0 HM] Hx H j Hj. set (P' := match md with UP => P | DOWN => ratio * P end) in *. set (Q' := match md with UP => Q | DOWN => ratio * Q end) in *.
  pose proof (Nat2Z.is_nonneg (length x)) as L0. fold (size x) in L0.
  set (x' := tab (A := F32) (size x) (fun i => if (P' <=? i) && (i <? Q') then smp x i else f0)).
  assert (S' : size x' = size x) by (unfold x'; now rewrite size_tab by lia).
  assert (HA : agree x x' P' Q').
  { split; [lia|]. intros k Hk. destruct (Z_lt_le_dec k 0); [now rewrite !smp_neg by lia|]. destruct (Z_lt_le_dec k (size x)); [|now rewrite !smp_over by lia].
    unfold x'. rewrite smp_tab by lia. replace ((P' <=? k) && (k <? Q')) with true by lia. reflexivity. }
  assert (Hx' : forall i, fin (smp x' i) /\ (Rabs (val (smp x' i)) <= M)%R).
  { assert (Z0 : fin (f0 : F32) /\ (Rabs (val (f0 : F32)) <= M)%R) by (split; [reflexivity | cbn; rewrite Rabs_R0; exact M0]).
    intros i. destruct (Z_lt_le_dec i 0); [now rewrite smp_neg by lia|]. destruct (Z_lt_le_dec i (size x)); [|now rewrite smp_over by lia].
    unfold x'. rewrite smp_tab by lia. destruct ((P' <=? i) && (i <? Q')) eqn:B; [|exact Z0]. apply Hx; lia. }
  destruct (resample_local md p vec ratio x x' y P Q V HA H) as (y' & Hy' & [_ EY]).
  assert (HV : agree (A := RA) (vals x) (vals x') P' Q').
  { split; [now rewrite !size_vals; lia|]. intros k Hk. rewrite !smp_vals. now rewrite (proj2 HA k Hk). }
  assert (HR : resample_any (A := RA) FILTER_FIR md p false ratio (vals x) (resample (A := RA) FILTER_FIR md p false ratio (vals x))) by (apply (resample_shape md p vec ratio x y); [exact H | apply size_vals]).
  destruct (resample_local (A := RA) md p false ratio _ _ _ P Q V HV HR) as (z & Hz & [_ EZ]).
  apply resample_any_fun in Hz; [|auto]. specialize (EY j Hj). specialize (EZ j Hj). rewrite EY, EZ, Hz.
  exact (resample_tracks md p vec ratio x' y' M V HM Hx' Hy' j).
Qed.
