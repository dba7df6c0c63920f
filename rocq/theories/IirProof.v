(** * The hiir stages as chains of all-pass sections, over any arithmetic *)
From Coq Require Import ZArith List Lia Bool ZifyNat ZifyBool.
From Verif Require Import Arith Mem IirModel Wp FirDownProof Stage.
Import ListNotations.
Open Scope Z_scope.
Open Scope m_scope.

(** ** Signals inside the filter *)
Section Chain.
Context {A : arith}.
Implicit Types (X w : Z -> A).

(** first-order all-pass section y[k] = (x[k] - y[k-1]) c + x[k-1], zero before time 0 *)
Fixpoint ap (c : A) w (k : nat) : A :=
  match k with
  | O => fadd (fmul (fsub (w 0) f0) c) f0
  | S j => fadd (fmul (fsub (w (Z.of_nat (S j))) (ap c w j)) c) (w (Z.of_nat j))
  end.
Definition apz (c : A) w (k : Z) : A := if k <? 0 then f0 else ap c w (Z.to_nat k).

(** signal number i: 0 and 1 are the inputs of the two branches, i + 2 is
    section i applied to signal i *)
Fixpoint wsig (coef : Z -> A) X0 X1 (i : nat) : Z -> A :=
  match i with
  | O => X0
  | S O => X1
  | S (S j) => apz (coef (Z.of_nat j)) (wsig coef X0 X1 j)
  end.

Definition causal0 X := forall k, k < 0 -> X k = f0.

Lemma apz_causal0 c w : causal0 (apz c w).
Proof. intros k Hk. unfold apz. destruct (Z.ltb_spec k 0); [reflexivity | lia]. Qed.

Lemma wsig_causal0 coef X0 X1 i : causal0 X0 -> causal0 X1 -> causal0 (wsig coef X0 X1 i).
Proof. intros H0 H1. destruct i as [|[|i]]; cbn [wsig]; auto using apz_causal0. Qed.

Lemma apz_step c w k : causal0 w -> 0 <= k ->
  apz c w k = fadd (fmul (fsub (w k) (apz c w (k - 1))) c) (w (k - 1)).
Proof.
  intros Hw Hk. unfold apz. destruct (Z.ltb_spec k 0); [lia|].
  destruct (Z.eq_dec k 0) as [->|Hne].
  - cbn [Z.to_nat ap]. change (0 - 1 <? 0) with true. now rewrite (Hw (0 - 1)) by lia.
  - destruct (Z.ltb_spec (k - 1) 0); [lia|].
    replace (Z.to_nat k) with (S (Z.to_nat (k - 1))) by lia. cbn [ap].
    replace (Z.of_nat (S (Z.to_nat (k - 1)))) with k by lia.
    replace (Z.of_nat (Z.to_nat (k - 1))) with (k - 1) by lia. reflexivity.
Qed.

Lemma ap_ext c w w' n : (forall k, 0 <= k <= Z.of_nat n -> w k = w' k) -> ap c w n = ap c w' n.
Proof.
  induction n as [|n IH]; intros E; cbn [ap].
  - now rewrite E by lia.
  - rewrite IH by (intros; apply E; lia). now rewrite !E by lia.
Qed.

Lemma wsig_ext coef X0 X1 Y0 Y1 i k :
  (forall j, j <= k -> X0 j = Y0 j) -> (forall j, j <= k -> X1 j = Y1 j) ->
  wsig coef X0 X1 i k = wsig coef Y0 Y1 i k.
Proof.
  intros E0 E1. revert k E0 E1.
  assert (P : forall k, (forall j, j <= k -> X0 j = Y0 j) -> (forall j, j <= k -> X1 j = Y1 j) ->
    wsig coef X0 X1 i k = wsig coef Y0 Y1 i k /\ wsig coef X0 X1 (S i) k = wsig coef Y0 Y1 (S i) k).
  { induction i as [|i IH]; intros k E0 E1.
    - cbn [wsig]. split; [apply E0 | apply E1]; lia.
    - split; [apply IH; assumption|]. cbn [wsig]. unfold apz. destruct (Z.ltb_spec k 0); [reflexivity|].
      apply ap_ext. intros j Hj. apply IH; intros; [apply E0 | apply E1]; lia. }
  intros k E0 E1. apply P; assumption.
Qed.

Lemma wsig_coef_ext c1 c2 X0 X1 i : (forall j, 0 <= j < Z.of_nat i - 1 -> c1 j = c2 j) ->
  wsig c1 X0 X1 i = wsig c2 X0 X1 i.
Proof.
  assert (P : ((forall j, 0 <= j < Z.of_nat i - 1 -> c1 j = c2 j) -> wsig c1 X0 X1 i = wsig c2 X0 X1 i) /\
    ((forall j, 0 <= j < Z.of_nat i -> c1 j = c2 j) -> wsig c1 X0 X1 (S i) = wsig c2 X0 X1 (S i))).
  { induction i as [|i [IH1 IH2]]; [split; reflexivity|]. split.
    - intros E. apply IH2. intros j Hj. apply E. lia.
    - intros E. cbn [wsig]. rewrite IH1 by (intros j Hj; apply E; lia).
      now rewrite E by lia. }
  apply P.
Qed.

(** signal i with a Z index *)
Definition W (coef : Z -> A) X0 X1 (i k : Z) : A := wsig coef X0 X1 (Z.to_nat i) k.

Lemma W_step coef X0 X1 i k : causal0 X0 -> causal0 X1 -> 0 <= i -> 0 <= k ->
  W coef X0 X1 (i + 2) k =
  fadd (fmul (fsub (W coef X0 X1 i k) (W coef X0 X1 (i + 2) (k - 1))) (coef i)) (W coef X0 X1 i (k - 1)).
Proof.
  intros H0 H1 Hi Hk. unfold W. replace (Z.to_nat (i + 2)) with (S (S (Z.to_nat i))) by lia.
  cbn [wsig]. rewrite apz_step at 1 by (auto using wsig_causal0). now rewrite Z2Nat.id by lia.
Qed.

Lemma W_ext coef X0 X1 Y0 Y1 i k :
  (forall j, j <= k -> X0 j = Y0 j) -> (forall j, j <= k -> X1 j = Y1 j) ->
  W coef X0 X1 i k = W coef Y0 Y1 i k.
Proof. apply wsig_ext. Qed.

Lemma W_neg coef X0 X1 i k : causal0 X0 -> causal0 X1 -> k < 0 -> W coef X0 X1 i k = f0.
Proof. intros. apply wsig_causal0; assumption. Qed.
End Chain.

(** ** Whole blocks *)
Section Blocks.
Context {A : arith}.
Implicit Types (m : mem A).

Definition hasb m (b : blk) (n : Z) (X : Z -> A) : Prop :=
  forall i, 0 <= i < n -> m b i = Some (X i).

Definition frameb (b : blk) m m' : Prop := forall b' i, b' <> b -> m' b' i = m b' i.

Lemma hasb_upd m b n X Y i v :
  hasb m b n X -> (forall j, 0 <= j < n -> j <> i -> X j = Y j) -> v = Y i ->
  hasb (upd m b i v) b n Y.
Proof.
  intros H E Ev j Hj. destruct (Z.eq_dec j i) as [->|Hne].
  - rewrite upd_same. now f_equal.
  - rewrite upd_other by auto. rewrite H by auto. f_equal. now apply E.
Qed.

Lemma hasb_mapped m b n X i : hasb m b n X -> 0 <= i < n -> m b i <> None.
Proof. intros H Hi. rewrite H by lia. discriminate. Qed.

Lemma frameb_refl b m : frameb b m m.
Proof. intros b' i _. reflexivity. Qed.

Lemma frameb_trans b m1 m2 m3 : frameb b m1 m2 -> frameb b m2 m3 -> frameb b m1 m3.
Proof. intros H1 H2 b' i H. rewrite H2, H1; auto. Qed.

Lemma frameb_upd b i v m : frameb b m (upd m b i v).
Proof. intros b' i' H. apply upd_other. auto. Qed.

Lemma hasb_frameb m m' b b' n X : frameb b m m' -> b' <> b -> hasb m b' n X -> hasb m' b' n X.
Proof. intros F N H i Hi. rewrite F by auto. auto. Qed.

Lemma hasb_ext m b n X Y : hasb m b n X -> (forall j, 0 <= j < n -> X j = Y j) -> hasb m b n Y.
Proof. intros H E i Hi. rewrite H by auto. f_equal. auto. Qed.
End Blocks.

(** ** FPU stages *)
Section Fpu.
Context {A : arith} (o : iir) (coef : Z -> A).
Implicit Types (m : mem A).
Notation NC := (i_nc o).
Notation tag := (i_tag o).

Definition fcoef_ok m : Prop := forall i, 0 <= i < NC -> m (FCoef tag) (i + 2) = Some (coef i).

Lemma fcoef_frameb m m' : frameb (FMem tag) m m' -> fcoef_ok m -> fcoef_ok m'.
Proof. intros F H i Hi. rewrite F by discriminate. auto. Qed.

(** one pass through the remaining sections; Wo: signal values at the previous
    time, Wn: at the current time *)
Lemma stage_fpu_runs Wo Wn :
  0 <= NC ->
  (forall i, 0 <= i < NC -> Wn (i + 2) = fadd (fmul (fsub (Wn i) (Wo (i + 2))) (coef i)) (Wo i)) ->
  forall n remaining cnt, (remaining <= n)%nat -> cnt = NC + 2 - Z.of_nat remaining ->
  forall m, Z.of_nat remaining <= NC -> fcoef_ok m ->
  hasb m (FMem tag) (NC + 2) (fun i => if i <? cnt - 2 then Wn i else Wo i) ->
  (NC - Z.of_nat remaining) mod 2 = 0 ->
  runs (stage_fpu_pos o remaining (Wn (cnt - 2)) (Wn (cnt - 1))) m (fun r m' =>
    r = (Wn (2 * ((NC + 1) / 2)), Wn (2 * (NC / 2) + 1)) /\
    hasb m' (FMem tag) (NC + 2) Wn /\ frameb (FMem tag) m m').
Proof.
  intros HN HW n. induction n as [|n IH]; intros remaining cnt Hle Ec m Hr Hc Hm Hp.
  all: destruct remaining as [|[|r]]; [| try lia | try lia]; cbn [stage_fpu_pos]; unfold fmem, fcoef.
  1,2: replace (NC + 2 - Z.of_nat 0) with cnt by lia; assert (cnt = NC + 2) by lia;
       assert (HD : NC = 2 * (NC / 2)) by (pose proof (Z.div_mod NC 2); lia);
       apply runs_bind; (apply runs_store; [cbn [pb po]; eapply hasb_mapped; [exact Hm | lia]|]);
       apply runs_bind; (apply runs_store; [cbn [pb po]; apply mapped_upd_any; eapply hasb_mapped; [exact Hm | lia]|]);
       cbn [pb po]; apply runs_ret; split; [|split].
  1,4: f_equal; f_equal;
       [assert ((NC + 1) / 2 = NC / 2) by (symmetry; apply Z.div_unique with (r := 1); lia); lia | lia].
  1,3: eapply hasb_upd;
       [eapply hasb_upd with (Y := fun i => if i <? cnt - 1 then Wn i else Wo i); [exact Hm | |] | |];
       [ intros j Hj Hne; cbn beta; destruct (Z.ltb_spec j (cnt - 2)), (Z.ltb_spec j (cnt - 1)); (reflexivity || lia)
       | cbn beta; destruct (Z.ltb_spec (cnt - 2) (cnt - 1)); (reflexivity || lia)
       | intros j Hj Hne; cbn beta; destruct (Z.ltb_spec j (cnt - 1)); (reflexivity || lia)
       | reflexivity ].
  1,2: do 2 (eapply frameb_trans; [|apply frameb_upd]); apply frameb_refl.
  - (* one section left *)
    replace (NC + 2 - Z.of_nat 1) with cnt by lia. assert (Hcn : cnt = NC + 1) by lia.
    assert (HD : NC = 2 * (NC / 2) + 1).
    { pose proof (Z.div_mod NC 2 ltac:(lia)). pose proof (Z.mod_pos_bound NC 2 ltac:(lia)).
      assert ((NC - 1) mod 2 = 0) by (rewrite <- Hp; f_equal; lia).
      assert (NC mod 2 <> 0); [|lia]. intros E0.
      pose proof (Z.div_mod (NC - 1) 2 ltac:(lia)). lia. }
    assert (V : forall i, 0 <= i < NC + 2 -> m (FMem tag) i = Some (if i <? cnt - 2 then Wn i else Wo i)) by exact Hm.
    apply runs_bind. eapply runs_load; [cbn [pb po]; apply V; lia|].
    apply runs_bind. apply runs_load with (v := coef (NC - 1)).
    { cbn [pb po]. replace cnt with (NC - 1 + 2) by lia. apply Hc. lia. }
    apply runs_bind. eapply runs_load; [cbn [pb po]; apply V; lia|].
    replace (cnt <? cnt - 2) with false by lia. replace (cnt - 2 <? cnt - 2) with false by lia.
    assert (Et : Wn cnt = fadd (fmul (fsub (Wn (cnt - 2)) (Wo cnt)) (coef (NC - 1))) (Wo (cnt - 2))).
    { replace cnt with (NC - 1 + 2) at 1 by lia. rewrite HW by lia.
      replace (NC - 1 + 2) with cnt by lia. replace (NC - 1) with (cnt - 2) at 1 3 by lia. reflexivity. }
    rewrite <- Et.
    apply runs_bind. apply runs_store; [cbn [pb po]; eapply hasb_mapped; [exact Hm | lia]|].
    apply runs_bind. apply runs_store; [cbn [pb po]; apply mapped_upd_any; eapply hasb_mapped; [exact Hm | lia]|].
    apply runs_bind. apply runs_store; [cbn [pb po]; do 2 apply mapped_upd_any; eapply hasb_mapped; [exact Hm | lia]|].
    cbn [pb po]. apply runs_ret. split; [|split].
    + f_equal; f_equal; [|lia]. assert ((NC + 1) / 2 = NC / 2 + 1) by (symmetry; apply Z.div_unique with (r := 0); lia). lia.
    + eapply hasb_upd with (X := fun i => if i <? cnt then Wn i else Wo i);
        [eapply hasb_upd with (X := fun i => if i <? cnt - 1 then Wn i else Wo i);
          [eapply hasb_upd; [exact Hm | |] | |] | |].
      * intros j Hj Hne; cbn beta; destruct (Z.ltb_spec j (cnt - 2)), (Z.ltb_spec j (cnt - 1)); (reflexivity || lia).
      * cbn beta; destruct (Z.ltb_spec (cnt - 2) (cnt - 1)); (reflexivity || lia).
      * intros j Hj Hne; cbn beta; destruct (Z.ltb_spec j (cnt - 1)), (Z.ltb_spec j cnt); (reflexivity || lia).
      * cbn beta; destruct (Z.ltb_spec (cnt - 1) cnt); (reflexivity || lia).
      * intros j Hj Hne; cbn beta; destruct (Z.ltb_spec j cnt); (reflexivity || lia).
      * reflexivity.
    + do 3 (eapply frameb_trans; [|apply frameb_upd]). apply frameb_refl.
  - (* two or more sections *)
    replace (NC + 2 - Z.of_nat (S (S r))) with cnt by lia. assert (Hcn : 2 <= cnt <= NC) by lia.
    assert (V : forall i, 0 <= i < NC + 2 -> m (FMem tag) i = Some (if i <? cnt - 2 then Wn i else Wo i)) by exact Hm.
    apply runs_bind. eapply runs_load; [cbn [pb po]; apply V; lia|].
    apply runs_bind. apply runs_load with (v := coef (cnt - 2)).
    { cbn [pb po]. rewrite <- (Hc (cnt - 2)) by lia. f_equal. lia. }
    apply runs_bind. eapply runs_load; [cbn [pb po]; apply V; lia|].
    apply runs_bind. eapply runs_load; [cbn [pb po]; apply V; lia|].
    apply runs_bind. apply runs_load with (v := coef (cnt - 1)).
    { cbn [pb po]. rewrite <- (Hc (cnt - 1)) by lia. f_equal. lia. }
    apply runs_bind. eapply runs_load; [cbn [pb po]; apply V; lia|].
    replace (cnt <? cnt - 2) with false by lia. replace (cnt - 2 <? cnt - 2) with false by lia.
    replace (cnt + 1 <? cnt - 2) with false by lia. replace (cnt - 1 <? cnt - 2) with false by lia.
    assert (E0 : fadd (fmul (fsub (Wn (cnt - 2)) (Wo cnt)) (coef (cnt - 2))) (Wo (cnt - 2)) = Wn cnt).
    { pose proof (HW (cnt - 2) ltac:(lia)) as Q. replace (cnt - 2 + 2) with cnt in Q by lia. auto. }
    assert (E1 : fadd (fmul (fsub (Wn (cnt - 1)) (Wo (cnt + 1))) (coef (cnt - 1))) (Wo (cnt - 1)) = Wn (cnt + 1)).
    { pose proof (HW (cnt - 1) ltac:(lia)) as Q. replace (cnt - 1 + 2) with (cnt + 1) in Q by lia. auto. }
    rewrite E0, E1.
    apply runs_bind. apply runs_store; [cbn [pb po]; eapply hasb_mapped; [exact Hm | lia]|].
    apply runs_bind. apply runs_store; [cbn [pb po]; apply mapped_upd_any; eapply hasb_mapped; [exact Hm | lia]|].
    cbn [pb po]. set (m2 := upd _ _ _ _).
    assert (F2 : frameb (FMem tag) m m2).
    { unfold m2. do 2 (eapply frameb_trans; [|apply frameb_upd]). apply frameb_refl. }
    assert (H2 : hasb m2 (FMem tag) (NC + 2) (fun i => if i <? cnt + 2 - 2 then Wn i else Wo i)).
    { unfold m2. eapply hasb_upd with (X := fun i => if i <? cnt - 1 then Wn i else Wo i);
          [eapply hasb_upd; [exact Hm | |] | |].
      - intros j Hj Hne; cbn beta; destruct (Z.ltb_spec j (cnt - 2)), (Z.ltb_spec j (cnt - 1)); (reflexivity || lia).
      - cbn beta; destruct (Z.ltb_spec (cnt - 2) (cnt - 1)); (reflexivity || lia).
      - intros j Hj Hne; cbn beta; destruct (Z.ltb_spec j (cnt - 1)), (Z.ltb_spec j (cnt + 2 - 2)); (reflexivity || lia).
      - cbn beta; destruct (Z.ltb_spec (cnt - 1) (cnt + 2 - 2)); (reflexivity || lia). }
    clearbody m2.
    assert (Hp' : (NC - Z.of_nat r) mod 2 = 0).
    { replace (NC - Z.of_nat r) with (NC - Z.of_nat (S (S r)) + 1 * 2) by lia. rewrite Z.mod_add by lia. exact Hp. }
    pose proof (IH r (cnt + 2) ltac:(lia) ltac:(lia) m2 ltac:(lia) (fcoef_frameb _ _ F2 Hc) H2 Hp') as R.
    replace (cnt + 2 - 2) with cnt in R by lia. replace (cnt + 2 - 1) with (cnt + 1) in R by lia.
    eapply runs_mono; [exact R|]. intros x m' (Hx & Hm' & F'). split; [exact Hx|]. split; [exact Hm'|].
    eapply frameb_trans; eassumption.
Qed.
End Fpu.
