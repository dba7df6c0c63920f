(** * The FIR kernels and the tap reordering *)
From Coq Require Import ZArith List Lia Bool ZifyNat ZifyBool.
From Verif Require Import Arith Mem FirModel Wp.
Import ListNotations.
Open Scope Z_scope.
Open Scope m_scope.

Section Kernel.
Context {A : arith} (addr : blk -> Z).
Implicit Types (m : mem A) (X t st : Z -> A).

(** scalar accumulation, left to right, starting from 0 *)
Fixpoint dot X t (n : nat) : A :=
  match n with
  | O => f0
  | S k => fadd (dot X t k) (fmul (X (Z.of_nat k)) (t (Z.of_nat k)))
  end.

Lemma dot_ext X Y t u n :
  (forall k, 0 <= k < Z.of_nat n -> X k = Y k) -> (forall k, 0 <= k < Z.of_nat n -> t k = u k) ->
  dot X t n = dot Y u n.
Proof.
  induction n as [|n IH]; intros H1 H2; cbn [dot]; [reflexivity|].
  rewrite IH, H1, H2 by (intros; auto; try apply H1; try apply H2; lia). reflexivity.
Qed.

Lemma one_sample_runs input taps order X t m :
  0 <= order -> has m input order X -> has m taps order t ->
  fir_process_one_sample input taps order m = Ok (dot X t (Z.to_nat order), m).
Proof.
  intros Ho Hx Ht.
  enough (runs (fir_process_one_sample input taps order) m
            (fun v m' => v = dot X t (Z.to_nat order) /\ m' = m)) as H.
  { apply runs_inv in H. destruct H as (v & m' & -> & -> & ->). reflexivity. }
  unfold fir_process_one_sample.
  apply runs_for with (Inv := fun i v m' => v = dot X t (Z.to_nat i) /\ m' = m).
  - split; reflexivity.
  - intros k v m' Hk [-> ->].
    apply runs_bind. eapply runs_load; [cbn; apply Hx; lia|].
    apply runs_bind. eapply runs_load; [cbn; apply Ht; lia|].
    apply runs_ret. split; [|reflexivity].
    replace (Z.to_nat (k + 1)) with (S (Z.to_nat k)) by lia. cbn [dot].
    now rewrite !Z2Nat.id by lia.
  - intros v m' [-> ->]. split; [|reflexivity]. f_equal. lia.
Qed.

Lemma aligned16_step p i : aligned16 addr (padd p (4 * i)) = aligned16 addr p.
Proof.
  unfold aligned16, paddr. cbn [padd pb po].
  replace (addr (pb p) + 4 * (po p + 4 * i)) with (addr (pb p) + 4 * po p + i * 16) by ring.
  now rewrite Z.mod_add by lia.
Qed.

Lemma loadu4_runs p X m : has m p 4 X -> loadu4 p m = Ok (V4 (X 0) (X 1) (X 2) (X 3), m).
Proof.
  intros H. unfold loadu4, bind, load, ret. cbn [padd pb po].
  pose proof (H 0 ltac:(lia)) as E0. rewrite Z.add_0_r in E0.
  rewrite E0, (H 1), (H 2), (H 3) by lia. reflexivity.
Qed.

Lemma load4_runs p X m : aligned16 addr p = true -> has m p 4 X ->
  load4 addr p m = Ok (V4 (X 0) (X 1) (X 2) (X 3), m).
Proof. intros Ha H. unfold load4. rewrite Ha. now apply loadu4_runs. Qed.

(** accumulator of lane l for output j after the groups 0..g *)
Fixpoint lane_acc X st (j l : Z) (g : nat) : A :=
  match g with
  | O => fmul (X l) (st (4 * j + l))
  | S k => fadd (lane_acc X st j l k)
             (fmul (X (4 * Z.of_nat g + l)) (st (16 * Z.of_nat g + 4 * j + l)))
  end.

Definition lanes X st j g : v4 A :=
  V4 (lane_acc X st j 0 g) (lane_acc X st j 1 g) (lane_acc X st j 2 g) (lane_acc X st j 3 g).

(** number of groups of four inputs used by the vector kernel *)
Definition groups (order : Z) : Z := (order + 6) / 4.

(** value computed by the vector kernel for output j *)
Definition sse_out X st (order j : Z) : A := hsum (lanes X st j (Z.to_nat (groups order - 1))).

Lemma groups_pos order : 0 <= order -> 1 <= groups order.
Proof. intros. unfold groups. apply Z.div_le_lower_bound; lia. Qed.

Lemma groups_bound order : 0 <= order -> order + 3 <= 4 * groups order <= order + 6.
Proof.
  intros. unfold groups. pose proof (Z.div_mod (order + 6) 4 ltac:(lia)).
  pose proof (Z.mod_pos_bound (order + 6) 4 ltac:(lia)). lia.
Qed.

Lemma lane_acc_ext X Y st su j l g :
  0 <= j <= 3 -> 0 <= l <= 3 ->
  (forall k, 0 <= k < 4 * (Z.of_nat g + 1) -> X k = Y k) ->
  (forall k, 0 <= k < 16 * (Z.of_nat g + 1) -> st k = su k) ->
  lane_acc X st j l g = lane_acc Y su j l g.
Proof.
  intros Hj Hl. induction g as [|g IH]; intros HX Hs; cbn [lane_acc].
  - rewrite HX, Hs by lia. reflexivity.
  - rewrite IH.
    + rewrite HX, Hs by lia. reflexivity.
    + intros; apply HX; lia.
    + intros; apply Hs; lia.
Qed.

Lemma sse_out_ext X Y st su order j :
  0 <= order -> 0 <= j <= 3 ->
  (forall k, 0 <= k < 4 * groups order -> X k = Y k) ->
  (forall k, 0 <= k < 16 * groups order -> st k = su k) ->
  sse_out X st order j = sse_out Y su order j.
Proof.
  intros Ho Hj HX Hs. pose proof (groups_pos order Ho). unfold sse_out, lanes.
  f_equal. f_equal; apply lane_acc_ext; try lia; intros; try apply HX; try apply Hs; lia.
Qed.

Lemma has_group m p n X i : has m p (4 * n) X -> 0 <= i < n ->
  has m (padd p (4 * i)) 4 (fun k => X (4 * i + k)).
Proof. intros H Hi. eapply has_sub; [exact H | lia | lia]. Qed.

Lemma sse_kernel_runs input sst order X st out0 out1 out2 out3 m :
  0 <= order ->
  aligned16 addr input = true -> aligned16 addr sst = true ->
  has m input (4 * groups order) X -> has m sst (16 * groups order) st ->
  mapped m out0 1 -> mapped m out1 1 -> mapped m out2 1 -> mapped m out3 1 ->
  let v j := sse_out X st order j in
  fir_process_4samples_sse addr input sst order out0 out1 out2 out3 m
  = Ok (tt, upd (upd (upd (upd m (pb out0) (po out0) (v 0)) (pb out1) (po out1) (v 1))
               (pb out2) (po out2) (v 2)) (pb out3) (po out3) (v 3)).
Proof.
  intros Ho Ai As Hx Hs M0 M1 M2 M3 v.
  pose proof (groups_pos order Ho) as Hg.
  assert (Li : forall i m', m' = m -> 0 <= i < groups order ->
    load4 addr (padd input (4 * i)) m' =
      Ok (V4 (X (4 * i + 0)) (X (4 * i + 1)) (X (4 * i + 2)) (X (4 * i + 3)), m)).
  { intros i m' -> Hi. rewrite (load4_runs _ (fun k => X (4 * i + k)) m).
    - reflexivity.
    - now rewrite aligned16_step.
    - now apply (has_group m input (groups order)). }
  assert (Ls : forall i m', m' = m -> 0 <= i < 4 * groups order ->
    load4 addr (padd sst (4 * i)) m' =
      Ok (V4 (st (4 * i + 0)) (st (4 * i + 1)) (st (4 * i + 2)) (st (4 * i + 3)), m)).
  { intros i m' -> Hi. rewrite (load4_runs _ (fun k => st (4 * i + k)) m).
    - reflexivity.
    - now rewrite aligned16_step.
    - apply (has_group m sst (4 * groups order)); [|lia].
      now replace (4 * (4 * groups order)) with (16 * groups order) by ring. }
  enough (runs (fir_process_4samples_sse addr input sst order out0 out1 out2 out3) m
    (fun _ m' => m' = upd (upd (upd (upd m (pb out0) (po out0) (v 0)) (pb out1) (po out1) (v 1))
               (pb out2) (po out2) (v 2)) (pb out3) (po out3) (v 3))) as H.
  { apply runs_inv in H. destruct H as ([] & m' & -> & ->). reflexivity. }
  unfold fir_process_4samples_sse.
  (* the four initial products *)
  do 4 (apply runs_bind; apply runs_bind;
        eapply runs_eq; [apply Li; [reflexivity | lia]|];
        apply runs_bind; eapply runs_eq; [apply Ls; [reflexivity | lia]|];
        apply runs_ret).
  apply runs_bind.
  apply runs_for with (Inv := fun i acc m' => m' = m /\
    acc = (lanes X st 0 (Z.to_nat (i - 1)), lanes X st 1 (Z.to_nat (i - 1)),
           lanes X st 2 (Z.to_nat (i - 1)), lanes X st 3 (Z.to_nat (i - 1)))).
  - split; [reflexivity|]. reflexivity.
  - intros i acc m' Hi [-> ->].
    do 4 (apply runs_bind; apply runs_bind;
        eapply runs_eq; [apply Li; [reflexivity | unfold groups in *; lia]|];
        apply runs_bind; eapply runs_eq; [apply Ls; [reflexivity | unfold groups in *; lia]|];
        apply runs_ret).
    apply runs_ret. split; [reflexivity|].
    replace (Z.to_nat (i + 1 - 1)) with (S (Z.to_nat (i - 1))) by lia.
    assert (E : Z.of_nat (S (Z.to_nat (i - 1))) = i) by lia.
    unfold lanes, vmap2. cbn [l0 l1 l2 l3 lane_acc]. rewrite !E.
    assert (E2 : forall j c, 4 * (i * 4 + j) + c = 16 * i + 4 * j + c) by (intros; ring).
    rewrite !E2. reflexivity.
  - intros acc m' [-> ->].
    replace (Z.to_nat (1 + Z.of_nat (Z.to_nat ((order + 6) / 4 - 1)) - 1))
      with (Z.to_nat (groups order - 1)) by (unfold groups in *; lia).
    assert (S1 : forall m p, mapped m p 1 -> m (pb p) (po p) <> None).
    { intros m' p H. rewrite <- (Z.add_0_r (po p)). apply H. lia. }
    apply runs_bind, runs_store; [apply S1; auto|].
    apply runs_bind, runs_store; [apply mapped_upd_any, S1; auto|].
    apply runs_bind, runs_store; [do 2 apply mapped_upd_any; apply S1; auto|].
    apply runs_store; [do 3 apply mapped_upd_any; apply S1; auto|].
    reflexivity.
Qed.

(** ** Reordered taps *)

(** contents of the reordered array: 16 values per group of four inputs, four
    values per output j, zero where the shifted filter has no tap *)
Definition sse_tap t (order idx : Z) : A :=
  let i := 4 * (idx / 16) + idx mod 4 - (idx mod 16) / 4 in
  if (0 <=? i) && (i <? order) then t i else f0.

Lemma sse_tap_at t order a j c : 0 <= j < 4 -> 0 <= c < 4 ->
  sse_tap t order (16 * a + 4 * j + c) =
  (if (0 <=? 4 * a + c - j) && (4 * a + c - j <? order) then t (4 * a + c - j) else f0).
Proof.
  intros Hj Hc. unfold sse_tap.
  replace ((16 * a + 4 * j + c) / 16) with a.
  2:{ apply Z.div_unique with (4 * j + c); lia. }
  replace ((16 * a + 4 * j + c) mod 16) with (4 * j + c).
  2:{ apply Z.mod_unique with a; lia. }
  replace ((16 * a + 4 * j + c) mod 4) with c.
  2:{ apply Z.mod_unique with (4 * a + j); lia. }
  replace ((4 * j + c) / 4) with j.
  2:{ apply Z.div_unique with c; lia. }
  reflexivity.
Qed.

(** index decomposition used by the loop body: k = i + j *)
Lemma sse_index i j : 0 <= i -> 0 <= j < 4 ->
  let k := i + j in
  k / 4 * 16 + k mod 4 + j * 4 = 16 * (k / 4) + 4 * j + k mod 4 /\ 4 * (k / 4) + k mod 4 - j = i
  /\ 0 <= k mod 4 < 4.
Proof.
  intros Hi Hj k. pose proof (Z.div_mod k 4 ltac:(lia)). pose proof (Z.mod_pos_bound k 4 ltac:(lia)).
  subst k. lia.
Qed.

Lemma sse_index_inj i j i' j' : 0 <= i -> 0 <= j < 4 -> 0 <= i' -> 0 <= j' < 4 ->
  (i + j) / 4 * 16 + (i + j) mod 4 + j * 4 = (i' + j') / 4 * 16 + (i' + j') mod 4 + j' * 4 ->
  i = i' /\ j = j'.
Proof.
  intros Hi Hj Hi' Hj' E.
  pose proof (Z.div_mod (i + j) 4 ltac:(lia)). pose proof (Z.mod_pos_bound (i + j) 4 ltac:(lia)).
  pose proof (Z.div_mod (i' + j') 4 ltac:(lia)). pose proof (Z.mod_pos_bound (i' + j') 4 ltac:(lia)).
  assert ((i + j) / 4 = (i' + j') / 4) by lia.
  assert (j = j') by lia. lia.
Qed.

Lemma compute_sse_taps_runs tag order t m :
  0 <= order -> has m (Ptr (Taps tag) 0) order t ->
  runs (fir_compute_sse_taps tag order) m (fun _ m' =>
    has m' (Ptr (SseTaps tag) 0) (16 * groups order) (sse_tap t order) /\
    (forall b i, b <> SseTaps tag -> m' b i = m b i)).
Proof.
  intros Ho Ht. pose proof (groups_pos order Ho) as Hg. pose proof (groups_bound order Ho) as Hgb.
  unfold fir_compute_sse_taps. apply runs_bind.
  set (N := (order + 6) / 4 * 16).
  assert (HN : N = 16 * groups order) by (unfold N, groups; lia).
  unfold runs at 1, alloc at 1.
  set (m1 := fun b' i => if blk_eqb b' (SseTaps tag)
              then if (0 <=? i) && (i <? N) then Some f0 else None else m b' i).
  (* value at index idx once the pairs (j', i') before (j, i) have been written *)
  set (done := fun (j i idx : Z) =>
     let a := idx / 16 in let jj := (idx mod 16) / 4 in let ii := 4 * a + idx mod 4 - jj in
     ((jj <? j) || ((jj =? j) && (ii <? i))) && (0 <=? ii) && (ii <? order)).
  set (contents := fun (j i : Z) (m' : mem A) =>
     (forall idx, 0 <= idx < N -> m' (SseTaps tag) idx =
        Some (if done j i idx then t (4 * (idx / 16) + idx mod 4 - (idx mod 16) / 4) else f0)) /\
     (forall b k, b <> SseTaps tag -> m' b k = m b k)).
  apply runs_for with (Inv := fun j _ m' => contents j 0 m').
  - split.
    + intros idx Hidx. unfold m1. rewrite blk_eqb_refl.
      replace ((0 <=? idx) && (idx <? N)) with true by lia.
      replace (done 0 0 idx) with false; [reflexivity|].
      unfold done. pose proof (Z.div_pos (idx mod 16) 4).
      pose proof (Z.mod_pos_bound idx 16). lia.
    + intros b k Hb. unfold m1. destruct (blk_eqb_spec b (SseTaps tag)); congruence.
  - intros j [] m2 Hj Hc.
    apply runs_for with (Inv := fun i _ m' => contents j i m').
    + exact Hc.
    + intros i [] m3 Hi [Hc1 Hc2].
      apply runs_bind. eapply runs_load.
      { cbn. rewrite Hc2 by discriminate. apply (Ht i). lia. }
      destruct (sse_index i j ltac:(lia) ltac:(lia)) as (E1 & E2 & E3).
      set (idx0 := (i + j) / 4 * 16 + (i + j) mod 4 + j * 4) in *.
      assert (R0 : 0 <= idx0 < N).
      { pose proof (Z.div_pos (i + j) 4 ltac:(lia) ltac:(lia)).
        assert ((i + j) / 4 <= groups order - 1); [|lia].
        unfold groups. replace ((order + 6) / 4) with ((order + 2) / 4 + 1).
        - pose proof (Z.div_le_mono (i + j) (order + 2) 4). lia.
        - replace (order + 6) with (order + 2 + 1 * 4) by ring. rewrite Z.div_add by lia. lia. }
      apply runs_store; cbn [pb po].
      { rewrite Hc1 by exact R0. discriminate. }
      split.
      * intros idx Hidx. destruct (Z.eq_dec idx idx0) as [->|Hne].
        { rewrite upd_same. f_equal.
          rewrite E1. rewrite E1 in R0.
          replace ((16 * ((i + j) / 4) + 4 * j + (i + j) mod 4) / 16) with ((i + j) / 4).
          2:{ apply Z.div_unique with (4 * j + (i + j) mod 4); lia. }
          assert (X1 : (16 * ((i + j) / 4) + 4 * j + (i + j) mod 4) / 16 = (i + j) / 4).
          { symmetry. apply Z.div_unique with (4 * j + (i + j) mod 4); lia. }
          assert (X2 : (16 * ((i + j) / 4) + 4 * j + (i + j) mod 4) mod 16 = 4 * j + (i + j) mod 4).
          { symmetry. apply Z.mod_unique with ((i + j) / 4); lia. }
          assert (X3 : (16 * ((i + j) / 4) + 4 * j + (i + j) mod 4) mod 4 = (i + j) mod 4).
          { symmetry. apply Z.mod_unique with (4 * ((i + j) / 4) + j); lia. }
          assert (X4 : (4 * j + (i + j) mod 4) / 4 = j).
          { symmetry. apply Z.div_unique with ((i + j) mod 4); lia. }
          unfold done. rewrite X1, X2, X3, X4.
          replace (4 * ((i + j) / 4) + (i + j) mod 4 - j) with i by lia.
          replace (((j <? j) || (j =? j) && (i <? i + 1)) && (0 <=? i) && (i <? order)) with true by lia.
          reflexivity. }
        { rewrite upd_other by (right; exact Hne). rewrite Hc1 by exact Hidx.
          f_equal. replace (done j (i + 1) idx) with (done j i idx); [reflexivity|].
          unfold done.
          set (ii := 4 * (idx / 16) + idx mod 4 - (idx mod 16) / 4).
          set (jj := (idx mod 16) / 4).
          destruct (Z.eq_dec jj j) as [Ej|]; [|lia].
          destruct (Z.eq_dec ii i) as [Ei|]; [|lia].
          exfalso. apply Hne. rewrite E1, <- Ei, <- Ej.
          replace (ii + jj) with (4 * (idx / 16) + idx mod 4) by (unfold ii, jj; lia).
          pose proof (Z.mod_pos_bound idx 4 ltac:(lia)).
          replace ((4 * (idx / 16) + idx mod 4) / 4) with (idx / 16).
          2:{ apply Z.div_unique with (idx mod 4); lia. }
          replace ((4 * (idx / 16) + idx mod 4) mod 4) with (idx mod 4).
          2:{ apply Z.mod_unique with (idx / 16); lia. }
          unfold jj.
          pose proof (Z.div_mod idx 16 ltac:(lia)). pose proof (Z.div_mod (idx mod 16) 4 ltac:(lia)).
          replace (idx mod 4) with ((idx mod 16) mod 4); [lia|].
          rewrite <- Znumtheory.Zmod_div_mod; [reflexivity | lia | lia | exists 4; reflexivity]. }
      * intros b k Hb. rewrite upd_other by (left; exact Hb). auto.
    + intros [] m3 [Hc1 Hc2]. split; [|exact Hc2].
      intros idx Hidx. rewrite Hc1 by exact Hidx. f_equal.
      replace (done (j + 1) 0 idx) with (done j (0 + Z.of_nat (Z.to_nat order)) idx); [reflexivity|].
      unfold done.
      set (ii := 4 * (idx / 16) + idx mod 4 - (idx mod 16) / 4).
      lia.
  - intros [] m2 [Hc1 Hc2]. split; [|exact Hc2].
    intros idx Hidx. cbn [pb po]. rewrite Z.add_0_l. rewrite Hc1 by lia. f_equal.
    unfold sse_tap, done.
    pose proof (Z.mod_pos_bound idx 16 ltac:(lia)).
    assert ((idx mod 16) / 4 < 4) by (apply Z.div_lt_upper_bound; lia).
    set (ii := 4 * (idx / 16) + idx mod 4 - (idx mod 16) / 4).
    replace (((idx mod 16) / 4 <? 0 + Z.of_nat 4)) with true by lia.
    reflexivity.
Qed.
End Kernel.
