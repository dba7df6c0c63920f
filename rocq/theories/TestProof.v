(** * The self test: what it computes *)
From Coq Require Import ZArith Reals List Lia Lra Bool ZifyNat ZifyBool.
From Verif Require Import Arith ArithR Mem FirModel ResamplerModel Wp FirKernel TestModel.
Import ListNotations.
Open Scope Z_scope.
Open Scope m_scope.

Section Test.
Context {A : arith} (D : dops A).
Implicit Types (m : mem A) (X t : Z -> A).

Fixpoint dotD X t (n : nat) : D :=
  match n with
  | O => d0 D
  | S k => dadd D (dotD X t k) (dof D (fmul (X (Z.of_nat k)) (t (Z.of_nat k))))
  end.

Lemma one_sample_d_runs input taps order X t m : 0 <= order -> has m input order X -> has m taps order t ->
  fir_process_one_sample_d D input taps order m = Ok (dotD X t (Z.to_nat order), m).
Proof.
  intros Ho Hx Ht.
  enough (runs (fir_process_one_sample_d D input taps order) m (fun v m' => v = dotD X t (Z.to_nat order) /\ m' = m)) as H.
  { apply runs_inv in H. destruct H as (v & m' & -> & -> & ->). reflexivity. }
  unfold fir_process_one_sample_d. apply runs_for with (Inv := fun i v m' => v = dotD X t (Z.to_nat i) /\ m' = m).
  - split; reflexivity.
  - intros k v m' Hk [-> ->].
    apply runs_bind. eapply runs_load; [cbn; apply Hx; lia|].
    apply runs_bind. eapply runs_load; [cbn; apply Ht; lia|].
    apply runs_ret. split; [|reflexivity].
    replace (Z.to_nat (k + 1)) with (S (Z.to_nat k)) by lia. cbn [dotD]. now rewrite !Z2Nat.id by lia.
  - intros v m' [-> ->]. split; [|reflexivity]. f_equal. lia.
Qed.

(** storing X 0, X 1, ... *)
Lemma stores_runs b n X m : mapped m (Ptr b 0) n -> 0 <= n ->
  runs (for_up (Z.to_nat n) 0 (fun i _ => store (Ptr b i) (X i)) tt) m (fun _ m' => has m' (Ptr b 0) n X /\ forall b' i, b' <> b -> m' b' i = m b' i).
Proof.
  intros Hm Hn.
  apply runs_for with (Inv := fun i _ m' => (forall k, 0 <= k < i -> m' b k = Some (X k)) /\ mapped m' (Ptr b 0) n /\ forall b' i, b' <> b -> m' b' i = m b' i).
  - split; [lia|]. split; [exact Hm | reflexivity].
  - intros k _ m' Hk (H1 & H2 & H3). apply runs_store; cbn [pb po].
    + specialize (H2 k ltac:(lia)). exact H2.
    + split; [|split].
      * intros i Hi. destruct (Z.eq_dec i k) as [->|]; [apply upd_same|]. rewrite upd_other by lia. apply H1. lia.
      * now apply mapped_upd.
      * intros b' i Hb. rewrite upd_other by now left. now apply H3.
  - intros _ m' (H1 & _ & H3). split; [|exact H3]. intros k Hk. cbn [pb po]. apply H1. lia.
Qed.

(** the quantity that is compared to 0.00001 *)
Definition avg_diff X t (order : Z) : D :=
  let d i := dabs D (dsub D (dotD (fun k => X (i + k)) t (Z.to_nat order)) (dof D (sse_out X (sse_tap t order) order i))) in
  ddivi D (dadd D (dadd D (dadd D (dadd D (d0 D) (d 0)) (d 1)) (d 2)) (d 3)) (order + 1).

Definition test_blk (b : blk) : bool := blk_eqb b t_taps || blk_eqb b t_sse || blk_eqb b t_mem || blk_eqb b t_out.

(** random_mem and taps *)
Definition mem_of (rand : Z -> Z) (k : Z) (i : Z) : A := frand D (rand (k + i)).
Definition tap_of (i : Z) : A := fofi D (i + 1).
Definition bad (rand : Z -> Z) (k order : Z) : bool := dgt D (avg_diff (mem_of rand k) tap_of order).

Definition test_addr_ok (addr : blk -> Z) : Prop := addr t_mem mod 16 = 0 /\ addr t_sse mod 16 = 0.

(** memory after the test: its arrays are gone *)
Definition cleaned m m' : Prop := forall b i, m' b i = if test_blk b then None else m b i.

Lemma alloc_mapped b n (X : Z -> A) m : mapped (fun b' i => if blk_eqb b' b then if (0 <=? i) && (i <? n) then Some (X i) else None else m b' i) (Ptr b 0) n.
Proof. intros k Hk. cbn [pb po]. rewrite blk_eqb_refl. replace ((0 <=? 0 + k) && (0 + k <? n)) with true by lia. discriminate. Qed.
Lemma alloc_other b n (X : Z -> A) m b' i : b' <> b -> (fun b' i => if blk_eqb b' b then if (0 <=? i) && (i <? n) then Some (X i) else None else m b' i) b' i = m b' i.
Proof. intros H. cbn beta. destruct (blk_eqb_spec b' b); [contradiction | reflexivity]. Qed.

Lemma test_order_runs addr rand junk order k errors m : 0 <= order -> test_addr_ok addr ->
  runs (test_order D addr rand junk order (k, errors)) m (fun s m' =>
    s = (k + (order + 6), if bad rand k order then errors + 1 else errors) /\
    cleaned m m').
Proof.
  intros Ho [A1 A2]. unfold test_order. pose proof (groups_bound order Ho) as GB. unfold groups in GB.
  apply runs_bind. unfold alloc at 1, runs at 1. set (m1 := fun b' i => if blk_eqb b' t_taps then _ else _).
  apply runs_bind. eapply runs_mono; [apply (stores_runs t_taps order tap_of); [apply alloc_mapped | exact Ho]|]. intros _ m2 [H2 F2].
  apply runs_bind. eapply runs_mono; [apply (compute_sse_taps_runs (-1) order tap_of); [exact Ho | exact H2]|]. intros _ m3 [H3 F3].
  apply runs_bind. unfold alloc at 1, runs at 1. set (m4 := fun b' i => if blk_eqb b' t_mem then _ else _).
  apply runs_bind. eapply runs_mono; [apply (stores_runs t_mem (order + 6) (mem_of rand k)); [apply alloc_mapped | lia]|]. intros _ m5 [H5 F5].
  apply runs_bind. unfold alloc at 1, runs at 1. set (m6 := fun b' i => if blk_eqb b' t_out then _ else _).
  assert (E6 : forall b i, b <> t_out -> m6 b i = m5 b i) by (intros b i Hb; apply (alloc_other t_out 4 junk m5 b i Hb)).
  assert (M6 : mapped m6 (Ptr t_out 0) 4) by apply alloc_mapped.
  assert (E4 : forall b i, b <> t_mem -> m4 b i = m3 b i) by (intros b i Hb; apply (alloc_other t_mem (order + 6) (fun _ => f0) m3 b i Hb)).
  assert (E1 : forall b i, b <> t_taps -> m1 b i = m b i) by (intros b i Hb; apply (alloc_other t_taps order (fun _ => f0) m b i Hb)).
  clearbody m1 m4 m6.
  assert (X6 : has m6 (Ptr t_mem 0) (order + 6) (mem_of rand k)).
  { intros i Hi. cbn [pb po]. rewrite E6 by discriminate. now apply H5. }
  assert (S6 : has m6 (Ptr t_sse 0) (16 * groups order) (sse_tap tap_of order)).
  { intros i Hi. cbn [pb po]. rewrite E6, F5, E4 by discriminate. now apply H3. }
  assert (T6 : has m6 (Ptr t_taps 0) order tap_of).
  { intros i Hi. cbn [pb po]. rewrite E6, F5, E4, F3 by discriminate. now apply H2. }
  assert (MM : forall i, 0 <= i < 4 -> mapped m6 (Ptr t_out i) 1).
  { intros i Hi j Hj. cbn [pb po]. specialize (M6 (i + j) ltac:(lia)). exact M6. }
  apply runs_bind.
  eapply runs_eq; [apply (sse_kernel_runs addr (Ptr t_mem 0) (Ptr t_sse 0) order (mem_of rand k) (sse_tap tap_of order))|].
  - exact Ho.
  - unfold aligned16, paddr. cbn [pb po]. rewrite Z.mul_0_r, Z.add_0_r, A1. reflexivity.
  - unfold aligned16, paddr. cbn [pb po]. rewrite Z.mul_0_r, Z.add_0_r, A2. reflexivity.
  - intros i Hi. apply X6. unfold groups in Hi. lia.
  - exact S6.
  - apply MM; lia.
  - apply MM; lia.
  - apply MM; lia.
  - apply MM; lia.
  - cbn [pb po]. set (v := sse_out _ _ _). set (m7 := upd (upd (upd (upd m6 _ _ _) _ _ _) _ _ _) _ _ _).
    assert (E7 : forall b i, b <> t_out -> m7 b i = m6 b i) by (intros b i Hb; unfold m7; rewrite !upd_other by (now left); reflexivity).
    assert (V7 : forall i, 0 <= i < 4 -> m7 t_out i = Some (v i)).
    { intros i Hi. unfold m7. assert (i = 0 \/ i = 1 \/ i = 2 \/ i = 3) as [->|[->|[->| ->]]] by lia;
        repeat (rewrite upd_same; reflexivity || rewrite upd_other by (right; lia)); now rewrite ?upd_same. }
    clearbody m7.
    assert (X7 : has m7 (Ptr t_mem 0) (order + 6) (mem_of rand k)) by (intros i Hi; cbn [pb po]; rewrite E7 by discriminate; now apply X6).
    assert (T7 : has m7 (Ptr t_taps 0) order tap_of) by (intros i Hi; cbn [pb po]; rewrite E7 by discriminate; now apply T6).
    apply runs_bind.
    set (body := fun i avg => _).
    assert (B : forall i avg, 0 <= i < 4 -> body i avg m7 =
      Ok (dadd D avg (dabs D (dsub D (dotD (fun j => mem_of rand k (i + j)) tap_of (Z.to_nat order)) (dof D (v i)))), m7)).
    { intros i avg Hi. unfold body, bind.
      rewrite (one_sample_d_runs (Ptr t_mem i) (Ptr t_taps 0) order (fun j => mem_of rand k (i + j)) tap_of m7 Ho); [| |exact T7].
      - unfold load. cbn [pb po]. rewrite V7 by lia. reflexivity.
      - intros j Hj. cbn [pb po]. specialize (X7 (i + j) ltac:(lia)). exact X7. }
    eapply runs_eq.
    { cbn [for_up]. unfold bind at 1. rewrite B by lia. unfold bind at 1. rewrite B by lia. unfold bind at 1. rewrite B by lia. unfold bind at 1. rewrite B by lia. reflexivity. }
    unfold free, bind, ret, runs. split; [reflexivity|].
    intros b i. unfold test_blk.
    destruct (blk_eqb b t_taps) eqn:B1; [reflexivity|]. destruct (blk_eqb b t_sse) eqn:B2; [reflexivity|].
    destruct (blk_eqb b t_mem) eqn:B3; [reflexivity|]. destruct (blk_eqb b t_out) eqn:B4; [reflexivity|]. cbn [orb].
    repeat match goal with H : blk_eqb ?x ?y = false |- _ => destruct (blk_eqb_spec x y) as [E|]; [discriminate H|]; clear H end.
    rewrite E7, E6, F5, E4, F3, F2, E1 by assumption. reflexivity.
Qed.

(** number of calls of rand before a given order *)
Definition start (order : Z) : Z := order * (order + 11) / 2.
Lemma start_S order : start (order + 1) = start order + (order + 6).
Proof. unfold start. replace ((order + 1) * (order + 1 + 11)) with (order * (order + 11) + (order + 6) * 2) by ring. now rewrite Z.div_add by lia. Qed.

Lemma test_runs addr rand junk n m : 0 < n -> (forall o, test_addr_ok (addr o)) ->
  exists res m', fir_test_filter_sse D addr rand junk n m = Ok (res, m') /\ cleaned m m' /\
  (res = true <-> forall o, 0 <= o < n -> bad rand (start o) o = false).
Proof.
  intros Hn Ha.
  enough (runs (fir_test_filter_sse D addr rand junk n) m (fun res m' => cleaned m m' /\ (res = true <-> forall o, 0 <= o < n -> bad rand (start o) o = false))) as H.
  { apply runs_inv in H. destruct H as (res & m' & E & H). exists res, m'. split; [exact E | exact H]. }
  unfold fir_test_filter_sse. apply runs_bind.
  apply runs_for with (Inv := fun i s m' => fst s = start i /\ 0 <= snd s /\ (snd s = 0 <-> forall o, 0 <= o < i -> bad rand (start o) o = false) /\ (0 < i -> cleaned m m') /\ (i = 0 -> m' = m)).
  - split; [reflexivity|]. split; [cbn; lia|]. split; [split; [intros _ o; lia | reflexivity]|]. split; [lia | reflexivity].
  - intros o [k e] m' Ho (E1 & E2 & E3 & E4 & E5). cbn [fst snd] in *.
    eapply runs_mono; [apply test_order_runs; [lia | apply Ha]|]. intros s m2 [-> C]. cbn [fst snd]. rewrite E1, start_S. split; [reflexivity|].
    split; [destruct (bad _ _ _); lia|]. split; [|split; [|lia]].
    + split.
      * intros Z0 o' Ho'. destruct (bad rand (start o) o) eqn:B; [lia|]. destruct (Z.eq_dec o' o) as [->|]; [exact B|]. apply E3; lia.
      * intros H. rewrite (H o) by lia. apply E3. intros o' Ho'. apply H. lia.
    + intros _ b i. rewrite C. destruct (Z.eq_dec o 0) as [->|]; [now rewrite E5|]. rewrite E4 by lia. now destruct (test_blk b).
  - intros [k e] m' (E1 & E2 & E3 & E4 & E5). cbn [fst snd] in *. apply runs_ret. split; [apply E4; lia|]. cbn [snd]. rewrite Z.eqb_eq, E3.
    replace (0 + Z.of_nat (Z.to_nat n)) with n by lia. tauto.
Qed.
End Test.
