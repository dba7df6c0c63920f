(** * Properties: the self test *)
From Coq Require Import ZArith Reals List Lia Lra Bool ZifyNat ZifyBool.
From Flocq Require Import Core BinarySingleNaN.
From Verif Require Import Arith ArithR ArithF Mem FirModel ResamplerModel Wp FirKernel Spec SpecOk SpecR TestModel TestProof.
Import ListNotations.
Open Scope Z_scope.

(** ** C60 *)

(** Whatever rand() returns, wherever the arrays are (AlignedArray: addresses are
    multiples of 16) and whatever is in uninitialised memory: the test runs without undefined behaviour,
    returns true or false, frees its arrays and does not touch any other memory.  In any arithmetic. *)
Theorem C60_safe {A : arith} (D : dops A) plat addr rand junk (m : mem A) :
  (forall o, test_addr_ok (addr o)) -> (forall b i, test_blk b = true -> m b i = None) ->
  exists res m', test_filter_impl D plat addr rand junk m = Ok (res, m') /\ forall b i, m' b i = m b i.
Proof.
  intros Ha Hm. unfold test_filter_impl. destruct (sse_available plat).
  - destruct (test_runs D addr rand junk 64 m ltac:(lia) Ha) as (res & m' & E & C & _). exists res, m'.
    split; [lazymatch goal with |- fir_test_filter_sse _ _ _ _ 64 _ = _ => exact E end|].
    intros b i. rewrite C. destruct (test_blk b) eqn:B; [now rewrite Hm | reflexivity].
  - exists true, m. split; reflexivity.
Qed.

(** What the test decides: for every filter with n < 64 taps 1, 2, ..., n and n + 6 new
    random samples, the four results of the vector code are compared to sums of the (float) products
    in double arithmetic; the sum of the differences divided by n + 1 is above 0.00001 for none of them. *)
Fixpoint dot {A : arith} (D : dops A) (n : nat) (a b : Z -> A) : D :=
  match n with O => d0 D | S k => dadd D (dot D k a b) (dof D (fmul (a (Z.of_nat k)) (b (Z.of_nat k)))) end.
Definition difference {A : arith} (D : dops A) (n : Z) (x t : Z -> A) (j : Z) : D :=
  dabs D (dsub D (dot D (Z.to_nat n) (fun i => x (j + i)) t) (dof D (vmac n (fun i => x (j + i)) t j))).
(** the random numbers used before the filter with n taps *)
Fixpoint used (n : nat) : Z := match n with O => 0 | S k => used k + (Z.of_nat k + 6) end.
Lemma used_start n : used n = start (Z.of_nat n).
Proof. induction n as [|n IH]; [reflexivity|]. cbn [used]. rewrite IH, Nat2Z.inj_succ. unfold Z.succ. now rewrite start_S. Qed.
Theorem C60_decides {A : arith} (D : dops A) plat addr rand junk (m : mem A) res m' :
  (forall o, test_addr_ok (addr o)) -> sse_available plat = true ->
  test_filter_impl D plat addr rand junk m = Ok (res, m') ->
  (res = true <-> forall n, (n < 64)%nat ->
     let x i := frand D (rand (used n + i)) in let t i := fofi D (i + 1) in let d := difference D (Z.of_nat n) x t in
     dgt D (ddivi D (dadd D (dadd D (dadd D (dadd D (d0 D) (d 0)) (d 1)) (d 2)) (d 3)) (Z.of_nat n + 1)) = false).
Proof.
  intros Ha Hp. unfold test_filter_impl. rewrite Hp.
  destruct (test_runs D addr rand junk 64 m ltac:(lia) Ha) as (res' & m1 & -> & _ & H). intros [= <- <-].
  assert (DD : forall n a b, dot D n a b = dotD D a b n) by (intros n a b; induction n as [|n IH]; cbn [dot dotD]; [reflexivity | now rewrite IH]).
  assert (DF : forall n X t j, 0 <= n -> 0 <= j <= 3 -> difference D n X t j =
    dabs D (dsub D (dotD D (fun k => X (j + k)) t (Z.to_nat n)) (dof D (sse_out X (sse_tap t n) n j)))).
  { intros n X t j Hn Hj. unfold difference. rewrite DD, vmac_sse by assumption. do 3 f_equal. apply sse_out_ext; try assumption; intros i Hi; [f_equal; lia | reflexivity]. }
  rewrite H. split.
  - intros HB n Hn. specialize (HB (Z.of_nat n) ltac:(lia)). unfold bad, avg_diff in HB. rewrite !DF by lia. rewrite <- used_start in HB. exact HB.
  - intros HB o Ho. specialize (HB (Z.to_nat o) ltac:(lia)). cbn zeta in HB. rewrite Z2Nat.id in HB by lia. rewrite !DF in HB by lia. rewrite used_start, Z2Nat.id in HB by lia. exact HB.
Qed.

(** Exact arithmetic: the test succeeds. *)
Lemma dotD_sum rm X t n : dotD (RD rm) X t n = sumR n (fun i => (X i * t i)%R).
Proof. induction n as [|n IH]; [reflexivity|]. cbn [dotD sumR]. rewrite IH. reflexivity. Qed.
Lemma exact_not_bad rm rand k order : 0 <= order -> bad (RD rm) rand k order = false.
Proof.
  intros Ho. unfold bad, avg_diff.
  assert (Z0 : forall i, 0 <= i <= 3 -> dabs (RD rm) (dsub (RD rm) (dotD (RD rm) (fun j => mem_of (RD rm) rand k (i + j)) (tap_of (RD rm)) (Z.to_nat order))
      (dof (RD rm) (sse_out (mem_of (RD rm) rand k) (sse_tap (tap_of (RD rm)) order) order i))) = 0%R).
  { intros i Hi. rewrite dotD_sum.
    replace (sse_out (A := RA) (mem_of (RD rm) rand k) (sse_tap (tap_of (RD rm)) order) order i)
      with (sumR (Z.to_nat order) (fun j => (mem_of (RD rm) rand k (i + j)%Z * tap_of (RD rm) j)%R) : RA).
    - cbn [dabs dsub dof RD]. rewrite Rminus_eq_0. apply Rabs_R0.
    - pose proof (groups_bound order Ho) as GB.
      rewrite <- (vmac_sum order (fun j => mem_of (RD rm) rand k (i + j)) (tap_of (RD rm)) i) by assumption.
      rewrite vmac_sse by assumption. apply sse_out_ext; try lia; intros j Hj; [|reflexivity]. f_equal. lia. }
  rewrite !Z0 by lia. cbn [dgt ddivi dadd d0 RD]. rewrite !Rplus_0_l. unfold Rdiv. rewrite Rmult_0_l.
  destruct (Rlt_dec (1 * / 100000) 0) as [L|]; [lra | reflexivity].
Qed.
Theorem C60_exact rand_max plat addr rand junk (m : mem RA) : (forall o, test_addr_ok (addr o)) ->
  exists m', test_filter_impl (RD rand_max) plat addr rand junk m = Ok (true, m').
Proof.
  intros Ha. unfold test_filter_impl. destruct (sse_available plat); [|now exists m].
  destruct (test_runs (RD rand_max) addr rand junk 64 m ltac:(lia) Ha) as (res & m' & E & _ & H). exists m'. rewrite E. do 2 f_equal.
  apply H. intros o Ho. apply exact_not_bad. lia.
Qed.

(** IEEE arithmetic: the test may fail although the vector code is right (C06, C07).  It
    does if rand() always returns 20086614, which a correct rand() may do. *)
Definition unlucky : Z := 20086614.
Lemma unlucky_bad : bad F64 (fun _ => unlucky) (start 62) 62 = true.
Proof. vm_compute. reflexivity. Qed.
Theorem C60_no_false_alarm_refuted : exists rand : Z -> Z, (forall k, 0 <= rand k <= RAND_MAX) /\
  forall plat addr junk (m : mem F32), sse_available plat = true -> (forall o, test_addr_ok (addr o)) ->
  exists m', test_filter_impl F64 plat addr rand junk m = Ok (false, m').
Proof.
  exists (fun _ => unlucky). split; [intros k; unfold unlucky, RAND_MAX; lia|]. intros plat addr junk m Hp Ha. unfold test_filter_impl. rewrite Hp.
  destruct (test_runs F64 addr (fun _ => unlucky) junk 64 m ltac:(lia) Ha) as (res & m' & E & _ & H). exists m'. rewrite E. do 2 f_equal.
  destruct res; [|reflexivity]. exfalso. pose proof (proj1 H eq_refl 62 ltac:(lia)) as B. rewrite unlucky_bad in B. discriminate.
Qed.

(** the hypotheses can be met *)
Example C60_case : test_addr_ok (fun _ => 64) /\ (exists plat, sse_available plat = true) /\ exists m : mem F32, (forall b i, test_blk b = true -> m b i = None) /\ m (User 0) 0 <> None.
Proof.
  split; [split; reflexivity|]. split; [exists (Platform true false); reflexivity|].
  exists (fun b i => match b with User _ => Some f0 | _ => None end). split; [|discriminate]. intros b i. destruct b; try reflexivity. discriminate.
Qed.

Print Assumptions C60_safe.
Print Assumptions C60_decides.
Print Assumptions C60_exact.
Print Assumptions C60_no_false_alarm_refuted.
