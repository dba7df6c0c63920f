(** * Properties: the FIR kernels *)
From Coq Require Import ZArith Reals List Lia Lra Bool ZifyNat ZifyBool.
From Verif Require Import Arith ArithR Mem FirModel Wp FirKernel Spec SpecOk SpecR.
Import ListNotations.
Open Scope Z_scope.

(** ** C06 *)

(** memory with the taps t reordered by fir_compute_sse_taps: only that array changes *)
Theorem C06_reordering_stays_inside {A : arith} tag order (t : Z -> A) m :
  0 <= order -> has m (Ptr (Taps tag) 0) order t ->
  exists m', fir_compute_sse_taps tag order m = Ok (tt, m') /\ forall b i, b <> SseTaps tag -> m' b i = m b i.
Proof.
  intros Ho Ht. pose proof (compute_sse_taps_runs tag order t m Ho Ht) as H. apply runs_inv in H.
  destruct H as ([] & m' & E & _ & F). now exists m'.
Qed.

Theorem C06_vector_kernel addr tag order (t X : Z -> RA) (m m' m1 : mem RA) input out0 out1 out2 out3 :
  0 <= order -> has (A := RA) m (Ptr (Taps tag) 0) order t ->
  fir_compute_sse_taps tag order m = Ok (tt, m') ->
  (forall i, m1 (SseTaps tag) i = m' (SseTaps tag) i) ->
  aligned16 addr input = true -> aligned16 addr (Ptr (SseTaps tag) 0) = true ->
  has (A := RA) m1 input (4 * ((order + 6) / 4)) X ->
  mapped m1 out0 1 -> mapped m1 out1 1 -> mapped m1 out2 1 -> mapped m1 out3 1 ->
  NoDup [out0; out1; out2; out3] ->
  exists m2, fir_process_4samples_sse addr input (Ptr (SseTaps tag) 0) order out0 out1 out2 out3 m1 = Ok (tt, m2) /\
  let conv j := sumR (Z.to_nat order) (fun i => (X (j + i)%Z * t i)%R) in
  m2 (pb out0) (po out0) = Some (conv 0) /\ m2 (pb out1) (po out1) = Some (conv 1) /\
  m2 (pb out2) (po out2) = Some (conv 2) /\ m2 (pb out3) (po out3) = Some (conv 3) /\
  (forall b i, ~ In (Ptr b i) [out0; out1; out2; out3] -> m2 b i = m1 b i) /\
  (* the scalar kernel at the same four positions *)
  (forall j m3, 0 <= j <= 3 -> has (A := RA) m3 input (4 * ((order + 6) / 4)) X -> has (A := RA) m3 (Ptr (Taps tag) 0) order t ->
     fir_process_one_sample (padd input j) (Ptr (Taps tag) 0) order m3 = Ok (conv j, m3)).
Proof.
  intros Ho Ht E1 ES Ai As HX M0 M1 M2 M3 ND.
  pose proof (compute_sse_taps_runs tag order t m Ho Ht) as H. apply runs_inv in H.
  destruct H as ([] & m'' & E & Hs & _). rewrite E1 in E. injection E as <-.
  assert (Hs1 : has (A := RA) m1 (Ptr (SseTaps tag) 0) (16 * groups order) (sse_tap t order)).
  { intros k Hk. cbn [pb po]. rewrite ES. now apply Hs. }
  pose proof (sse_kernel_runs addr input (Ptr (SseTaps tag) 0) order X (sse_tap t order) out0 out1 out2 out3 m1 Ho Ai As HX Hs1 M0 M1 M2 M3) as K.
  cbn zeta in K. eexists. split; [exact K|]. intros conv.
  pose proof (groups_bound order Ho) as GB.
  assert (V : forall j, 0 <= j <= 3 -> sse_out (A := RA) X (sse_tap t order) order j = conv j).
  { intros j Hj. unfold conv. rewrite <- (vmac_sum order (fun i => X (j + i)) t j) by assumption.
    rewrite vmac_sse by assumption. apply sse_out_ext; try lia; intros k Hk; [|reflexivity]. f_equal. lia. }
  assert (PE : forall p q : ptr, p <> q -> pb p <> pb q \/ po p <> po q).
  { intros [b1 i1] [b2 i2] N. cbn [pb po]. destruct (blk_eqb_spec b1 b2) as [->|]; [|now left]. right. intros ->. now apply N. }
  inversion ND as [|? ? I0 ND1]; subst. inversion ND1 as [|? ? I1 ND2]; subst. inversion ND2 as [|? ? I2 _]; subst. cbn [In] in I0, I1, I2.
  rewrite !V by lia. split; [|split; [|split; [|split; [|split]]]].
  - rewrite !upd_other by (apply PE; intros Q; rewrite Q in *; tauto). now rewrite upd_same.
  - rewrite !upd_other by (apply PE; intros Q; rewrite Q in *; tauto). now rewrite upd_same.
  - rewrite !upd_other by (apply PE; intros Q; rewrite Q in *; tauto). now rewrite upd_same.
  - now rewrite upd_same.
  - intros b i NI. cbn [In] in NI. rewrite !upd_other; [reflexivity | | | |];
      match goal with |- _ <> pb ?o \/ _ => destruct (PE (Ptr b i) o) as [|]; [intros <-; tauto | now left | now right] end.
  - intros j m3 Hj H3 Ht3. rewrite (one_sample_runs (padd input j) (Ptr (Taps tag) 0) order (fun i => X (j + i)) t m3 Ho); [| |exact Ht3].
    + unfold conv. now rewrite <- mac_dot, mac_sum.
    + intros k Hk. cbn [padd pb po]. rewrite <- (H3 (j + k)) by (unfold groups in GB; lia). f_equal. lia.
Qed.

(** taps 1 2 3, input 0 1 2 ... 7: results 8, 14, 20, 26 *)
Example C06_case : exists addr (m m' m1 : mem RA),
  let t i := IZR (i + 1) in let X i := IZR i in
  has (A := RA) m (Ptr (Taps 0) 0) 3 t /\ fir_compute_sse_taps 0 3 m = Ok (tt, m') /\
  (forall i, m1 (SseTaps 0) i = m' (SseTaps 0) i) /\
  aligned16 addr (Ptr (User 0) 0) = true /\ aligned16 addr (Ptr (SseTaps 0) 0) = true /\
  has (A := RA) m1 (Ptr (User 0) 0) 8 X /\ (forall k, 0 <= k <= 3 -> mapped m1 (Ptr (User 1) k) 1) /\
  exists m2, fir_process_4samples_sse addr (Ptr (User 0) 0) (Ptr (SseTaps 0) 0) 3 (Ptr (User 1) 0) (Ptr (User 1) 1) (Ptr (User 1) 2) (Ptr (User 1) 3) m1 = Ok (tt, m2) /\
  m2 (User 1) 0 = Some (8%R : RA) /\ m2 (User 1) 3 = Some (26%R : RA).
Proof.
  set (t := fun i => IZR (i + 1) : RA). set (X := fun i => IZR i : RA).
  set (m := (fun b i => if blk_eqb b (Taps 0) && (0 <=? i) && (i <? 3) then Some (t i) else None) : mem RA).
  assert (Ht : has (A := RA) m (Ptr (Taps 0) 0) 3 t).
  { intros k Hk. unfold m. cbn [pb po blk_eqb Z.eqb]. replace (0 + k) with k by lia. replace (true && (0 <=? k) && (k <? 3)) with true by lia. reflexivity. }
  destruct (C06_reordering_stays_inside (A := RA) 0 3 t m ltac:(lia) Ht) as (m' & E & _).
  set (m1 := (fun b i => if blk_eqb b (SseTaps 0) then m' b i else Some (X i)) : mem RA).
  assert (Hm : forall k, 0 <= k <= 3 -> mapped m1 (Ptr (User 1) k) 1) by (intros k _ i _; discriminate).
  destruct (C06_vector_kernel (fun _ => 0) 0 3 t X m m' m1 (Ptr (User 0) 0) (Ptr (User 1) 0) (Ptr (User 1) 1) (Ptr (User 1) 2) (Ptr (User 1) 3))
    as (m2 & E2 & H0 & _ & _ & H3 & _ & _); try assumption; try reflexivity; try lia; try (apply Hm; lia).
  { intros k _. reflexivity. }
  { repeat constructor; cbn; intros H; repeat (destruct H as [H|H]; [discriminate|]); exact H. }
  exists (fun _ => 0), m, m', m1. split; [exact Ht|]. split; [exact E|]. split; [reflexivity|]. split; [reflexivity|]. split; [reflexivity|].
  split; [intros k _; reflexivity|]. split; [exact Hm|]. exists m2. split; [exact E2|].
  cbn [pb po] in H0, H3. rewrite H0, H3. unfold t, X. change (Z.to_nat 3) with 3%nat. cbn [sumR Z.of_nat Pos.of_succ_nat Pos.succ Z.add Pos.add].
  cbn [Z.of_nat Pos.of_succ_nat Pos.succ Z.add Pos.add Pos.add_carry].
  split; apply (f_equal (@Some R)); lra.
Qed.
Print Assumptions C06_reordering_stays_inside.
Print Assumptions C06_vector_kernel.
