(** * Single precision FIR stages: no overflow; zeros *)
From Coq Require Import ZArith Reals List Lia Lra Bool ZifyNat ZifyBool.
From Flocq Require Import Core BinarySingleNaN.
From Verif Require Import Arith ArithR ArithF Tables ResamplerModel ResamplerProof ResamplerOk Spec SpecOk SpecR Client Feed Twin
  TablesF TableFacts FloatComm FloatSum.
Import ListNotations.
Open Scope Z_scope.

(** all taps are at most 1 *)
Lemma taps_small_all : forallb (fun s => forallb (fun p => forallb (fun n => Z.abs n <=? 2 ^ 47) (fir_ints s p)) [1; 8; 12; 16; 20; 24]) stages = true.
Proof. vm_compute. reflexivity. Qed.
Lemma taps_small s p : stage_no s -> fir_prec p -> Forall (fun n => Z.abs n <= 2 ^ 47) (fir_ints s p).
Proof.
  intros Hs Hp. pose proof taps_small_all as H. rewrite forallb_forall in H.
  specialize (H s ltac:(unfold stages; cbn; unfold stage_no in Hs; lia)). rewrite forallb_forall in H.
  specialize (H p ltac:(unfold fir_prec in Hp; cbn; lia)). rewrite forallb_forall in H.
  apply Forall_forall. intros n Hn. apply H in Hn. lia.
Qed.
Definition tap_ok (c : b32) : Prop := fin c /\ (Rabs (val c) <= 1)%R.
Lemma taps_ok md s p : stage_no s -> fir_prec p -> Forall tap_ok (coeffs (A := F32) FILTER_FIR md p s).
Proof.
  intros Hs Hp. pose proof (fir_coeffs_F md s p Hs Hp) as F. pose proof (taps_small s p Hs Hp) as S.
  induction F as [|c n l k [H1 H2] F IH]; constructor; inversion S as [|? ? Sn Sk]; subst.
  - split; [exact H1|]. rewrite H2, Rabs_mult, <- abs_IZR. apply IZR_le in Sn.
    assert (U : (0 <= unit_of md <= / IZR (2 ^ 47))%R).
    { unfold unit_of. destruct md.
      - split; [|lra]. apply Rlt_le, Rinv_0_lt_compat, IZR_lt. reflexivity.
      - split; [apply Rlt_le, Rinv_0_lt_compat, IZR_lt; reflexivity|]. apply Rinv_le_contravar; [apply IZR_lt; reflexivity|]. apply IZR_le. discriminate. }
    rewrite (Rabs_pos_eq (unit_of md)) by apply U. replace 1%R with (IZR (2 ^ 47) * / IZR (2 ^ 47))%R by (apply Rinv_r, IZR_neq; discriminate).
    apply Rmult_le_compat; [apply IZR_le, Z.abs_nonneg | apply U | exact Sn | apply U].
  - apply IH. exact Sk.
Qed.
Lemma tap_ok_smp md s p i : stage_no s -> fir_prec p -> tap_ok (smp (coeffs (A := F32) FILTER_FIR md p s) i).
Proof. intros Hs Hp. apply smp_all; [split; [reflexivity | cbn; rewrite Rabs_R0; lra] | now apply taps_ok]. Qed.

Lemma half_val : val (@fhalf F32) = (1 / 2)%R.
Proof. replace (@fhalf F32) with (b32_dy 1 (-1)) by reflexivity. unfold b32_dy. cbv. lra. Qed.

(** ** No overflow *)
Lemma atmost_shift c e v : c <= 64 -> atmost c e v -> atmost 1 (e + 6) v.
Proof.
  intros Hc [F H]. split; [exact F|]. eapply Rle_trans; [exact H|]. rewrite bpow_plus, Rmult_1_l, Rmult_comm.
  apply Rmult_le_compat_l; [apply bpow_ge_0|]. change (bpow radix2 6) with (IZR 64). now apply IZR_le.
Qed.
Lemma stage_no_overflow md p vec s e (x y : list F32) : stage_no s -> fir_prec p -> -149 <= e <= 121 ->
  (forall i, atmost 1 e (smp x i)) -> stage_any (A := F32) FILTER_FIR md p vec s x y -> forall j, atmost 1 (e + 6) (smp y j).
Proof.
  intros Hs Hp He Hx H j.
  assert (Z0 : forall e', atmost 1 e' (@f0 F32)).
  { intros e'. split; [reflexivity|]. cbn. rewrite Rabs_R0. apply Rmult_le_pos; [lra | apply bpow_ge_0]. }
  assert (Ht := fun i => tap_ok_smp md s p i Hs Hp). set (t := coeffs (A := F32) FILTER_FIR md p s) in *.
  assert (St : 0 <= size t <= 52).
  { assert (size t = size (coeffs (A := RA) FILTER_FIR md p s)) as ->; [|pose proof (ft_facts md s p Hs Hp); lia].
    unfold t, coeffs, size. destruct (fir_table s p); [|reflexivity]. now rewrite !map_length. }
  destruct (Z_lt_le_dec j 0); [rewrite smp_neg by lia; apply Z0|].
  destruct (Z_lt_le_dec j (size y)); [|rewrite smp_over by lia; apply Z0].
  destruct md; destruct H as [L H]; fold t in H.
  - pose proof (Z.div_mod j 2 ltac:(lia)). pose proof (Z.mod_pos_bound j 2 ltac:(lia)).
    destruct (H (j / 2) ltac:(lia)) as [He1 Ho].
    destruct (Z.eq_dec (j mod 2) 0).
    + replace j with (2 * (j / 2)) by lia. apply atmost_shift with (size t + 6); [lia|].
      refine (am_sum_of e _ _ He _ Ht vec (size t) _ ltac:(lia) He1). intros; apply Hx.
    + replace j with (2 * (j / 2) + 1) by lia. rewrite Ho. apply atmost_shift with 1; [lia | apply Hx].
  - destruct (H j ltac:(lia)) as (v & Hv & ->). apply atmost_shift with (size t + 6 + 1); [lia|]. apply atmost_plus; try lia.
    + refine (am_sum_of e _ _ He _ Ht vec (size t) _ ltac:(lia) Hv). intros; apply Hx.
    + set (z := smp x _). assert (Hz : atmost 1 e z) by apply Hx. rewrite (FloatComm.b32_mult_comm).
      apply atmost_mult; [lia | lia | exact Hz | reflexivity | rewrite half_val; rewrite Rabs_pos_eq; lra].
Qed.
Theorem resample_no_overflow md p vec ratio (x y : list F32) : valid FILTER_FIR ratio p ->
  (forall i, atmost 1 109 (smp x i)) -> resample_any (A := F32) FILTER_FIR md p vec ratio x y ->
  forall j, atmost 1 127 (smp y j).
Proof.
  intros [Hr HT] Hx H.
  assert (S2 : stage_no 2) by (unfold stage_no; auto). assert (S4 : stage_no 4) by (unfold stage_no; auto).
  assert (S8 : stage_no 8) by (unfold stage_no; auto).
  assert (W : forall e (z : list F32), e <= 127 -> (forall j, atmost 1 e (smp z j)) -> forall j, atmost 1 127 (smp z j)).
  { intros e z He Hz j. destruct (Hz j) as [F B]. split; [exact F|]. eapply Rle_trans; [exact B|].
    apply Rmult_le_compat_l; [lra|]. now apply bpow_le. }
  destruct Hr as [->|Hr].
  - unfold resample_any in H. cbn [Z.eqb Pos.eqb] in H. apply (W 109); [lia|]. destruct md; now subst y.
  - assert (HP : fir_prec p) by (apply HT; lia). clear HT.
    pose proof (fun md s e x y Hs He => stage_no_overflow md p vec s e x y Hs HP He) as SO.
    destruct md, Hr as [->|[->| ->]]; unfold resample_any in H; cbn [Z.eqb Pos.eqb] in H.
    1, 4: apply (W 115); [lia|]; exact (SO _ _ 109 x y S2 ltac:(lia) Hx H).
    1, 3: destruct H as (a & H1 & H2); apply (W 121); [lia|];
      assert (B1 : forall j, atmost 1 115 (smp a j)) by (refine (SO _ _ 109 x a _ _ Hx H1); [assumption | lia]);
      refine (SO _ _ 115 a y _ _ B1 H2); [assumption | lia].
    1, 2: destruct H as (a & b & H1 & H2 & H3);
      assert (B1 : forall j, atmost 1 115 (smp a j)) by (refine (SO _ _ 109 x a _ _ Hx H1); [assumption | lia]);
      assert (B2 : forall j, atmost 1 121 (smp b j)) by (refine (SO _ _ 115 a b _ _ B1 H2); [assumption | lia]);
      refine (SO _ _ 121 b y _ _ B2 H3); [assumption | lia].
Qed.

(** ** Zeros *)
Definition zero (v : b32) : Prop := exists s, v = B754_zero s.
Lemma zero_closed : closed (A := F32) zero (fun c => fin c).
Proof.
  split.
  - now exists false.
  - reflexivity.
  - reflexivity.
  - intros a b [s ->] [s' ->]. destruct s, s'; eexists; reflexivity.
  - intros a b [s ->] [s' ->]. destruct s, s'; eexists; reflexivity.
  - intros a c [s ->] F. destruct c as [s'|s'| |s' m e H]; try discriminate; eexists; reflexivity.
  - intros a [s ->]. eexists; reflexivity.
  - intros a [s ->]. eexists; reflexivity.
Qed.
Theorem resample_zero f md p vec ratio (x y : list F32) : valid f ratio p -> Forall zero x ->
  resample_any (A := F32) f md p vec ratio x y -> Forall zero y.
Proof.
  intros [Hr HT] Hx H. destruct Hr as [->|Hr].
  - unfold resample_any in H. cbn [Z.eqb Pos.eqb] in H. destruct md; now subst y.
  - refine (resample_any_closed (A := F32) zero (fun c => fin c) zero_closed f md p vec ratio x y _ Hx H).
    intros s Hs. specialize (HT ltac:(lia)). destruct f; cbn in HT.
    + pose proof (iir_coeffs_F md s p Hs HT) as F. induction F as [|c n l k [H1 _] F IH]; constructor; assumption.
    + pose proof (fir_coeffs_F md s p Hs HT) as F. induction F as [|c n l k [H1 _] F IH]; constructor; assumption.
Qed.
