(** * delay() of IIR resamplers and the group delay of the filters *)
From Coq Require Import ZArith Reals List Lia Lra Psatz Bool ZifyNat ZifyBool.
From Coq Require Import Floats.SpecFloat.
From Flocq Require Import Core BinarySingleNaN.
From Interval Require Import Tactic.
From Verif Require Import Arith ArithR ArithF Tables ResamplerModel ResamplerProof ResamplerOk Spec SpecOk SpecR Client Feed DelayFacts Twin TablesF IirReal IirPhase IirCert IirLag IirFreq.
Import ListNotations.
Open Scope Z_scope.

(** ** The value of delay() *)
(** the group delay literals of pandaresampler.cc, in millionths *)
Definition gd6 (s p : Z) : Z := match iir_table s p with Some (_, Dec m e) => m * 10 ^ (6 + e) | None => 0 end.
(** what the delays add up to, in units of 1/8000000 *)
Definition iir_delay8 (md : rmode) (ratio p : Z) : Z :=
  match md with
  | UP => 8 * (if ratio =? 1 then 0 else if ratio =? 2 then gd6 2 p else if ratio =? 4 then 2 * gd6 2 p + gd6 4 p else 4 * gd6 2 p + 2 * gd6 4 p + gd6 8 p)
  | DOWN => if ratio =? 1 then 0 else if ratio =? 2 then 4 * (gd6 2 p - 1000000) else if ratio =? 4 then 4 * (gd6 2 p - 1000000) + 2 * (gd6 4 p - 1000000)
            else 4 * (gd6 2 p - 1000000) + 2 * (gd6 4 p - 1000000) + (gd6 8 p - 1000000)
  end.
Definition sf_near (sf : option spec_float) (n : Z) : bool :=
  match sf with
  | Some (S754_zero _) => n =? 0
  | Some (S754_finite false m e) => (e <=? 0) && (Z.abs (Zpos m * 8000000 - n * 2 ^ (- e)) * 10 ^ 12 <=? 8000000 * 2 ^ (- e))
  | _ => false
  end.
Lemma sf_near_ok r n : sf_near (delay_SF r) n = true -> exists D, delay_is r D /\ (Rabs (D - IZR n / 8000000) <= / 1000000000000)%R.
Proof.
  unfold delay_SF, delay_is. destruct (delay r) as [d|]; [|discriminate]. intros H. exists (B2R d). split.
  - exists d. split; [reflexivity|]. split; [|reflexivity].
    rewrite <- is_finite_SF_B2SF. destruct (B2SF d) as [s|s| |[] m e]; cbn in *; congruence.
  - rewrite <- SF2R_B2SF. destruct (B2SF d) as [s|s| |[] m e]; cbn [sf_near] in H; try discriminate.
    + apply Z.eqb_eq in H. subst n. cbn [SF2R]. replace (0 - 0 / 8000000)%R with 0%R by lra. rewrite Rabs_R0. lra.
    + apply andb_prop in H. destruct H as [He H]. apply Z.leb_le in He. apply Z.leb_le, IZR_le in H.
      cbn [SF2R cond_Zopp]. unfold F2R. cbn [Fnum Fexp]. rewrite mult_IZR, abs_IZR, minus_IZR, !mult_IZR in H.
      change (IZR (10 ^ 12)) with 1000000000000%R in H.
      assert (B : (IZR (2 ^ (- e)) * bpow radix2 e = 1)%R).
      { change (2 ^ (- e)) with (Zpower radix2 (- e)). rewrite IZR_Zpower by lia. rewrite <- bpow_plus. replace (- e + e) with 0 by lia. reflexivity. }
      set (b := bpow radix2 e) in *. set (q := IZR (2 ^ (- e))) in *. assert (b0 : (0 < b)%R) by apply bpow_gt_0. clearbody b q.
      assert (E : (IZR (Z.pos m) * b - IZR n / 8000000 = (IZR (Z.pos m) * 8000000 - IZR n * q) * (b / 8000000))%R).
      { replace ((IZR (Z.pos m) * 8000000 - IZR n * q) * (b / 8000000))%R with (IZR (Z.pos m) * b - IZR n * (q * b) / 8000000)%R by field. rewrite B. field. }
      rewrite E, Rabs_mult, (Rabs_pos_eq (b / 8000000)) by lra. set (z := Rabs _) in *. clearbody z.
      apply Rmult_le_reg_r with (1000000000000 * 8000000)%R; [lra|].
      replace (z * (b / 8000000) * (1000000000000 * 8000000))%R with (z * 1000000000000 * b)%R by field.
      replace (/ 1000000000000 * (1000000000000 * 8000000))%R with (8000000 * (q * b))%R by (rewrite B; field).
      rewrite <- Rmult_assoc. apply Rmult_le_compat_r; lra.
Qed.
Lemma iir_delay_exists plat id md ratio prec use_sse : valid FILTER_IIR ratio prec ->
  exists D, delay_is (built plat id md ratio prec use_sse FILTER_IIR) D /\ (Rabs (D - IZR (iir_delay8 md ratio prec) / 8000000) <= / 1000000000000)%R.
Proof.
  intros [Hr HT].
  assert (K : sf_near (delay_SF (built plat id md ratio prec use_sse FILTER_IIR)) (iir_delay8 md ratio prec) = true).
  { destruct (Z.eq_dec ratio 1) as [->|H1].
    - unfold delay_SF. rewrite delay_ratio1. destruct md; reflexivity.
    - assert (HP : iir_prec prec) by (apply HT; unfold ratio_no in Hr; lia). clear HT.
      assert (E : delay_SF (built plat id md ratio prec use_sse FILTER_IIR) =
                  delay_SF (built (Platform false false) 0 md ratio prec false FILTER_IIR)).
      { unfold delay_SF, delay, built, stage_impl. cbn [r_mode r_ratio impl_x2 impl_x4 impl_x8 has_sse andb].
        destruct Hr as [->|[->|[->| ->]]]; [lia| | |]; cbn [Z.leb Z.compare Pos.compare Pos.compare_cont Z.ltb rderef];
        destruct HP as [->|[->|[->|[->| ->]]]]; cbv [iir_table]; cbn [Z.eqb Pos.eqb andb rderef];
        destruct (has_sse plat && use_sse), md; cbn [rbind rderef impl_delay]; reflexivity. }
      rewrite E. destruct HP as [->|[->|[->|[->| ->]]]], Hr as [->|[->|[->| ->]]], md; try lia; vm_compute; reflexivity. }
  exact (sf_near_ok _ _ K).
Qed.
Lemma iir_delay_near plat id md ratio prec use_sse D : valid FILTER_IIR ratio prec ->
  delay_is (built plat id md ratio prec use_sse FILTER_IIR) D -> (Rabs (D - IZR (iir_delay8 md ratio prec) / 8000000) <= / 1000000000000)%R.
Proof.
  intros V HD. destruct (iir_delay_exists plat id md ratio prec use_sse V) as (D' & (d' & E' & _ & <-) & B). destruct HD as (d & E & _ & <-). congruence.
Qed.

(** ** The group delay up to 1 kHz (at a lower rate of 44.1 kHz) *)
Definition khz : R := (2 * PI * 1000 / 44100)%R.
Definition gd_lit (s p : Z) : R := (IZR (gd6 s p) / 1000000)%R.

(** up to 1 kHz *)
Definition gd_range (s : Z) : R := (if s =? 2 then 0.0114 else if s =? 4 then 0.00185 else 0.0097)%R.
(** at 1 kHz, in units of 10^-7 *)
Definition gd_exact (s p : Z) : R :=
  (if p =? 8 then (if s =? 2 then 0.0113 else if s =? 4 then 0.00185 else 0.0097)
   else if p =? 12 then (if s =? 2 then 3.9e-4 else if s =? 4 then 6.9e-5 else 1.04e-4)
   else if p =? 16 then (if s =? 2 then 6.6e-5 else if s =? 4 then 6.9e-5 else 1.04e-4)
   else if p =? 20 then (if s =? 2 then 1.6e-6 else if s =? 4 then 2.1e-6 else 5.7e-7)
   else (if s =? 2 then 3.7e-7 else if s =? 4 then 6e-8 else 5.7e-7))%R.

Fixpoint gsum (l : list Z) (x : R) : R :=
  match l with [] => (1 / 2)%R | n :: r => (let c := (IZR n / 281474976710656)%R in (1 - c * c) / (1 + c * c + 2 * c * x) + gsum r x)%R end.
Lemma grps_split (cs : list R) f : forall n, (length cs <= n)%nat -> (grps (evens cs) f + grps (odds cs) f = grps cs f)%R.
Proof.
  intros n. revert cs. induction n as [|n IH]; intros [|a [|b cs]] L; cbn [length] in L; try lia; cbn [evens odds grps]; try lra.
  rewrite <- (IH cs) by lia. lra.
Qed.
Lemma mean_grp_sum s p f : stage_no s -> iir_prec p -> mean_grp (cs_of p s) f = gsum (iir_ints s p) (cos (2 * f)).
Proof.
  intros Hs Hp. unfold mean_grp. rewrite (grps_split (cs_of p s) (2 * f) (length (cs_of p s))) by lia.
  assert (E : cs_of p s = map (coef : Z -> R) (iir_ints s p)) by (unfold cs_of; now apply iir_coeffs_R). rewrite E. clear E.
  induction (iir_ints s p) as [|n l IH]; cbn [map grps gsum]; [lra|]. rewrite Rplus_assoc, IH. cbv zeta. f_equal.


Qed.
Ltac lits := repeat match goal with |- context [IZR ?z] => let z' := eval vm_compute in z in tryif constr_eq z z' then fail else change (IZR z) with (IZR z') end.
Lemma gsum_range s p x : stage_no s -> iir_prec p -> (cos (2 * (khz / IZR s)) <= x <= 1)%R -> (Rabs (gsum (iir_ints s p) x - gd_lit s p) <= gd_range s)%R.
Proof.
  unfold stage_no, iir_prec, gd_lit, gd_range, khz. 
  intros [->|[->| ->]] [->|[->|[->|[->| ->]]]] Hx; cbn [Z.eqb Pos.eqb];
  match goal with |- context [gsum ?l x] => let v := eval vm_compute in l in change l with v end;
  match goal with |- context [gd6 ?a ?b] => let v := eval vm_compute in (gd6 a b) in change (gd6 a b) with v end;
  cbn [gsum]; cbv zeta; 
  match type of Hx with (?c <= _ <= _)%R => assert (Hc : (0.98 <= x <= 1)%R) by (split; [eapply Rle_trans; [|exact (proj1 Hx)]; interval with (i_prec 60) | exact (proj2 Hx)]) end;
  idtac.
  all: match type of Hx with (?c <= _ <= _)%R => 
    first [assert (Hd : (0.98986 <= c)%R) by interval with (i_prec 60); assert (Hd' : (c < 0.992)%R) by interval with (i_prec 60)
          |assert (Hd : (0.99746 <= c)%R) by interval with (i_prec 60); assert (Hd' : (c < 0.998)%R) by interval with (i_prec 60)
          |assert (Hd : (0.99936 <= c)%R) by interval with (i_prec 60)] end.
  all: match type of Hd with (?v <= _)%R => assert (Hv : (v <= x <= 1)%R) by lra end; clear Hx Hc Hd; try clear Hd'.
  all: interval with (i_prec 60).
Qed.
Lemma gsum_1k s p : stage_no s -> iir_prec p -> (Rabs (gsum (iir_ints s p) (cos (2 * (khz / IZR s))) - gd_lit s p) <= gd_exact s p)%R.
Proof.
  unfold stage_no, iir_prec, gd_lit, gd_exact, khz. 
  intros [->|[->| ->]] [->|[->|[->|[->| ->]]]]; cbn [Z.eqb Pos.eqb];
  match goal with |- context [gsum ?l _] => let v := eval vm_compute in l in change l with v end;
  match goal with |- context [gd6 ?a ?b] => let v := eval vm_compute in (gd6 a b) in change (gd6 a b) with v end;
  cbn [gsum]; cbv zeta; interval with (i_prec 60).
Qed.

Lemma mean_lag_lit s p f : stage_no s -> iir_prec p -> (Rabs f <= khz / IZR s)%R ->
  (Rabs (mean_lag (cs_of p s) f - gd_lit s p * f) <= gd_range s * Rabs f)%R.
Proof.
  intros Hs Hp Hf. pose proof (iir_stage_unit UP s p Hs Hp) as U. pose proof PI_RGT_0 as P0.
  set (h := fun g => (mean_lag (cs_of p s) g - gd_lit s p * g)%R).
  assert (Hd : forall g, derivable_pt_lim h g (mean_grp (cs_of p s) g - gd_lit s p)%R).
  { intros g. apply (derivable_pt_lim_minus (mean_lag (cs_of p s)) (fun g => gd_lit s p * g)%R); [apply mean_lag_derive; exact U|].
    rewrite <- (Rmult_1_r (gd_lit s p)) at 1. apply (derivable_pt_lim_scal id (gd_lit s p) g 1). apply derivable_pt_lim_id. }
  assert (B : forall g, (Rabs g <= khz / IZR s)%R -> (Rabs (mean_grp (cs_of p s) g - gd_lit s p) <= gd_range s)%R).
  { intros g Hg. rewrite (mean_grp_sum s p g Hs Hp). apply gsum_range; try assumption. split; [|apply COS_bound].
    assert (K : (0 <= khz / IZR s <= PI / 2)%R).
    { unfold khz. assert (0 <= PI / 2)%R by lra. unfold stage_no in Hs. destruct Hs as [->|[->| ->]]; lra. }
    apply cos_between; rewrite !Rabs_mult, (Rabs_pos_eq 2), (Rabs_pos_eq (khz / IZR s)) by lra; lra. }
  assert (H0 : h 0%R = 0%R) by (unfold h; rewrite mean_lag_0; ring).
  fold (h f). destruct (Rtotal_order f 0) as [L|[->|L]].
  - destruct (MVT_cor2 h (fun g => mean_grp (cs_of p s) g - gd_lit s p)%R f 0 L ltac:(intros; apply Hd)) as (c & E & Hc). rewrite H0 in E.
    replace (h f) with ((mean_grp (cs_of p s) c - gd_lit s p) * f)%R by lra. rewrite Rabs_mult. apply Rmult_le_compat_r; [apply Rabs_pos|].
    apply B. rewrite Rabs_left in * by lra. lra.
  - rewrite H0, Rabs_R0. lra.
  - destruct (MVT_cor2 h (fun g => mean_grp (cs_of p s) g - gd_lit s p)%R 0 f L ltac:(intros; apply Hd)) as (c & E & Hc). rewrite H0 in E.
    replace (h f) with ((mean_grp (cs_of p s) c - gd_lit s p) * f)%R by lra. rewrite Rabs_mult. apply Rmult_le_compat_r; [apply Rabs_pos|].
    apply B. rewrite Rabs_pos_eq in * by lra. lra.
Qed.

(** the lag of the output is delay(), up to 1 kHz within 0.0074 samples at the lower rate *)
Definition delay_error : R := (74 / 10000)%R.
Lemma lag3 a b c x y z w l2 l4 l8 : (Rabs (a - l2 * (w / 2)) <= x * Rabs (w / 2) -> Rabs (b - l4 * (w / 4)) <= y * Rabs (w / 4) -> Rabs (c - l8 * (w / 8)) <= z * Rabs (w / 8) ->
  Rabs (a - l2 * (w / 2)) <= (x / 2) * Rabs w /\ Rabs (a + b - (l2 / 2 + l4 / 4) * w) <= (x / 2 + y / 4) * Rabs w /\
  Rabs (a + b + c - (l2 / 2 + l4 / 4 + l8 / 8) * w) <= (x / 2 + y / 4 + z / 8) * Rabs w)%R.
Proof.
  assert (A : forall k, (0 < k)%R -> Rabs (w / k) = (Rabs w / k)%R).
  { intros k Hk. unfold Rdiv. rewrite Rabs_mult. f_equal. apply Rabs_pos_eq. left. now apply Rinv_0_lt_compat. }
  rewrite !A by lra. intros H1 H2 H3. split; [lra|]. split.
  - replace (a + b - (l2 / 2 + l4 / 4) * w)%R with ((a - l2 * (w / 2)) + (b - l4 * (w / 4)))%R by lra.
    eapply Rle_trans; [apply Rabs_triang|]. lra.
  - replace (a + b + c - (l2 / 2 + l4 / 4 + l8 / 8) * w)%R with ((a - l2 * (w / 2)) + (b - l4 * (w / 4)) + (c - l8 * (w / 8)))%R by lra.
    eapply Rle_trans; [apply Rabs_triang|]. pose proof (Rabs_triang (a - l2 * (w / 2)) (b - l4 * (w / 4))). lra.
Qed.
Lemma up_shift_delay plat id ratio prec use_sse D w : valid FILTER_IIR ratio prec ->
  delay_is (built plat id UP ratio prec use_sse FILTER_IIR) D -> (Rabs w <= khz)%R ->
  (Rabs (up_shift prec ratio w - w * (D / IZR ratio)) <= delay_error * Rabs w)%R.
Proof.
  intros V HD Hw. pose proof (iir_delay_near _ _ _ _ _ _ _ V HD) as ED. destruct V as [Hra HT]. pose proof (Rabs_pos w) as W0.
  assert (S2 : stage_no 2) by (unfold stage_no; auto). assert (S4 : stage_no 4) by (unfold stage_no; auto).
  assert (S8 : stage_no 8) by (unfold stage_no; auto). unfold iir_delay8 in ED.
  assert (Split : forall D' q e, (Rabs (D - D') <= / 1000000000000)%R -> (Rabs (up_shift prec ratio w - q * w) <= e * Rabs w)%R -> (q = D' / IZR ratio)%R -> (1 <= IZR ratio)%R -> (e <= 0.00739)%R ->
    (Rabs (up_shift prec ratio w - w * (D / IZR ratio)) <= delay_error * Rabs w)%R).
  { intros D' q e H1 H2 -> H3 He. replace (up_shift prec ratio w - w * (D / IZR ratio))%R with ((up_shift prec ratio w - D' / IZR ratio * w) + - ((D - D') / IZR ratio * w))%R by (field; lra).
    eapply Rle_trans; [apply Rabs_triang|]. rewrite Rabs_Ropp, Rabs_mult. unfold Rdiv at 2. rewrite Rabs_mult, (Rabs_pos_eq (/ IZR ratio)) by (left; apply Rinv_0_lt_compat; lra).
    assert (I : (/ IZR ratio <= 1)%R) by (rewrite <- Rinv_1; apply Rinv_le; lra). assert (I0 : (0 <= / IZR ratio)%R) by (left; apply Rinv_0_lt_compat; lra).
    assert (J : (Rabs (D - D') * / IZR ratio <= 0.00001)%R).
    { apply Rle_trans with (/ 1000000000000 * 1)%R; [|lra]. apply Rmult_le_compat; try assumption. apply Rabs_pos. }
    assert (Rabs (D - D') * / IZR ratio * Rabs w <= 0.00001 * Rabs w)%R by (apply Rmult_le_compat_r; assumption).
    assert (e * Rabs w <= 0.00739 * Rabs w)%R by (apply Rmult_le_compat_r; lra). unfold delay_error. lra. }
  destruct Hra as [->|Hra].
  - apply (Split _ 0%R 0%R ED); try (cbn; lra). unfold up_shift. cbn [Z.eqb Pos.eqb]. replace (0 - 0 * w)%R with 0%R by ring. rewrite Rabs_R0. lra.
  - assert (HP : iir_prec prec) by (apply HT; lia). clear HT.
    assert (A : forall k, (0 < k)%R -> Rabs (w / k) = (Rabs w / k)%R).
    { intros k Hk. unfold Rdiv. rewrite Rabs_mult. f_equal. apply Rabs_pos_eq. left. now apply Rinv_0_lt_compat. }
    pose proof (mean_lag_lit 2 prec (w / 2) S2 HP ltac:(rewrite A; lra)) as L2. pose proof (mean_lag_lit 4 prec (w / 4) S4 HP ltac:(rewrite A; lra)) as L4.
    pose proof (mean_lag_lit 8 prec (w / 8) S8 HP ltac:(rewrite A; lra)) as L8.
    destruct (lag3 _ _ _ _ _ _ _ _ _ _ L2 L4 L8) as (G2 & G4 & G8). clear L2 L4 L8.
    change (gd_range 2) with 0.0114%R in *. change (gd_range 4) with 0.00185%R in *. change (gd_range 8) with 0.0097%R in *. unfold gd_lit in *.
    destruct Hra as [->|[->| ->]]; cbn [Z.eqb Pos.eqb] in ED; rewrite ?mult_IZR, ?plus_IZR, ?mult_IZR in ED.
    + apply (Split _ (IZR (gd6 2 prec) / 1000000 / 2)%R (0.0114 / 2)%R ED); try lra.
      unfold up_shift. cbn [Z.eqb Pos.eqb]. replace (IZR (gd6 2 prec) / 1000000 / 2 * w)%R with (IZR (gd6 2 prec) / 1000000 * (w / 2))%R by lra. exact G2.
    + apply (Split _ _ _ ED G4); lra.
    + apply (Split _ _ _ ED G8); lra.
Qed.
Lemma down_shift_delay plat id ratio prec use_sse D w : valid FILTER_IIR ratio prec ->
  delay_is (built plat id DOWN ratio prec use_sse FILTER_IIR) D -> (Rabs (IZR ratio * w) <= khz)%R ->
  (Rabs (down_shift prec ratio w - IZR ratio * w * D) <= delay_error * Rabs (IZR ratio * w))%R.
Proof.
  intros V HD Hw. pose proof (iir_delay_near _ _ _ _ _ _ _ V HD) as ED. destruct V as [Hra HT]. set (W := (IZR ratio * w)%R) in *. pose proof (Rabs_pos W) as W0.
  assert (S2 : stage_no 2) by (unfold stage_no; auto). assert (S4 : stage_no 4) by (unfold stage_no; auto).
  assert (S8 : stage_no 8) by (unfold stage_no; auto). unfold iir_delay8 in ED.
  assert (Split : forall D' e, (Rabs (D - D') <= / 1000000000000)%R -> (Rabs (down_shift prec ratio w - D' * W) <= e * Rabs W)%R -> (e <= 0.00739)%R ->
    (Rabs (down_shift prec ratio w - W * D) <= delay_error * Rabs W)%R).
  { intros D' e H1 H2 He. replace (down_shift prec ratio w - W * D)%R with ((down_shift prec ratio w - D' * W) + - ((D - D') * W))%R by ring.
    eapply Rle_trans; [apply Rabs_triang|]. rewrite Rabs_Ropp, Rabs_mult.
    assert (Rabs (D - D') * Rabs W <= 0.00001 * Rabs W)%R by (apply Rmult_le_compat_r; lra).
    assert (e * Rabs W <= 0.00739 * Rabs W)%R by (apply Rmult_le_compat_r; lra). unfold delay_error. lra. }
  destruct Hra as [->|Hra].
  - apply (Split _ 0%R ED); try (cbn; lra). unfold down_shift. cbn [Z.eqb Pos.eqb]. replace (0 - 0 / 8000000 * W)%R with 0%R by lra. rewrite Rabs_R0. lra.
  - assert (HP : iir_prec prec) by (apply HT; lia). clear HT.
    assert (A : forall k, (0 < k)%R -> Rabs (W / k) = (Rabs W / k)%R).
    { intros k Hk. unfold Rdiv. rewrite Rabs_mult. f_equal. apply Rabs_pos_eq. left. now apply Rinv_0_lt_compat. }
    pose proof (mean_lag_lit 2 prec (W / 2) S2 HP ltac:(rewrite A; lra)) as L2. pose proof (mean_lag_lit 4 prec (W / 4) S4 HP ltac:(rewrite A; lra)) as L4.
    pose proof (mean_lag_lit 8 prec (W / 8) S8 HP ltac:(rewrite A; lra)) as L8.
    destruct (lag3 _ _ _ _ _ _ _ _ _ _ L2 L4 L8) as (G2 & G4 & G8). clear L2 L4 L8.
    change (gd_range 2) with 0.0114%R in *. change (gd_range 4) with 0.00185%R in *. change (gd_range 8) with 0.0097%R in *. unfold gd_lit in *.
    destruct Hra as [->|[->| ->]]; cbn [Z.eqb Pos.eqb] in ED; rewrite ?plus_IZR, ?mult_IZR, ?minus_IZR in ED; unfold down_shift in *; cbn [Z.eqb Pos.eqb] in *; unfold W in *.
    + apply (Split _ (0.0114 / 2)%R ED); [|lra]. eapply Rle_trans; [|exact G2]. apply Req_le. f_equal. replace (2 * w / 2)%R with w by lra. lra.
    + apply (Split _ (0.0114 / 2 + 0.00185 / 4)%R ED); [|lra]. eapply Rle_trans; [|exact G4]. apply Req_le. f_equal. replace (4 * w / 2)%R with (2 * w)%R by lra. replace (4 * w / 4)%R with w by lra. lra.
    + apply (Split _ (0.0114 / 2 + 0.00185 / 4 + 0.0097 / 8)%R ED); [|lra]. eapply Rle_trans; [|exact G8]. apply Req_le. f_equal.
      replace (8 * w / 2)%R with (4 * w)%R by lra. replace (8 * w / 4)%R with (2 * w)%R by lra. replace (8 * w / 8)%R with w by lra. lra.
Qed.

(** ** At 1 kHz *)
(** derivative of the lag of the output with respect to the frequency at the lower rate *)
Definition lag_grp (p ratio : Z) (w : R) : R :=
  let g s := (mean_grp (cs_of p s) (w / IZR s) / IZR s)%R in
  (if ratio =? 1 then 0 else if ratio =? 2 then g 2%Z else if ratio =? 4 then g 2%Z + g 4%Z else g 2%Z + g 4%Z + g 8%Z)%R.
Lemma scaled_derive s p w : stage_no s -> iir_prec p ->
  derivable_pt_lim (fun w => mean_lag (cs_of p s) (w / IZR s)%R) w (mean_grp (cs_of p s) (w / IZR s) / IZR s)%R.
Proof.
  intros Hs Hp. apply (derivable_pt_lim_comp (fun w => w / IZR s)%R (mean_lag (cs_of p s))); [|apply mean_lag_derive; exact (iir_stage_unit UP s p Hs Hp)].
  rewrite <- (Rmult_1_l (/ IZR s)).
  replace (1 * / IZR s)%R with (1 * / IZR s + w * 0)%R by ring.
  apply (derivable_pt_lim_mult id (fct_cte (/ IZR s))); [apply derivable_pt_lim_id | apply derivable_pt_lim_const].
Qed.
Lemma up_shift_derive p ratio w : valid FILTER_IIR ratio p -> derivable_pt_lim (up_shift p ratio) w (lag_grp p ratio w).
Proof.
  intros [Hra HT].
  assert (S2 : stage_no 2) by (unfold stage_no; auto). assert (S4 : stage_no 4) by (unfold stage_no; auto).
  assert (S8 : stage_no 8) by (unfold stage_no; auto).
  destruct Hra as [->|Hra]; [unfold up_shift, lag_grp; cbn [Z.eqb Pos.eqb]; apply derivable_pt_lim_const|].
  assert (HP : iir_prec p) by (apply HT; lia).
  destruct Hra as [->|[->| ->]]; unfold up_shift, lag_grp; cbn [Z.eqb Pos.eqb]; cbv zeta.
  - exact (scaled_derive 2 p w S2 HP).
  - exact (derivable_pt_lim_plus _ _ w _ _ (scaled_derive 2 p w S2 HP) (scaled_derive 4 p w S4 HP)).
  - exact (derivable_pt_lim_plus _ _ w _ _ (derivable_pt_lim_plus _ _ w _ _ (scaled_derive 2 p w S2 HP) (scaled_derive 4 p w S4 HP)) (scaled_derive 8 p w S8 HP)).
Qed.
(** the lag of a downsampler is that of an upsampler, less one sample of each higher rate *)
Definition less_one (ratio : Z) : R := (if ratio =? 1 then 0 else if ratio =? 2 then 1 / 2 else if ratio =? 4 then 3 / 4 else 7 / 8)%R.
Lemma down_up_shift p ratio w : valid FILTER_IIR ratio p -> down_shift p ratio (w / IZR ratio) = (up_shift p ratio w - less_one ratio * w)%R.
Proof.
  intros [Hra _]. unfold ratio_no in Hra. destruct Hra as [->|[->|[->| ->]]]; unfold up_shift, down_shift, less_one; cbn [Z.eqb Pos.eqb].
  - lra.
  - lra.
  - replace (2 * (w / 4))%R with (w / 2)%R by lra. lra.
  - replace (4 * (w / 8))%R with (w / 2)%R by lra. replace (2 * (w / 8))%R with (w / 4)%R by lra. lra.
Qed.
Lemma down_shift_derive p ratio w : valid FILTER_IIR ratio p ->
  derivable_pt_lim (fun w => down_shift p ratio (w / IZR ratio)%R) w (lag_grp p ratio w - less_one ratio)%R.
Proof.
  intros V. assert (E : derivable_pt_lim (fun w => up_shift p ratio w - less_one ratio * w)%R w (lag_grp p ratio w - less_one ratio)%R).
  { apply (derivable_pt_lim_minus (up_shift p ratio) (fun w => less_one ratio * w)%R); [now apply up_shift_derive|].
    rewrite <- (Rmult_1_r (less_one ratio)) at 1. apply (derivable_pt_lim_scal id (less_one ratio) w 1). apply derivable_pt_lim_id. }
  intros eps He. destruct (E eps He) as [d Hd]. exists d. intros h H0 Hh. rewrite !down_up_shift by exact V. now apply Hd.
Qed.
(** in samples at the lower rate *)
Definition gd_tolerance (p : Z) : R :=
  (if p =? PREC_48DB then 7.4e-3 else if p =? PREC_72DB then 2.3e-4 else if p =? PREC_96DB then 6.4e-5 else if p =? PREC_120DB then 1.5e-6 else 2.8e-7)%R.
Lemma lag_grp_1k p ratio : valid FILTER_IIR ratio p ->
  let N := (IZR (if ratio =? 1 then 0 else if ratio =? 2 then 4 * gd6 2 p else if ratio =? 4 then 4 * gd6 2 p + 2 * gd6 4 p else 4 * gd6 2 p + 2 * gd6 4 p + gd6 8 p) / 8000000)%R in
  (Rabs (lag_grp p ratio khz - N) <= gd_tolerance p - 1e-9)%R.
Proof.
  intros [Hra HT] N. unfold N. clear N.
  assert (S2 : stage_no 2) by (unfold stage_no; auto). assert (S4 : stage_no 4) by (unfold stage_no; auto).
  assert (S8 : stage_no 8) by (unfold stage_no; auto).
  destruct Hra as [->|Hra].
  { unfold lag_grp. cbn [Z.eqb Pos.eqb]. replace (0 - 0 / 8000000)%R with 0%R by lra. rewrite Rabs_R0. unfold gd_tolerance.
    destruct (p =? PREC_48DB), (p =? PREC_72DB), (p =? PREC_96DB), (p =? PREC_120DB); lra. }
  assert (HP : iir_prec p) by (apply HT; lia). clear HT.
  pose proof (gsum_1k 2 p S2 HP) as G2. pose proof (gsum_1k 4 p S4 HP) as G4. pose proof (gsum_1k 8 p S8 HP) as G8.
  rewrite <- (mean_grp_sum 2 p _ S2 HP) in G2. rewrite <- (mean_grp_sum 4 p _ S4 HP) in G4. rewrite <- (mean_grp_sum 8 p _ S8 HP) in G8.
  unfold lag_grp. cbv zeta. set (g2 := mean_grp (cs_of p 2) (khz / 2)) in *. set (g4 := mean_grp (cs_of p 4) (khz / 4)) in *. set (g8 := mean_grp (cs_of p 8) (khz / 8)) in *.
  unfold gd_lit in *. apply Rabs_le_inv in G2, G4, G8.
  assert (T : (gd_exact 2 p / 2 + gd_exact 4 p / 4 + gd_exact 8 p / 8 <= gd_tolerance p - 1e-9)%R /\ (0 <= gd_exact 2 p)%R /\ (0 <= gd_exact 4 p)%R /\ (0 <= gd_exact 8 p)%R).
  { unfold gd_exact, gd_tolerance, PREC_48DB, PREC_72DB, PREC_96DB, PREC_120DB. destruct HP as [->|[->|[->|[->| ->]]]]; cbn [Z.eqb Pos.eqb]; repeat split; lra. }
  apply Rabs_le.
  destruct Hra as [->|[->| ->]]; cbn [Z.eqb Pos.eqb]; rewrite ?plus_IZR, ?mult_IZR; lra.
Qed.
Lemma group_delay_1k plat id md ratio prec use_sse D : valid FILTER_IIR ratio prec ->
  delay_is (built plat id md ratio prec use_sse FILTER_IIR) D ->
  match md with
  | UP => (Rabs (lag_grp prec ratio khz - D / IZR ratio) <= gd_tolerance prec)%R
  | DOWN => (Rabs (lag_grp prec ratio khz - less_one ratio - D) <= gd_tolerance prec)%R
  end.
Proof.
  intros V HD. pose proof (iir_delay_near _ _ _ _ _ _ _ V HD) as ED. pose proof (lag_grp_1k prec ratio V) as G. cbv zeta in G.
  destruct V as [Hra _]. unfold ratio_no in Hra. apply Rabs_le_inv in ED, G. unfold iir_delay8 in ED.
  destruct md, Hra as [->|[->|[->| ->]]]; unfold less_one; cbn [Z.eqb Pos.eqb] in *; repeat rewrite ?plus_IZR, ?mult_IZR, ?minus_IZR in ED; repeat rewrite ?plus_IZR, ?mult_IZR in G; apply Rabs_le; lra.
Qed.
