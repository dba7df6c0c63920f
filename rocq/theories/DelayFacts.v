(** * delay(), evaluated in double precision for every configuration *)
From Coq Require Import ZArith Reals List Lia Lra Bool.
From Coq Require Import Floats.SpecFloat.
From Flocq Require Import Core BinarySingleNaN.
From Verif Require Import Arith ArithF Mem FirModel IirModel Tables ResamplerModel ResamplerOk Spec Feed.
Import ListNotations.
Open Scope Z_scope.

(** delay() returns the real number x, exactly *)
Definition delay_is (r : resampler) (x : R) : Prop :=
  exists d : b64, delay r = Ok d /\ is_finite d = true /\ B2R d = x.

Definition delay_SF (r : resampler) : option spec_float :=
  match delay r with Ok d => Some (B2SF d) | Err _ => None end.

(** sf is n/8 *)
Definition sf_is8 (sf : option spec_float) (n : Z) : bool :=
  match sf with
  | Some (S754_zero _) => n =? 0
  | Some (S754_finite false m e) => (e <=? -3) && (Zpos m =? n * 2 ^ (-3 - e))
  | _ => false
  end.

Lemma sf_is8_ok r n : sf_is8 (delay_SF r) n = true -> delay_is r (IZR n / 8).
Proof.
  unfold delay_SF, delay_is. destruct (delay r) as [d|]; [|discriminate]. intros H. exists d. split; [reflexivity|].
  rewrite <- is_finite_SF_B2SF, <- SF2R_B2SF. destruct (B2SF d) as [s|s| |[] m e]; cbn [sf_is8] in H; try discriminate.
  - apply Z.eqb_eq in H. subst n. split; [reflexivity|]. cbn. lra.
  - apply andb_prop in H. destruct H as [He H]. apply Z.leb_le in He. apply Z.eqb_eq in H. split; [reflexivity|].
    cbn [SF2R cond_Zopp]. unfold F2R. cbn [Fnum Fexp]. rewrite H, mult_IZR.
    change (IZR (2 ^ (-3 - e))) with (IZR (Zpower radix2 (-3 - e))). rewrite IZR_Zpower by lia.
    rewrite Rmult_assoc, <- bpow_plus. replace (-3 - e + e) with (-3) by lia. reflexivity.
Qed.

Definition fir_len (s prec : Z) : Z := match fir_table s prec with Some t => Z.of_nat (length t) | None => 0 end.

(** what FIR delays add up to, in eighths of a sample *)
Definition fir_delay8 (md : rmode) (ratio prec : Z) : Z :=
  let N s := fir_len s prec in
  match md with
  | UP => 8 * (if ratio =? 1 then 0 else if ratio =? 2 then N 2 - 1 else if ratio =? 4 then 2 * (N 2 - 1) + (N 4 - 1)
               else 2 * (2 * (N 2 - 1) + (N 4 - 1)) + (N 8 - 1))
  | DOWN => if ratio =? 1 then 0 else if ratio =? 2 then 4 * (N 2 - 1) else if ratio =? 4 then 4 * (N 2 - 1) + 2 * (N 4 - 1)
            else 4 * (N 2 - 1) + 2 * (N 4 - 1) + (N 8 - 1)
  end.

Lemma delay_ratio1 plat id md prec use_sse f : delay (built plat id md 1 prec use_sse f) = Ok (b64_dy 0 0).
Proof. destruct md; reflexivity. Qed.

Lemma fir_delay_is plat id md ratio prec use_sse : valid FILTER_FIR ratio prec ->
  delay_is (built plat id md ratio prec use_sse FILTER_FIR) (IZR (fir_delay8 md ratio prec) / 8).
Proof.
  intros [Hr HT]. apply sf_is8_ok.
  destruct Hr as [->|Hr].
  - unfold delay_SF. rewrite delay_ratio1. destruct md; reflexivity.
  - assert (HP : fir_prec prec) by (apply HT; lia). clear HT.
    generalize (sse_available plat && use_sse) as v. intros _.
    destruct HP as [->|[->|[->|[->|[->| ->]]]]], Hr as [->|[->| ->]], md; vm_compute; reflexivity.
Qed.

(** IIR: finite and positive *)
Definition sf_pos (sf : option spec_float) : bool :=
  match sf with Some (S754_finite false _ _) => true | _ => false end.
Lemma sf_pos_ok r : sf_pos (delay_SF r) = true -> exists x, delay_is r x /\ (0 < x)%R.
Proof.
  unfold delay_SF, delay_is. destruct (delay r) as [d|]; [|discriminate]. intros H. exists (B2R d). split.
  - exists d. split; [reflexivity|]. split; [|reflexivity].
    rewrite <- is_finite_SF_B2SF. destruct (B2SF d) as [s|s| |[] m e]; cbn in *; congruence.
  - rewrite <- SF2R_B2SF. destruct (B2SF d) as [s|s| |[] m e]; cbn [sf_pos] in H; try discriminate.
    cbn [SF2R cond_Zopp]. apply F2R_gt_0. reflexivity.
Qed.

Lemma iir_delay_pos plat id md ratio prec use_sse : valid FILTER_IIR ratio prec -> 2 <= ratio ->
  exists x, delay_is (built plat id md ratio prec use_sse FILTER_IIR) x /\ (0 < x)%R.
Proof.
  intros [Hr HT] H2. apply sf_pos_ok. assert (HP : iir_prec prec) by (apply HT; lia). clear HT.
  assert (E : delay_SF (built plat id md ratio prec use_sse FILTER_IIR) =
              delay_SF (built (Platform false false) 0 md ratio prec false FILTER_IIR)).
  { unfold delay_SF, delay, built, stage_impl. cbn [r_mode r_ratio impl_x2 impl_x4 impl_x8 has_sse andb].
    destruct Hr as [->|[->|[->| ->]]]; [lia| | |]; cbn [Z.leb Z.compare Pos.compare Pos.compare_cont Z.ltb rderef];
    destruct HP as [->|[->|[->|[->| ->]]]]; cbv [iir_table]; cbn [Z.eqb Pos.eqb andb rderef];
    destruct (has_sse plat && use_sse), md; cbn [rbind rderef impl_delay]; reflexivity. }
  rewrite E. destruct HP as [->|[->|[->|[->| ->]]]], Hr as [->|[->|[->| ->]]], md; try lia; vm_compute; reflexivity.
Qed.

(** the IIR delays are not multiples of one half *)
Lemma iir_delay_not_half plat id use_sse :
  exists x, delay_is (built plat id UP 2 PREC_48DB use_sse FILTER_IIR) x /\ forall k : Z, (x <> IZR k / 2)%R.
Proof.
  exists (F2R (Float radix2 7879921246412393 (-52))). split.
  - assert (E : delay_SF (built plat id UP 2 PREC_48DB use_sse FILTER_IIR) = Some (S754_finite false 7879921246412393 (-52))).
    { unfold delay_SF, delay, built, stage_impl. cbn [r_mode r_ratio impl_x2 impl_x4 impl_x8]. cbv [iir_table PREC_48DB].
      cbn [Z.ltb Z.compare Pos.compare Pos.compare_cont Z.eqb Pos.eqb andb].
      destruct (has_sse plat && use_sse); vm_compute; reflexivity. }
    unfold delay_SF in E. destruct (delay _) as [d|] eqn:Ed; [|discriminate].
    exists d. split; [exact Ed|]. assert (E' : B2SF d = S754_finite false 7879921246412393 (-52)) by congruence.
    rewrite <- is_finite_SF_B2SF, <- SF2R_B2SF, E'. split; reflexivity.
  - intros k E. unfold F2R in E. cbn [Fnum Fexp] in E.
    assert (E2 : (IZR 7879921246412393 = IZR k * IZR (2 ^ 51))%R).
    { change (2 ^ 51) with (Zpower radix2 51). rewrite IZR_Zpower by lia.
      replace 51 with (-1 + 52) by lia. rewrite bpow_plus. change (bpow radix2 (-1)) with (/ 2)%R.
      apply Rmult_eq_reg_r with (bpow radix2 (-52)); [|apply Rgt_not_eq, bpow_gt_0].
      rewrite E. rewrite !Rmult_assoc, <- bpow_plus. replace (52 + -52) with 0 by lia. cbn [bpow]. lra. }
    rewrite <- mult_IZR in E2. apply eq_IZR in E2. lia.
Qed.
