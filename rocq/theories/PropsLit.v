(** * Properties: the coefficients in single precision *)
From Coq Require Import ZArith Reals List Lia Lra Bool ZifyNat ZifyBool.
From Flocq Require Import Core BinarySingleNaN Relative.
From Verif Require Import Arith ArithR ArithF Mem FirModel IirModel Tables ResamplerModel Wp Stage Cascade
  ResamplerProof ResamplerOk Spec SpecOk SpecR Client Feed StreamFacts DelayFacts ConfigFacts TablesF TableFacts FirReal FloatSum FloatFir FloatErr Cases
  LitProof Impulse.
Import ListNotations.
Open Scope Z_scope.

(** ** C75 *)

(** The conversion of a decimal literal to double and, after scaling, to float, as modelled in
    Arith.v with integers, is two correctly rounded conversions (and an exact multiplication). *)
Theorem C75_conversion d k : k = 0 \/ k = 1 ->
  let v := (IZR (dmant d) * powerRZ 10 (dexp d))%R in
  let double := round radix2 (FLT_exp (-1074) 53) ZnearestE in
  let single := round radix2 (FLT_exp (-149) 24) ZnearestE in
  (/ 2 ^ 100 <= Rabs v <= 2 ^ 100)%R ->
  is_finite (lit (A := F32) d k : b32) = true /\
  B2R (lit (A := F32) d k : b32) = single (double (double v * 2 ^ Z.to_nat k)%R).
Proof.
  intros Hk v double single Hv. destruct (lit_correct d k Hk) as [F V].
  { rewrite (pow_IZR 2 100) in Hv. exact Hv. }
  split; [exact F|]. rewrite V. destruct Hk as [->| ->]; [reflexivity|]. change (bpow radix2 1) with 2%R. change (Z.to_nat 1) with 1%nat. rewrite pow_1. reflexivity.
Qed.

(** For every literal in the tables this is the float nearest to the literal (the detour through
    double is harmless). *)
Theorem C75_nearest s p d k : stage_no s -> In p [1; 8; 12; 16; 20; 24] -> k = 0 \/ k = 1 ->
  (exists t, fir_table s p = Some t /\ In d t) \/ (exists t o, iir_table s p = Some (t, o) /\ In d t) ->
  let v := (IZR (dmant d) * powerRZ 10 (dexp d) * 2 ^ Z.to_nat k)%R in
  is_finite (lit (A := F32) d k : b32) = true /\
  B2R (lit (A := F32) d k : b32) = round radix2 (FLT_exp (-149) 24) ZnearestE v /\
  (Rabs (B2R (lit (A := F32) d k : b32) - v) <= / 2 ^ 24 * Rabs v)%R.
Proof.
  intros Hs Hp Hk Ht v.
  assert (Hd : In d all_tables).
  { apply (in_tables s p d Hs Hp). destruct Ht as [(t & E & I)|(t & o & E & I)]; rewrite E; auto. }
  assert (EV : v = (dec_val d * bpow radix2 k)%R).
  { unfold v, dec_val. destruct Hk as [->| ->]; [reflexivity|]. change (bpow radix2 1) with 2%R. change (Z.to_nat 1) with 1%nat. rewrite pow_1. reflexivity. }
  destruct (lit_once d k Hd Hk) as (F & V & _). rewrite EV. split; [exact F|]. split; [exact V|]. rewrite V.
  pose proof all_moderate as M. rewrite forallb_forall in M. destruct (moderate_range d (M d Hd)) as [R1 _].
  assert (R2 : (bpow radix2 (-100) <= Rabs (dec_val d * bpow radix2 k))%R).
  { rewrite Rabs_mult, (Rabs_pos_eq (bpow radix2 k)) by apply bpow_ge_0. pose proof (bpow_gt_0 radix2 (-100)).
    assert (K1 : (1 <= bpow radix2 k)%R) by (destruct Hk as [->| ->]; cbn; lra). nra. }
  pose proof (relative_error_N_FLT radix2 (-149) 24 eq_refl (fun x => negb (Z.even x)) (dec_val d * bpow radix2 k)) as RE.
  specialize (RE ltac:(apply Rle_trans with (2 := R2), bpow_le; lia)).
  change (bpow radix2 (-24 + 1)) with (/ IZR (2 ^ 23))%R in RE. rewrite (pow_IZR 2 24).
  assert (Q : (/ IZR (2 ^ Z.of_nat 24) = / 2 * / IZR (2 ^ 23))%R) by (change (2 ^ Z.of_nat 24) with (2 * 2 ^ 23); rewrite mult_IZR; apply Rinv_mult).
  rewrite Q. exact RE.
Qed.

(** The taps are what comes out for a unit impulse, exactly, with any order of additions: a 2x FIR
    upsampler gives the doubled literals in reversed order, each rounded once, alternating with the
    impulse itself, delayed; *)
Theorem C75_impulse_up plat st (m : mem F32) id o t k :
  reach plat st m -> st id = Some o ->
  let r := o_res o in
  r_filter r = FILTER_FIR -> r_mode r = UP -> r_ratio r = 2 -> fir_table 2 (r_prec r) = Some t ->
  0 <= k < size (o_in o) ->
  (forall i, 0 <= i < size (o_in o) -> is_finite (smp (o_in o) i : b32) = true /\ B2R (smp (o_in o) i : b32) = if i =? k then 1%R else 0%R) ->
  let N := Z.of_nat (length t) in
  let tap i := if (0 <=? i) && (i <? N) then (IZR (dmant (nth (Z.to_nat i) t (Dec 0 0))) * powerRZ 10 (dexp (nth (Z.to_nat i) t (Dec 0 0))))%R else 0%R in
  forall j, 0 <= j < size (o_in o) ->
    is_finite (smp (o_out o) (2 * j) : b32) = true /\
    B2R (smp (o_out o) (2 * j) : b32) = round radix2 (FLT_exp (-149) 24) ZnearestE (tap (N - 1 - (j - k)%Z)%Z * 2) /\
    is_finite (smp (o_out o) (2 * j + 1) : b32) = true /\
    B2R (smp (o_out o) (2 * j + 1) : b32) = if j =? k + N / 2 - 1 then 1%R else 0%R.
Proof.
  intros H E r Hf Hm Hn Ht Hk Hx N tap j Hj. destruct (reach_built plat _ _ _ _ H E) as [_ V]. fold r in V. rewrite Hf, Hn in V.
  destruct V as [_ V]. specialize (V ltac:(lia)).
  pose proof (reach_resample_any plat _ _ _ _ H E) as R. cbn zeta in R. fold r in R. rewrite Hf, Hm, Hn in R. unfold resample_any in R. cbn [Z.eqb Pos.eqb] in R.
  destruct (up_impulse _ 2 (r_prec r) t (o_in o) (o_out o) k (or_introl eq_refl) V Ht (conj Hk Hx) R j Hj) as [[F1 V1] [F2 V2]].
  repeat split; assumption.
Qed.

(** a 2x FIR downsampler gives the literals, each rounded once, if the impulse is at an even index
    and one half if it is at an odd index. *)
Theorem C75_impulse_down plat st (m : mem F32) id o t k :
  reach plat st m -> st id = Some o ->
  let r := o_res o in
  r_filter r = FILTER_FIR -> r_mode r = DOWN -> r_ratio r = 2 -> fir_table 2 (r_prec r) = Some t ->
  0 <= k < size (o_in o) ->
  (forall i, 0 <= i < size (o_in o) -> is_finite (smp (o_in o) i : b32) = true /\ B2R (smp (o_in o) i : b32) = if i =? k then 1%R else 0%R) ->
  let N := Z.of_nat (length t) in
  let tap i := if (0 <=? i) && (i <? N) then (IZR (dmant (nth (Z.to_nat i) t (Dec 0 0))) * powerRZ 10 (dexp (nth (Z.to_nat i) t (Dec 0 0))))%R else 0%R in
  forall j, 0 <= j < size (o_out o) ->
    is_finite (smp (o_out o) j : b32) = true /\
    B2R (smp (o_out o) j : b32) =
      if Z.even k then round radix2 (FLT_exp (-149) 24) ZnearestE (tap (N - 1 - (j - k / 2)))
      else if j =? k / 2 + N / 2 then (1 / 2)%R else 0%R.
Proof.
  intros H E r Hf Hm Hn Ht Hk Hx N tap j Hj. destruct (reach_built plat _ _ _ _ H E) as [_ V]. fold r in V. rewrite Hf, Hn in V.
  destruct V as [_ V]. specialize (V ltac:(lia)).
  pose proof (reach_resample_any plat _ _ _ _ H E) as R. cbn zeta in R. fold r in R. rewrite Hf, Hm, Hn in R. unfold resample_any in R. cbn [Z.eqb Pos.eqb] in R.
  exact (down_impulse _ 2 (r_prec r) t (o_in o) (o_out o) k (or_introl eq_refl) V Ht (conj Hk Hx) R j Hj).
Qed.

(** an impulse among 2 * 52 samples, for each mode; the tap in the middle of the table for 144 dB *)
Example C75_case plat md (vec : bool) : exists st (m : mem F32) o, reach plat st m /\ st 0 = Some o /\
  r_filter (o_res o) = FILTER_FIR /\ r_mode (o_res o) = md /\ r_ratio (o_res o) = 2 /\ r_prec (o_res o) = PREC_144DB /\ r_use_sse (o_res o) = vec /\ size (o_in o) = 104 /\
  forall i, 0 <= i < size (o_in o) -> is_finite (smp (o_in o) i : b32) = true /\ B2R (smp (o_in o) i : b32) = if i =? 2 then 1%R else 0%R.
Proof.
  destruct (some_obj (A := F32) plat md 2 PREC_144DB vec FILTER_FIR 0 [(0, @f0 F32 :: @f0 F32 :: @f1 F32 :: repeat (@f0 F32) 101)]) as (st & m & o & H & E & R & I).
  { destruct md; reflexivity. }
  exists st, m, o. rewrite R, I. repeat (split; [assumption || reflexivity|]).
  intros i Hi. cbn [map concat snd] in *. rewrite app_nil_r in *. unfold size in Hi. cbn [length] in Hi. rewrite repeat_length in Hi.
  assert (D : i = 0 \/ i = 1 \/ i = 2 \/ 3 <= i) by lia. destruct D as [->|[->|[->|D]]].
  - split; reflexivity.
  - split; reflexivity.
  - split; [reflexivity|]. change (smp (@f0 F32 :: @f0 F32 :: @f1 F32 :: repeat (@f0 F32) 101) 2) with (@f1 F32). cbv. lra.
  - unfold smp. replace (i <? 0) with false by lia. replace (i =? 2) with false by lia.
    replace (Z.to_nat i) with (S (S (S (Z.to_nat (i - 3))))) by lia. cbn [nth]. rewrite nth_repeat. split; reflexivity.
Qed.
Example C75_case_literal : exists t, fir_table 2 PREC_144DB = Some t /\ length t = 52%nat /\ nth 25 t (Dec 0 0) = Dec (31748269557078473) (-17).
Proof. eexists. split; [reflexivity|]. split; reflexivity. Qed.

Print Assumptions C75_conversion.
Print Assumptions C75_nearest.
Print Assumptions C75_impulse_up.
Print Assumptions C75_impulse_down.
