(** * Properties: construction and queries

    [construct plat id mode ratio prec use_sse filter] is the constructor; the
    flag it returns with the object is false if a PANDA_RESAMPLER_CHECK failed. *)
From Coq Require Import ZArith Reals List Lia Lra Bool ZifyNat ZifyBool String.
From Verif Require Import Arith ArithF Mem FirModel IirModel Tables ResamplerModel Wp Cascade
  ResamplerProof ResamplerOk Spec Client Feed DelayFacts ConfigFacts.
Import ListNotations.
Open Scope Z_scope.

(** the six enumerators of Precision (pandaresampler.hh:144-152) *)
Definition precisions : list Z := [PREC_LINEAR; PREC_48DB; PREC_72DB; PREC_96DB; PREC_120DB; PREC_144DB].

Lemma has_tables_enum f prec : has_tables f prec <-> In prec precisions /\ ~ (f = FILTER_IIR /\ prec = PREC_LINEAR).
Proof.
  unfold has_tables, fir_prec, iir_prec, precisions, PREC_LINEAR, PREC_48DB, PREC_72DB, PREC_96DB, PREC_120DB, PREC_144DB.
  cbn [In]. destruct f; split.
  - intros H. split; [lia|]. intros [_ ->]. lia.
  - intros [H N]. assert (prec <> 1) by (intros ->; now apply N). lia.
  - intros H. split; [lia|]. intros [Q _]. discriminate.
  - intros [H N]. lia.
Qed.

(** ** C18 *)
Theorem C18_constructible {A : arith} plat id md ratio prec use_sse f (m : mem A) : 0 <= ratio ->
  exists r ok m', construct plat id md ratio prec use_sse f m = Ok ((r, ok), m') /\
    (forall b i, ~ own id b -> m' b i = m b i) /\
    (ok = true <->
       (ratio = 1 \/ ratio = 2 \/ ratio = 4 \/ ratio = 8) /\
       (ratio <> 1 -> In prec precisions /\ ~ (f = FILTER_IIR /\ prec = PREC_LINEAR))) /\
    (ok = true -> (impl_x2 r = None <-> ratio < 2) /\ (impl_x4 r = None <-> ratio < 4) /\ (impl_x8 r = None <-> ratio < 8)).
Proof.
  intros Hr. destruct (construct_any plat id md ratio prec use_sse f m) as (m' & E & F).
  eexists _, _, m'. split; [exact E|]. split; [exact F|].
  assert (P : (((ratio =? 1) || (ratio =? 2) || (ratio =? 4) || (ratio =? 8)) &&
     ((ratio <? 2) || (if has_tables_dec f prec then true else false)) = true) <->
     (ratio = 1 \/ ratio = 2 \/ ratio = 4 \/ ratio = 8) /\ (ratio <> 1 -> has_tables f prec)).
  { destruct (has_tables_dec f prec) as [H|H].
    - split; [intros; split; [lia | intros _; exact H] | intros [Q _]; lia].
    - split; [intros; split; [lia | lia] |]. intros [Q N].
      destruct (Z.eq_dec ratio 1) as [->|Nn]; [reflexivity | exfalso; apply H, N, Nn]. }
  split.
  - rewrite P. split; (intros [Q N]; split; [exact Q | intros Nn; apply has_tables_enum, N, Nn]).
  - intros Q. apply P in Q. destruct Q as [Q N]. unfold built. cbn [impl_x2 impl_x4 impl_x8].
    assert (S : forall s, stage_no s -> (if ratio <? s then None else stage_impl plat id f md prec use_sse s) = None <-> ratio < s).
    { intros s Hs. destruct (Z.ltb_spec ratio s) as [L|L]; [easy|]. split; [|lia].
      intros Z. exfalso. apply (stage_impl_some plat id f md prec use_sse s Hs); [|exact Z].
      apply N. destruct Hs as [->|[->| ->]]; lia. }
    repeat split; intros; try (apply S; unfold stage_no; auto; assumption).
Qed.
Theorem C18_unusable {A : arith} plat id md ratio prec use_sse f (m : mem A) r ok m' q (m2 : mem A) :
  construct plat id md ratio prec use_sse f m = Ok ((r, ok), m') -> 2 <= ratio ->
  ~ In prec precisions \/ f = FILTER_IIR /\ prec = PREC_LINEAR -> 1 <= c_n q ->
  run_call r q m2 = Err NullDeref.
Proof.
  intros E Hr C Hn. destruct (construct_any plat id md ratio prec use_sse f m) as (m1 & E1 & _).
  rewrite E in E1. assert (r = built plat id md ratio prec use_sse f) by congruence. subst r.
  apply no_tables_null; [exact Hr | | exact Hn]. rewrite has_tables_enum. intros [I N]. destruct C; auto.
Qed.
(** IIR with PREC_LINEAR; a ratio of 3 *)
Example C18_case1 : exists r m', construct (A := F32) (Platform true false) 0 UP 2 PREC_LINEAR true FILTER_IIR (fun _ _ => None) = Ok ((r, false), m').
Proof.
  destruct (construct_any (A := F32) (Platform true false) 0 UP 2 PREC_LINEAR true FILTER_IIR (fun _ _ => None)) as (m' & E & _).
  eexists _, m'. rewrite E. destruct (has_tables_dec FILTER_IIR PREC_LINEAR) as [H|H]; [|reflexivity].
  exfalso. cbn in H. unfold iir_prec, PREC_LINEAR in H. lia.
Qed.
Example C18_case2 : exists r m', construct (A := F32) (Platform true false) 0 UP 3 PREC_96DB true FILTER_IIR (fun _ _ => None) = Ok ((r, false), m').
Proof.
  destruct (construct_any (A := F32) (Platform true false) 0 UP 3 PREC_96DB true FILTER_IIR (fun _ _ => None)) as (m' & E & _).
  eexists _, m'. now rewrite E.
Qed.
Example C18_case3 : exists r m', construct (A := F32) (Platform true false) 0 DOWN 8 PREC_LINEAR true FILTER_FIR (fun _ _ => None) = Ok ((r, true), m').
Proof.
  destruct (construct_any (A := F32) (Platform true false) 0 DOWN 8 PREC_LINEAR true FILTER_FIR (fun _ _ => None)) as (m' & E & _).
  eexists _, m'. rewrite E. destruct (has_tables_dec FILTER_FIR PREC_LINEAR) as [H|H]; [reflexivity|].
  exfalso. apply H. left. reflexivity.
Qed.

(** ** C19 *)
Theorem C19_find_precision bits : let p := find_precision_for_bits bits in
  In p precisions /\
  (bits <= 24 -> bits <= p /\ forall p', In p' precisions -> bits <= p' -> p <= p') /\
  (24 < bits -> forall p', In p' precisions -> p' <= p).
Proof.
  unfold find_precision_for_bits, precisions, PREC_LINEAR, PREC_48DB, PREC_72DB, PREC_96DB, PREC_120DB, PREC_144DB.
  cbn [In]. repeat match goal with |- context [?a <=? ?b] => destruct (Z.leb_spec a b) end; (split; [lia|]); (split; [intros; split; [lia | intros; lia] | intros; lia]).
Qed.
Theorem C19_monotone b1 b2 : b1 <= b2 -> find_precision_for_bits b1 <= find_precision_for_bits b2.
Proof.
  unfold find_precision_for_bits, PREC_LINEAR, PREC_48DB, PREC_72DB, PREC_96DB, PREC_120DB, PREC_144DB.
  repeat match goal with |- context [?a <=? ?b] => destruct (Z.leb_spec a b) end; lia.
Qed.
Example C19_case : find_precision_for_bits 13 = PREC_96DB /\ find_precision_for_bits 0 = PREC_LINEAR /\ find_precision_for_bits 99 = PREC_144DB.
Proof. repeat split; reflexivity. Qed.

(** ** C20 *)
Theorem C20_precision_name p : (In p precisions -> forall p', precision_name p' = precision_name p -> p' = p) /\
  (~ In p precisions -> precision_name p = "unknown precision enum value"%string).
Proof.
  unfold precision_name, precisions, PREC_LINEAR, PREC_48DB, PREC_72DB, PREC_96DB, PREC_120DB, PREC_144DB. cbn [In]. split.
  - intros H p'.
    repeat match goal with |- context [?a =? ?b] => destruct (Z.eqb_spec a b) end; try lia; try congruence; discriminate.
  - intros H. repeat match goal with |- context [?a =? ?b] => destruct (Z.eqb_spec a b) end; try lia; reflexivity.
Qed.
(** the exact names *)
Theorem C20_names : map precision_name precisions =
  ["linear interpolation"; "8 bit (48dB)"; "12 bit (72dB)"; "16 bit (96dB)"; "20 bit (120dB)"; "24 bit (144dB)"]%string /\
  precisions = [1; 8; 12; 16; 20; 24].
Proof. split; reflexivity. Qed.
Example C20_case : precision_name 16 = "16 bit (96dB)"%string /\ precision_name 17 = "unknown precision enum value"%string.
Proof. split; reflexivity. Qed.

(** ** C21 *)
Definition sse_offered (plat : platform) (f : rfilter) : bool :=
  match f with FILTER_FIR => has_sse plat || has_neon plat | FILTER_IIR => has_sse plat end.
Theorem C21_order_and_sse {A : arith} plat id md ratio prec use_sse f (m : mem A) r m' : 1 < ratio ->
  construct plat id md ratio prec use_sse f m = Ok ((r, true), m') ->
  sse_enabled r = Ok (sse_offered plat f && use_sse) /\
  order r = Ok match f with
               | FILTER_FIR => if prec =? PREC_144DB then 52 else if prec =? PREC_120DB then 42 else if prec =? PREC_96DB then 32
                               else if prec =? PREC_72DB then 24 else if prec =? PREC_48DB then 16 else 2
               | FILTER_IIR => if prec =? PREC_144DB then 9 else if prec =? PREC_120DB then 8 else if prec =? PREC_96DB then 6
                               else if prec =? PREC_72DB then 5 else 3
               end.
Proof.
  intros Hr E. destruct (construct_inv plat id md ratio prec use_sse f m r m' ltac:(lia) E) as [-> V]. split.
  - rewrite (built_sse_enabled plat id md ratio prec use_sse f V ltac:(lia)). unfold vector, sse_offered.
    destruct f, (has_sse plat), (has_neon plat), use_sse; reflexivity.
  - exact (built_order_of plat id md ratio prec use_sse f V ltac:(lia)).
Qed.
Theorem C21_ratio_1 {A : arith} plat id md ratio prec use_sse f (m : mem A) r ok m' : ratio <= 1 ->
  construct plat id md ratio prec use_sse f m = Ok ((r, ok), m') ->
  order r = Err NullDeref /\ sse_enabled r = Err NullDeref.
Proof.
  intros Hr E. destruct (construct_any plat id md ratio prec use_sse f m) as (m1 & E1 & _).
  rewrite E in E1. assert (r = built plat id md ratio prec use_sse f) by congruence. subst r.
  unfold order, sse_enabled, built. cbn [impl_x2]. replace (ratio <? 2) with true by lia. split; reflexivity.
Qed.
Example C21_case : exists r m', construct (A := F32) (Platform false true) 0 DOWN 8 PREC_144DB true FILTER_IIR (fun _ _ => None) = Ok ((r, true), m')
  /\ order r = Ok 9 /\ sse_enabled r = Ok false.
Proof.
  destruct (construct_any (A := F32) (Platform false true) 0 DOWN 8 PREC_144DB true FILTER_IIR (fun _ _ => None)) as (m' & E & _).
  eexists _, m'. split; [|split; cycle 1].
  - rewrite E. destruct (has_tables_dec FILTER_IIR PREC_144DB) as [H|H]; [reflexivity|].
    exfalso. apply H. cbn. unfold iir_prec, PREC_144DB. lia.
  - reflexivity.
  - reflexivity.
Qed.

(** ** C22 *)
Open Scope R_scope.
(** [delay_is r x]: delay() returns a finite double whose value is x *)
Theorem C22_fir_delay_ratio_2 {A : arith} plat id md prec use_sse (m : mem A) r m' :
  construct plat id md 2 prec use_sse FILTER_FIR m = Ok ((r, true), m') ->
  exists n : Z, order r = Ok n /\ (0 < n)%Z /\ (n mod 2 = 0)%Z /\
    delay_is r (match md with UP => IZR (n - 1) | DOWN => IZR (n - 1) / 2 end).
Proof.
  intros E. destruct (construct_inv plat id md 2 prec use_sse FILTER_FIR m r m' ltac:(lia) E) as [-> V].
  exists (order_of FILTER_FIR prec). split; [exact (built_order_of plat id md 2 prec use_sse FILTER_FIR V ltac:(lia))|].
  split; [|split]; [unfold order_of; repeat match goal with |- context [if ?c then _ else _] => destruct c end; lia |
    unfold order_of; repeat match goal with |- context [if ?c then _ else _] => destruct c end; reflexivity |].
  pose proof (fir_delay_is plat id md 2 prec use_sse V) as D. destruct V as [_ V]. specialize (V ltac:(lia)). cbn in V.
  assert (L : fir_len 2 prec = order_of FILTER_FIR prec).
  { destruct V as [->|[->|[->|[->|[->| ->]]]]]; reflexivity. }
  unfold fir_delay8 in D. cbn [Z.eqb Pos.eqb] in D. rewrite L in D.
  destruct md; [replace (IZR (8 * (order_of FILTER_FIR prec - 1)) / 8) with (IZR (order_of FILTER_FIR prec - 1)) in D |
    replace (IZR (4 * (order_of FILTER_FIR prec - 1)) / 8) with (IZR (order_of FILTER_FIR prec - 1) / 2) in D];
    try exact D; rewrite mult_IZR; lra.
Qed.
Theorem C22_delay_nonnegative {A : arith} plat id md ratio prec use_sse f (m : mem A) r m' : (0 <= ratio)%Z ->
  construct plat id md ratio prec use_sse f m = Ok ((r, true), m') -> exists x, delay_is r x /\ 0 <= x.
Proof.
  intros Hr E. assert (Hr1 : (1 <= ratio)%Z).
  { destruct (construct_any plat id md ratio prec use_sse f m) as (m1 & E1 & _). rewrite E in E1.
    destruct (Z.eq_dec ratio 0) as [->|]; [|lia]. cbn in E1. congruence. }
  destruct (construct_inv plat id md ratio prec use_sse f m r m' Hr1 E) as [-> V].
  destruct (Z.eq_dec ratio 1) as [->|N1].
  - exists 0. split; [|lra]. exists (b64_dy 0 0). split; [apply delay_ratio1|]. split; [reflexivity|]. reflexivity.
  - destruct f.
    + destruct (iir_delay_pos plat id md ratio prec use_sse V) as (x & D & P); [lia|]. exists x. split; [exact D | lra].
    + eexists. split; [apply fir_delay_is; exact V|].
      assert (0 <= fir_delay8 md ratio prec)%Z; [|apply IZR_le in H; lra].
      destruct V as [Vr V]. specialize (V ltac:(lia)). cbn in V.
      assert (L : forall s, stage_no s -> (1 <= fir_len s prec)%Z).
      { intros s [->|[->| ->]]; destruct V as [->|[->|[->|[->|[->| ->]]]]]; vm_compute; discriminate. }
      pose proof (L 2%Z ltac:(unfold stage_no; lia)). pose proof (L 4%Z ltac:(unfold stage_no; lia)).
      pose proof (L 8%Z ltac:(unfold stage_no; lia)).
      unfold fir_delay8. destruct md; repeat match goal with |- context [if ?c then _ else _] => destruct c end; lia.
Qed.
(** The documentation: "for factor 2 resampling always a multiple of 0.5". *)
Theorem C22_iir_multiple_of_half_refuted {A : arith} plat id use_sse (m : mem A) :
  exists r m' x, construct plat id UP 2 PREC_48DB use_sse FILTER_IIR m = Ok ((r, true), m') /\
    delay_is r x /\ forall k : Z, x <> IZR k / 2.
Proof.
  destruct (construct_any plat id UP 2 PREC_48DB use_sse FILTER_IIR m) as (m' & E & _).
  destruct (iir_delay_not_half plat id use_sse) as (x & D & N). eexists _, m', x. split; [|split; [exact D | exact N]].
  rewrite E. destruct (has_tables_dec FILTER_IIR PREC_48DB) as [H|H]; [reflexivity|]. exfalso. apply H. left. reflexivity.
Qed.
Example C22_case : exists r m', construct (A := F32) (Platform true false) 0 DOWN 2 PREC_144DB true FILTER_FIR (fun _ _ => None) = Ok ((r, true), m')
  /\ delay_is r (51 / 2).
Proof.
  destruct (construct_any (A := F32) (Platform true false) 0 DOWN 2 PREC_144DB true FILTER_FIR (fun _ _ => None)) as (m' & E & _).
  assert (HT : fir_prec PREC_144DB) by (cbn; unfold fir_prec, PREC_144DB; lia).
  destruct (has_tables_dec FILTER_FIR PREC_144DB) as [H|H]; [|exfalso; now apply H]. cbn in E.
  eexists _, m'. split; [exact E|]. destruct (C22_fir_delay_ratio_2 _ _ _ _ _ _ _ _ E) as (n & O & _ & _ & D).
  assert (n = 52%Z) by (cbn in O; congruence). subst n. exact D.
Qed.

Print Assumptions C18_constructible.
Print Assumptions C18_unusable.
Print Assumptions C19_find_precision.
Print Assumptions C19_monotone.
Print Assumptions C20_precision_name.
Print Assumptions C20_names.
Print Assumptions C21_order_and_sse.
Print Assumptions C21_ratio_1.
Print Assumptions C22_fir_delay_ratio_2.
Print Assumptions C22_delay_nonnegative.
Print Assumptions C22_iir_multiple_of_half_refuted.
