(** * Properties: the impulse response and performance tests of testresampler *)
From Coq Require Import String ZArith Reals List Lia Lra Bool ZifyNat ZifyBool.
From Flocq Require Import Core BinarySingleNaN.
From Verif Require Import Arith ArithR ArithF Mem FirModel IirModel Tables ResamplerModel Wp Stage Cascade
  ResamplerProof ResamplerOk Spec SpecOk Client FloatSum FloatFir FloatIir LitProof Impulse AccuracyModel OptModel PropsOptions ToolsModel RunModel RunProof RunImpulse PropsTools.
Import ListNotations.
Open Scope list_scope.
Open Scope Z_scope.

(** ** C80: the performance test *)
(** For blocks of less than 2^31 - 4 samples every command line that asks for this test gives a run without
    memory error, misaligned access or failing assert, whatever the input (also NaN), with as many
    samples as fit into 64000000: none at all if the block is larger. *)
Definition performance {A : arith} plat addr garbage ndebug value idu idd (o : options) : M A Z :=
  perform_performance plat addr garbage ndebug (rtype o) value idu idd 64000000 (block_size o) (precision o) (use_sse o).
Lemma settings plat atoi atof l t o : main atoi atof (sse_available plat) l = Done (Perform t o) -> settings_ok (sse_available plat) o.
Proof.
  intros HM. assert (N : l <> ["check"%string]) by (intros ->; discriminate).
  destruct (C77_main atoi atof (sse_available plat) l N) as (r & R & E & _). rewrite HM in E.
  destruct r as [[[|c [|c' rest]] o']|c|f]; try discriminate. destruct (command c); [|discriminate]. injection E as _ ->. eapply C77_settings, R.
Qed.
Theorem C80_performance {A : arith} plat addr garbage ndebug (value : Z -> A) idu idd atoi atof l o (m : mem A) :
  main atoi atof (sse_available plat) l = Done (Perform TEST_PERFORMANCE o) -> idu <> idd -> far3 addr (block_size o) -> block_size o < 2 ^ 31 - 4 ->
  exists k m', performance plat addr garbage ndebug value idu idd o m = Ok (k, m') /\
    k = match rtype o with RES_DOWNSAMPLE => 64000000 / block_size o * block_size o / 2 | _ => 64000000 / block_size o * block_size o end /\
    (64000000 < block_size o -> k = 0).
Proof.
  intros HM Ne HA HB. destruct (settings plat atoi atof l _ o HM) as [[S1 S1'] S2 _ _ S5].
  destruct (performance_ok plat addr garbage ndebug (rtype o) idu idd (block_size o) (precision o) (use_sse o) Ne S2 HA ltac:(lia) S1' value 64000000 m S5) as (k & m' & E & K).
  rewrite Z.max_r in K by (apply Z.div_pos; lia). exists k, m'. split; [exact E|]. split; [exact K|]. intros L. rewrite (Z.div_small 64000000 (block_size o)) in K by lia. destruct (rtype o); exact K.
Qed.

(** For blocks of 2^31 samples or more the size of the arrays overflows: the run always writes outside of them. *)
Theorem C80_performance_overflow {A : arith} plat addr garbage ndebug (value : Z -> A) idu idd atoi atof l o (m : mem A) :
  main atoi atof (sse_available plat) l = Done (Perform TEST_PERFORMANCE o) -> idu <> idd -> 2 ^ 31 <= block_size o ->
  performance plat addr garbage ndebug value idu idd o m = Err OobWrite.
Proof.
  intros HM Ne HB. destruct (settings plat atoi atof l _ o HM) as [[S1 S1'] S2 _ _ S5]. apply performance_huge; [exact Ne | exact S2 | exact S5 | lia].
Qed.

(** ** C80: the impulse response test *)
(** Without memory error for every command line; the output: what comes out of new objects for one 1 and 149
    zeros, cut off after 150 samples if there are more, followed by zeros if there are less. *)
Definition impulse_test {A : arith} plat addr garbage ndebug idu idd (o : options) : M A (list A) :=
  perform_impulse plat addr garbage ndebug (rtype o) idu idd (precision o) (use_sse o).
Theorem C80_impulse {A : arith} plat addr garbage ndebug idu idd atoi atof l o (m : mem A) :
  main atoi atof (sse_available plat) l = Done (Perform TEST_IMPULSE o) -> idu <> idd -> far3 addr 150 ->
  exists out m' y, impulse_test plat addr garbage ndebug idu idd o m = Ok (out, m') /\ size out = 150 /\
    let x := f1 :: repeat f0 149 in
    let S md := resample_any (A := A) FILTER_FIR md (precision o) (vector plat FILTER_FIR (use_sse o)) 2 in
    match rtype o with
    | RES_UPSAMPLE => S UP x y /\ out = firstn 150 y
    | RES_DOWNSAMPLE => S DOWN x y /\ out = y ++ repeat f0 75
    | RES_OVERSAMPLE => (exists u, S UP x u /\ S DOWN u y) /\ out = y
    | RES_SUBSAMPLE => (exists u, S DOWN x u /\ S UP u y) /\ out = y
    end.
Proof.
  intros HM Ne HA. destruct (settings plat atoi atof l _ o HM) as [_ S2 _ _ S5].
  destruct (impulse_ok plat addr garbage ndebug (rtype o) idu idd (precision o) (use_sse o) m Ne S2 HA S5) as (out & m' & E & y & R & O & L).
  exists out, m', y. split; [exact E|]. split; [exact L|]. unfold responds in R. cbv zeta in *. destruct (rtype o); split; assumption.
Qed.

(** In single precision, SSE or not, upsampling prints the doubled literals of the table in reverse order, each rounded
    once, and a one among the samples in between; downsampling prints the literals in reverse order. *)
Definition tap_literal (t : list dec) (i : Z) : R :=
  if (0 <=? i) && (i <? Z.of_nat (length t)) then (IZR (dmant (nth (Z.to_nat i) t (Dec 0 0))) * powerRZ 10 (dexp (nth (Z.to_nat i) t (Dec 0 0))))%R else 0%R.
Lemma unit_is_impulse k : impulse (@f1 F32 :: repeat (@f0 F32) k) 0.
Proof.
  split; [unfold size; cbn [length]; lia|]. intros i Hi. destruct (Z.eqb_spec i 0) as [->|].
  - exact one_val.
  - unfold smp. replace (i <? 0) with false by lia. replace (Z.to_nat i) with (S (Z.to_nat (i - 1))) by lia. cbn [nth].
    rewrite (nthZ_repeat (A := F32) k (i - 1) : nth (Z.to_nat (i - 1)) _ _ = _). exact iv_zero.
Qed.
(** ** C80: the arrays of both tests are released at the end *)
Lemma bind_ok {A : arith} {X Y} (a : M A X) (f : X -> M A Y) m y m' : bind a f m = Ok (y, m') -> exists x m1, a m = Ok (x, m1) /\ f x m1 = Ok (y, m').
Proof. unfold bind. destruct (a m) as [[x m1]|e]; [|discriminate]. intros H. exists x, m1. split; [reflexivity | exact H]. Qed.
Lemma with_releases {A : arith} {X} plat idu idd n p sse (test : resampler -> resampler -> M A X) m x m' :
  with_resamplers plat idu idd n p sse test m = Ok (x, m') -> forall b i, b = in_a \/ b = out_a \/ b = out2_a -> m' b i = None.
Proof.
  unfold with_resamplers. intros H.
  do 10 (apply bind_ok in H; destruct H as (? & ? & _ & H)). cbn in H.
  injection H as _ <-. intros b i [->|[->| ->]]; reflexivity.
Qed.
Theorem C80_releases {A : arith} plat addr garbage ndebug (value : Z -> A) idu idd o (m m' : mem A) :
  (exists k, performance plat addr garbage ndebug value idu idd o m = Ok (k, m')) \/ (exists y, impulse_test plat addr garbage ndebug idu idd o m = Ok (y, m')) ->
  forall b i, b = in_a \/ b = out_a \/ b = out2_a -> m' b i = None.
Proof. intros [[k H]|[y H]]; exact (with_releases _ _ _ _ _ _ _ _ _ _ H). Qed.

Theorem C80_impulse_values plat addr garbage ndebug idu idd atoi atof l o (m : mem F32) t :
  main atoi atof (sse_available plat) l = Done (Perform TEST_IMPULSE o) -> idu <> idd -> far3 addr 150 -> fir_table 2 (precision o) = Some t ->
  let N := Z.of_nat (length t) in
  let single := round radix2 (FLT_exp (-149) 24) ZnearestE in
  exists out m', impulse_test plat addr garbage ndebug idu idd o m = Ok (out, m') /\
    (rtype o = RES_UPSAMPLE -> forall j, 0 <= j < 75 ->
       is_finite (smp out (2 * j) : b32) = true /\ B2R (smp out (2 * j) : b32) = single (tap_literal t (N - 1 - j) * 2)%R /\
       is_finite (smp out (2 * j + 1) : b32) = true /\ B2R (smp out (2 * j + 1) : b32) = if j =? N / 2 - 1 then 1%R else 0%R) /\
    (rtype o = RES_DOWNSAMPLE -> forall j, 0 <= j < 150 ->
       is_finite (smp out j : b32) = true /\ B2R (smp out j : b32) = single (tap_literal t (N - 1 - j))).
Proof.
  intros HM Ne HA HT N single. destruct (settings plat atoi atof l _ o HM) as [_ S2 _ _ _].
  destruct (C80_impulse plat addr garbage ndebug idu idd atoi atof l o m HM Ne HA) as (out & m' & y & E & L & R). cbv zeta in R.
  exists out, m'. split; [exact E|]. pose proof (unit_is_impulse 149) as I. set (x := @f1 F32 :: repeat (@f0 F32) 149) in *.
  assert (S : stage_no 2) by (left; reflexivity). assert (Lx : size (A := F32) x = 150) by reflexivity. split; intros K; rewrite K in R; destruct R as [R ->]; unfold resample_any in R; cbn [Z.eqb Pos.eqb] in R.
  - intros j Hj. pose proof R as [Sy _]. rewrite Lx in Sy.
    assert (F : forall i, 0 <= i < 150 -> smp (firstn 150 y) i = smp y i).
    { intros i Hi. unfold smp. destruct (Z.ltb_spec i 0); [reflexivity|]. rewrite <- (firstn_skipn 150 y) at 2. rewrite app_nth1; [reflexivity|]. rewrite firstn_length. unfold size in Sy. lia. }
    rewrite !F by lia. destruct (up_impulse _ 2 (precision o) t x y 0 S S2 HT I R j ltac:(lia)) as [[F1 V1] [F2 V2]].
    split; [exact F1|]. split; [rewrite V1; fold N; rewrite Z.sub_0_r; reflexivity|]. split; [exact F2|]. rewrite V2. fold N. rewrite Z.add_0_l. reflexivity.
  - intros j Hj. pose proof R as [Sy _]. rewrite Lx in Sy. change (150 / 2) with 75 in Sy. destruct (Z.lt_ge_cases j 75) as [B|B].
    + replace (smp (y ++ repeat f0 75) j) with (smp y j) by (unfold smp; destruct (Z.ltb_spec j 0); [reflexivity|]; rewrite app_nth1; [reflexivity | unfold size in Sy; lia]).
      destruct (down_impulse _ 2 (precision o) t x y 0 S S2 HT I R j ltac:(lia)) as [F1 V1]. split; [exact F1|]. rewrite V1. cbn [Z.even]. change (0 / 2) with 0. fold N. rewrite Z.sub_0_r. reflexivity.
    + assert (Z0 : smp (y ++ repeat (@f0 F32) 75) j = f0).
      { unfold smp. destruct (Z.ltb_spec j 0); [reflexivity|]. rewrite app_nth2 by (unfold size in Sy; lia). set (q := (Z.to_nat j - length y)%nat).
        replace q with (Z.to_nat (Z.of_nat q)) by lia. apply (nthZ_repeat (A := F32)). }
      rewrite Z0. assert (TN : N <= 52) by (unfold N; rewrite (table_length _ t S2 HT); repeat match goal with |- (if ?c then _ else _) <= _ => destruct c end; lia).
      split; [reflexivity|]. unfold tap_literal. fold N. replace (0 <=? N - 1 - j) with false by lia. cbn [andb]. unfold single. symmetry. apply round_0, valid_rnd_N.
Qed.

(** "enough space for all possible tests" (testresampler.cc:378): 150 samples contain everything that is not zero in the response
    to an impulse, except for subsampling with 20 or 24 bits. *)
Theorem C80_enough_space vec rt p : fir_prec p ->
  (forall k y, Z.odd k = true -> 0 <= k ->
     let x := @f1 F32 :: repeat (@f0 F32) (Z.to_nat k) in
     let S md := resample_any (A := F32) FILTER_FIR md p vec 2 in
     match rt with
     | RES_UPSAMPLE => S UP x y | RES_DOWNSAMPLE => S DOWN x y
     | RES_OVERSAMPLE => exists u, S UP x u /\ S DOWN u y | RES_SUBSAMPLE => exists u, S DOWN x u /\ S UP u y
     end -> forall j, 150 <= j -> B2R (smp y j : b32) = 0%R)
  <-> (rt <> RES_SUBSAMPLE \/ p <= 16).
Proof.
  intros Hp. assert (S : stage_no 2) by (left; reflexivity). destruct (fir_table_some 2 p S Hp) as (t & HT & _). split.
  - intros H. destruct (Z.le_gt_cases p 16) as [|P]; [now right|]. left. intros ->.
    assert (TL : 42 <= Z.of_nat (length t) <= 52) by (rewrite (table_length p t Hp HT); unfold fir_prec in Hp; destruct (Z.eqb_spec p 24), (Z.eqb_spec p 20); lia).
    set (x := @f1 F32 :: repeat (@f0 F32) (Z.to_nat 207)).
    set (u := fir_down2 (coeffs (A := F32) FILTER_FIR DOWN p 2) x). set (y := fir_up2 (coeffs (A := F32) FILTER_FIR UP p 2) u).
    assert (R1 : resample_any (A := F32) FILTER_FIR DOWN p vec 2 x u) by (apply fir_down2_any; reflexivity).
    assert (R2 : resample_any (A := F32) FILTER_FIR UP p vec 2 u y) by apply fir_up2_any.
    assert (Ly : size (A := F32) y = 208).
    { pose proof R1 as [Su _]. pose proof R2 as [Sy _]. assert (Lx : size (A := F32) x = 208) by reflexivity. lia. }
    assert (T0 : (bpow radix2 (-60) <= Rabs (literal t 0) <= 1)%R).
    { apply (first_literal p t HT). unfold fir_prec in Hp. lia. }
    destruct (last_sample vec 2 p t S Hp HT x u y (unit_is_impulse _) R1 R2) as [_ NZ]; [lia | apply T0 | apply T0|].
    apply NZ. apply (H 207 y); [reflexivity | lia | exists u; split; assumption | lia].
  - intros H k y Ok K0 x SS R j Hj. apply (response_ends vec rt p t x y Hp HT (unit_is_impulse _)); [unfold responds; cbv zeta; destruct rt; exact R|].
    rewrite (table_length p t Hp HT). unfold last_index. destruct rt; try (repeat match goal with |- context [if ?c then _ else _] => destruct c end; lia).
    destruct H as [H|H]; [congruence|]. replace (p =? 24) with false by lia. replace (p =? 20) with false by lia.
    repeat match goal with |- context [if ?c then _ else _] => destruct c end; lia.
Qed.

(** the hypotheses: addresses, and the command lines "--up dirac", "--subsample --precision=24 dirac" and "perf" *)
Example C80_addresses : far3 perf_addr 150 /\ far3 perf_addr 128.
Proof.
  assert (X : forall n, 0 <= n <= 2 ^ 20 -> far3 perf_addr n); [|split; apply X; lia]. intros n Hn. constructor.
  - constructor; intros; try reflexivity. right. unfold paddr. cbn. lia.
  - right. unfold paddr. cbn [perf_addr pb po in_a out_a]. lia.
  - right. unfold paddr. cbn [perf_addr pb po out_a out2_a]. lia.
  - intros t k [->| ->] [->|[->| ->]]; left; unfold paddr; cbn [perf_addr pb po in_a out_a out2_a]; lia.
Qed.
Example C80_case sse :
  let atoi (s : string) := 24 in let atof (s : string) := Fin 0%R in
  (exists o, main atoi atof sse ["--up"; "dirac"]%string = Done (Perform TEST_IMPULSE o) /\ rtype o = RES_UPSAMPLE /\ precision o = PREC_96DB) /\
  (exists o, main atoi atof sse ["--subsample"; "--precision=24"; "dirac"]%string = Done (Perform TEST_IMPULSE o) /\ rtype o = RES_SUBSAMPLE /\ precision o = 24) /\
  (exists o, main atoi atof sse ["perf"]%string = Done (Perform TEST_PERFORMANCE o) /\ block_size o = 128).
Proof. cbv zeta. split; [|split]; eexists; split; try reflexivity; try split; reflexivity. Qed.
Example C80_case_huge sse : let atoi (s : string) := - 2 in let atof (s : string) := Fin 0%R in
  exists o, main atoi atof sse ["--block-size=-2"; "perf"]%string = Done (Perform TEST_PERFORMANCE o) /\ 2 ^ 31 <= block_size o.
Proof. cbv zeta. eexists. split; [reflexivity|]. cbn. lia. Qed.

Print Assumptions C80_releases.
Print Assumptions C80_performance.
Print Assumptions C80_performance_overflow.
Print Assumptions C80_impulse.
Print Assumptions C80_impulse_values.
Print Assumptions C80_enough_space.
