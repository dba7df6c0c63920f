(** * Properties: the small programs in tests/, and reads behind the input for all ratios *)
From Coq Require Import String ZArith Reals List Lia Lra Bool ZifyNat ZifyBool.
From Flocq Require Import Core BinarySingleNaN.
From Verif Require Import PropsFloatFreq Arith ArithR ArithF Mem FirModel IirModel Tables ResamplerModel Wp Stage Cascade
  ResamplerProof ResamplerOk Spec SpecOk Client Feed StreamFacts DelayFacts ConfigFacts CallFacts IirCalls OverRead Cases PropsCalls
  AccuracyModel AccuracySine MultiModel ToolsModel ToolsProof ToolsArrays ToolsSine.
Import ListNotations.
Open Scope string_scope.
Open Scope list_scope.
Open Scope Z_scope.

(** ** C36 for ratios 4 and 8, and blocks of any size *)
Theorem C36_reads_behind_the_input_all_ratios {A : arith} plat st (m : mem A) id o q b :
  reach plat st m -> st id = Some o -> let r := o_res o in
  r_filter r = FILTER_IIR -> 2 <= r_ratio r -> r_mode r = DOWN -> vector plat FILTER_IIR (r_use_sse r) = true ->
  call_ok plat r m q b -> 0 < len b ->
  forall m1, (forall b' i, ~ inr (padd (c_input q) (len b)) 2 b' i -> m1 b' i = m b' i) ->
  ~ mapped m1 (padd (c_input q) (len b)) 2 -> run_call r q m1 = Err OobRead.
Proof. exact (down_over_read_all plat st m id o q b). Qed.
(** ratio 8, a call with two chunks after another call *)
Example C36_case_all_ratios : exists st (m : mem F32) o (q : call (A := F32)) b, reach (Platform true false) st m /\ st 0 = Some o /\
  r_filter (o_res o) = FILTER_IIR /\ r_mode (o_res o) = DOWN /\ r_ratio (o_res o) = 8 /\
  vector (Platform true false) FILTER_IIR (r_use_sse (o_res o)) = true /\
  call_ok (Platform true false) (o_res o) m q b /\ len b = 2400 /\
  exists m1, (forall b' i, ~ inr (padd (c_input q) (len b)) 2 b' i -> m1 b' i = m b' i) /\ ~ mapped m1 (padd (c_input q) (len b)) 2.
Proof.
  set (b := repeat (f1 (a := F32)) 2400). assert (Lb : len b = 2400) by (vm_compute; reflexivity).
  destruct (some_call (A := F32) (Platform true false) DOWN 8 PREC_96DB true FILTER_IIR [(0, repeat f1 16)] 1 b) as (st & m & o & H & E & Er & Ei & K).
  - now apply configb_ok.
  - constructor; [|constructor]. cbn. split; [lia | reflexivity].
  - lia.
  - rewrite Lb. reflexivity.
  - exists st, m, o, (feed_call 1 b), b. rewrite Er in *. clearbody b.
    do 6 (split; [assumption || reflexivity|]). split; [exact K|]. split; [exact Lb|].
    exists (fun b i => if blk_eqb b (User 0) && (i =? 2401) then None else m b i). split.
    + intros b' i Hn. destruct (blk_eqb_spec b' (User 0)) as [->|]; [|reflexivity].
      destruct (Z.eqb_spec i 2401) as [->|]; [|reflexivity]. exfalso. apply Hn. unfold inr. rewrite Lb. cbn. split; [reflexivity | lia].
    + rewrite Lb. intros Q. apply (Q 1 ltac:(lia)). reflexivity.
Qed.

(** ** C79: tests/testmultiperf.cc *)

(** Every supported configuration runs without error to the end, for any number of repetitions, all addresses and
    contents of memory - except for vector code, IIR, ratio 8 and downsampling. *)
Theorem C79_performance_test {A : arith} plat addr (garbage : Z -> Z -> Z -> Z -> Z -> A) nassert ndebug atoi count a1 a2 a3 a4 m :
  far_perf addr 0 ->
  valid (if String.eqb a4 "fir" then FILTER_FIR else FILTER_IIR) (atoi a2) (find_precision_for_bits (u32 (atoi a3))) ->
  (nassert = true \/ (a1 = "up" \/ a1 = "down" \/ a1 = "over") /\ (a4 = "fir" \/ a4 = "iir" \/ a4 = "iir-sse")) ->
  ~ (has_sse plat = true /\ a4 = "iir-sse" /\ atoi a2 = 8 /\ (a1 = "down" \/ a1 = "over")) ->
  exists m', perf_main plat addr garbage nassert ndebug atoi count [a1; a2; a3; a4] m = Ok (0, m').
Proof.
  intros HA HV HS HN. rewrite perf_args by exact HS. apply perf_run_ok; [exact HA | exact HV|].
  intros V F R8. destruct (String.eqb_spec a4 "fir") as [|N4]; [discriminate|]. cbn [orb] in V.
  unfold vector in V. apply andb_prop in V. destruct V as [V1 V2]. apply String.eqb_eq in V2.
  destruct (String.eqb_spec a1 "down"), (String.eqb_spec a1 "over"); cbn [orb]; try reflexivity; exfalso; apply HN; auto.
Qed.
(** In that case every run reads behind the array with the input of the downsampler. *)
Theorem C79_performance_test_reads_behind {A : arith} plat addr (garbage : Z -> Z -> Z -> Z -> Z -> A) nassert ndebug atoi count a1 a2 a3 m :
  far_perf addr 2 -> has_sse plat = true -> atoi a2 = 8 -> 1 < u32 (atoi a3) -> (a1 = "down" \/ a1 = "over") -> 1 <= count ->
  perf_main plat addr garbage nassert ndebug atoi count [a1; a2; a3; "iir-sse"] m = Err OobRead.
Proof.
  intros HA V R8 B H1 C1. rewrite perf_args by tauto. apply perf_run_err; try assumption; try reflexivity.
  - split; [unfold ratio_no; tauto|]. intros _. cbn. unfold iir_prec, find_precision_for_bits, PREC_LINEAR, PREC_48DB, PREC_72DB, PREC_96DB, PREC_120DB, PREC_144DB.
    repeat match goal with |- context [?a <=? ?b] => destruct (Z.leb_spec a b) end; lia.
  - unfold vector. rewrite V. reflexivity.
  - destruct H1 as [->| ->]; reflexivity.
Qed.
(** An IIR filter with at most one bit does not exist; the program uses a null pointer. *)
Theorem C79_performance_test_no_filter {A : arith} plat addr (garbage : Z -> Z -> Z -> Z -> Z -> A) nassert ndebug atoi count a1 a2 a3 a4 m :
  2 <= atoi a2 <= 8 -> u32 (atoi a3) <= 1 -> (a1 = "up" \/ a1 = "down" \/ a1 = "over") -> (a4 = "iir" \/ a4 = "iir-sse") -> 1 <= count ->
  perf_main plat addr garbage nassert ndebug atoi count [a1; a2; a3; a4] m = Err NullDeref.
Proof.
  intros R B H1 H4 C1. rewrite perf_args by tauto. apply perf_run_null; try assumption.
  - destruct H4 as [->| ->]; cbn; unfold iir_prec, find_precision_for_bits, PREC_LINEAR, PREC_48DB, PREC_72DB, PREC_96DB, PREC_120DB, PREC_144DB;
    repeat match goal with |- context [?a <=? ?b] => destruct (Z.leb_spec a b) end; lia.
  - destruct H1 as [->|[->| ->]]; reflexivity.
Qed.

Definition perf_addr (b : blk) : Z := match b with Tmp2 => 2 ^ 20 | User k => 2 ^ 21 + 2 ^ 24 * k | _ => 0 end.
Example C79_perf_addresses : far_perf perf_addr 0 /\ far_perf perf_addr 2.
Proof.
  assert (X : forall s, 0 <= s <= 2 -> far_perf perf_addr s); [|split; apply X; lia]. intros s Hs. constructor.
  - constructor; intros; try reflexivity. right. unfold paddr. cbn. lia.
  - right. unfold paddr. cbn. lia.
  - intros t [->| ->]; split; left; unfold paddr; cbn; lia.
Qed.
(** the hypotheses for "over 4 16 iir-sse", and "down 8 16 fir" *)
Example C79_perf_case plat : let atoi s := if String.eqb s "4" then 4 else if String.eqb s "16" then 16 else 8 in
  (valid FILTER_IIR (atoi "4") (find_precision_for_bits (u32 (atoi "16"))) /\ ~ (has_sse plat = true /\ "iir-sse" = "iir-sse" /\ atoi "4" = 8 /\ ("over" = "down" \/ "over" = "over"))) /\
  (valid FILTER_FIR (atoi "8") (find_precision_for_bits (u32 (atoi "16"))) /\ ~ (has_sse plat = true /\ "fir" = "iir-sse" /\ atoi "8" = 8 /\ ("down" = "down" \/ "down" = "over"))).
Proof.
  split; (split; [apply configb_ok; reflexivity|]); intros (_ & H1 & H2 & _); [|discriminate]. cbn in H2. discriminate.
Qed.

(** ** C79: tests/testsimple.cc *)
(** No error in any arithmetic; it prints the sine and the output specified for it. *)
Theorem C79_simple {A : arith} plat addr garbage ndebug to_float (m : mem A) : far_io addr in_a out_a 256 512 ->
  exists y m', simple_main plat addr garbage ndebug to_float m = Ok ((tab 256 (simple_value to_float), y), m') /\ len y = 512 /\
    resample_any (A := A) FILTER_FIR UP PREC_96DB (vector plat FILTER_FIR true) 2 (tab 256 (simple_value to_float)) y.
Proof. exact (simple_ok plat addr garbage ndebug to_float m). Qed.
(** In single precision the #OUT lines from 62 on are the sine at twice the rate, 31 samples late, within 2.6e-5. *)
Theorem C79_simple_sine plat addr garbage ndebug (m : mem F32) : far_io addr in_a out_a 256 512 ->
  exists y m', simple_main (A := F32) plat addr garbage ndebug (fun v => b32_round v : F32) m =
      Ok ((tab 256 (simple_value (A := F32) (fun v => b32_round v : F32)), y), m') /\ size y = 512 /\
    forall j, 62 <= j < 512 -> is_finite (smp y j : b32) = true /\
      (Rabs (B2R (smp y j : b32) - sin (440 * ((IZR j - 31) / 2) / 48000 * 2 * PI)) <= 2.6e-5)%R.
Proof. exact (simple_prints plat addr garbage ndebug m). Qed.

(** ** C79: tests/testdownmulti.cc *)
(** For all four ratios, every precision for which there is a filter, and all addresses: no error; one output per
    frequency, the one specified for the windowed sine. *)
Theorem C79_down_frequencies {A : arith} plat addr garbage nassert ndebug to_float atoi a1 a2 a3 (m : mem A) :
  let ds := atoi a1 in let prec := find_precision_for_bits (u32 (atoi a2)) in let filter := if String.eqb a3 "fir" then FILTER_FIR else FILTER_IIR in
  (forall k, far_io (addr k) in_a out_a (8192 * ds) 8192) -> valid filter ds prec ->
  (nassert = true \/ a3 = "fir" \/ a3 = "iir") ->
  exists ys m', downmulti_main plat addr garbage nassert ndebug to_float atoi [a1; a2; a3] m = Ok ((0, ys), m') /\
    length ys = Z.to_nat ((22050 * ds - 1) / 100) /\
    forall k, (k < length ys)%nat -> len (nth k ys []) = 8192 /\
      resample_any (A := A) filter DOWN prec false ds (tab (8192 * ds) (amps_value to_float ds (100 * (IZR (Z.of_nat k) + 1)))) (nth k ys []).
Proof. exact (downmulti_ok plat addr garbage nassert ndebug to_float atoi a1 a2 a3 m). Qed.

(** ** C79: tests/testdistort.cc, modes fir and iir *)
Theorem C79_distort_without_oversampling {A : arith} plat addr garbage ndebug sweep shape iir (m : mem A) :
  exists m', distort_main (A := A) plat addr garbage ndebug sweep shape 0 iir m = Ok (tab 240000 sweep, m').
Proof. exact (distort_none plat addr garbage ndebug sweep shape iir m). Qed.
Theorem C79_distort {A : arith} plat addr garbage ndebug sweep shape over (iir : bool) (m : mem A) : over = 1 \/ over = 2 \/ over = 4 \/ over = 8 ->
  far_io addr in_a out_a 240000 (240000 * over) -> far_io addr out_a out2_a (240000 * over) 240000 ->
  let filter := if iir then FILTER_IIR else FILTER_FIR in
  exists m' u y, distort_main (A := A) plat addr garbage ndebug sweep shape over iir m = Ok (y, m') /\
    len u = 240000 * over /\ len y = 240000 /\
    resample_any (A := A) filter UP PREC_96DB (vector plat filter (negb iir)) over (tab 240000 sweep) u /\
    resample_any (A := A) filter DOWN PREC_96DB (vector plat filter (negb iir)) over (map shape u) y.
Proof. exact (distort_ok plat addr garbage ndebug sweep shape over iir m). Qed.

(** ** C79: wrong arguments *)
(** Another number of arguments: exit status 1, nothing else happens.  Other words than the documented ones: the assert fails. *)
Theorem C79_usage {A : arith} plat addr (garbage : Z -> Z -> Z -> Z -> Z -> A) addrs garbages nassert ndebug atoi count to_float args (m : mem A) :
  (length args <> 4%nat -> perf_main plat addr garbage nassert ndebug atoi count args m = Ok (1, m)) /\
  (length args <> 3%nat -> downmulti_main plat addrs garbages nassert ndebug to_float atoi args m = Ok ((1, []), m)).
Proof.
  split; intros L; destruct args as [|a1 [|a2 [|a3 [|a4 [|a5 l]]]]]; try reflexivity; cbn in L; congruence.
Qed.
Theorem C79_wrong_words {A : arith} plat addr (garbage : Z -> Z -> Z -> Z -> Z -> A) addrs garbages ndebug atoi count to_float a1 a2 a3 a4 (m : mem A) :
  (~ In a1 ["up"; "down"; "over"] \/ ~ In a4 ["fir"; "iir"; "iir-sse"] -> perf_main plat addr garbage false ndebug atoi count [a1; a2; a3; a4] m = Err AssertFail) /\
  (~ In a3 ["fir"; "iir"] -> downmulti_main plat addrs garbages false ndebug to_float atoi [a1; a2; a3] m = Err AssertFail).
Proof.
  split.
  - intros N. unfold perf_main. cbv zeta. unfold bind, MultiModel.assert_, require.
    destruct (String.eqb_spec a1 "up"), (String.eqb_spec a1 "over"), (String.eqb_spec a1 "down"); cbn [orb]; try reflexivity;
      (destruct N as [N|N]; [exfalso; apply N; cbn; auto|]);
      (destruct (String.eqb_spec a4 "fir"), (String.eqb_spec a4 "iir"), (String.eqb_spec a4 "iir-sse"); cbn [orb]; try reflexivity; exfalso; apply N; cbn; auto).
  - intros N. unfold downmulti_main. cbv zeta. unfold bind, MultiModel.assert_, require.
    destruct (String.eqb_spec a3 "fir"), (String.eqb_spec a3 "iir"); cbn [orb]; try reflexivity; exfalso; apply N; cbn; auto.
Qed.
Example C79_wrong_words_case : ~ In "both" ["up"; "down"; "over"] /\ ~ In "FIR" ["fir"; "iir"; "iir-sse"] /\ ~ In "iir-sse" ["fir"; "iir"].
Proof. repeat split; intros H; repeat (destruct H as [H|H]; [discriminate|]); exact H. Qed.

Example C79_addresses : far_io perf_addr in_a out_a 256 512 /\ (forall ds, 1 <= ds <= 8 -> far_io perf_addr in_a out_a (8192 * ds) 8192) /\
  forall over, 1 <= over <= 8 -> far_io perf_addr in_a out_a 240000 (240000 * over) /\ far_io perf_addr out_a out2_a (240000 * over) 240000.
Proof.
  assert (O : addr_ok perf_addr) by (constructor; intros; try reflexivity; right; unfold paddr; cbn; lia).
  assert (X : forall a b n k, 0 <= a < b -> n <= 2 ^ 21 -> k <= 2 ^ 21 -> far_io perf_addr (User a) (User b) n k).
  { intros a b n k Hab Hn Hk. constructor; [exact O | right; unfold paddr; cbn [perf_addr pb po]; lia|].
    intros t [->| ->]; split; left; unfold paddr; cbn [perf_addr pb po]; lia. }
  split; [apply X; lia|]. split; [intros ds Hd; apply X; lia|]. intros over Ho. split; apply X; lia.
Qed.
Example C79_case : valid FILTER_IIR 8 (find_precision_for_bits (u32 16)) /\ valid FILTER_FIR 1 (find_precision_for_bits (u32 24)) /\ (22050 * 8 - 1) / 100 = 1763.
Proof. split; [now apply configb_ok|]. split; [now apply configb_ok | reflexivity]. Qed.

Print Assumptions C79_usage.
Print Assumptions C79_wrong_words.
Print Assumptions C36_reads_behind_the_input_all_ratios.
Print Assumptions C79_performance_test.
Print Assumptions C79_performance_test_reads_behind.
Print Assumptions C79_performance_test_no_filter.
Print Assumptions C79_simple.
Print Assumptions C79_simple_sine.
Print Assumptions C79_down_frequencies.
Print Assumptions C79_distort_without_oversampling.
Print Assumptions C79_distort.
