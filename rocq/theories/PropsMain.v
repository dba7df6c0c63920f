(** * Properties: the whole program tests/testresampler.cc *)
From Coq Require Import String ZArith Reals List Lia Lra Bool ZifyNat ZifyBool.
From Flocq Require Import Core BinarySingleNaN.
From Verif Require Import Arith ArithR ArithF Mem FirModel IirModel Tables ResamplerModel Wp Stage Cascade
  ResamplerProof ResamplerOk Spec SpecOk Client Feed StreamFacts DelayFacts ConfigFacts Cases FreqFir PropsConfig PropsFreq PropsFloatFreq TestModel TestProof PropsTest
  AccuracyModel AccuracyProof AccuracySine PropsAccuracy OptModel OptProof PropsOptions ToolsModel RunModel RunProof PropsTools PropsRun ErrorModel ErrorProof PropsError MainModel.
Import ListNotations.
Open Scope list_scope.
Open Scope Z_scope.

(** the size of the blocks of samples that a command line asks for; the arrays are twice as large *)
Definition block_of (d : outcome job) : Z :=
  match d with
  | Done Check => 128
  | Done (Perform TEST_IMPULSE _) => 150
  | Done (Perform TEST_FILTER_IMPL _) => 0
  | Done (Perform _ o) => block_size o
  | _ => 0
  end.
(** the frequencies of the options *)
Definition settings_of (o : options) : settings :=
  Settings (rtype o) (block_size o) (precision o) (use_sse o) (number (frequency o)) (number (freq_min o)) (number (freq_max o)) (number (freq_inc o)).

Lemma far3_addresses addr n : far3 addr n -> addresses addr n.
Proof.
  intros [H1 H2 H3 H4]. constructor; rewrite ?(Z.mul_comm n 2); try assumption. intros b t Hb Ht. now apply H4.
Qed.
Lemma goes_of {A : arith} {X} (T : Prop) (c : M A X) m :
  (match c m with Ok _ => True | Err e => e = OutOfFuel end) -> (T -> exists r m', c m = Ok (r, m')) -> goes T c m (fun _ _ => True).
Proof.
  unfold goes. intros H1 H2. destruct (c m) as [[x m']|e]; [exact I|]. subst e. intros t. destruct (H2 t) as (r & m' & E). discriminate.
Qed.

Section Main.
Context {A : arith} (D : dops A) (plat : platform).
Context (to_float : R -> A) (to_double : A -> xdouble).
Context (rnd : Z -> Z) (garbage : Z -> Z -> Z -> Z -> Z -> A) (ndebug : bool) (fuel : nat).
Context (fft : list xdouble -> Z -> xdouble * xdouble).
Context (addr taddr : Z -> blk -> Z) (rand : Z -> Z) (junk : Z -> A).
Context (atoi : string -> Z) (atof : string -> xdouble).
Notation run := (program D plat to_float to_double rnd garbage ndebug fuel fft addr taddr rand junk atoi atof).
Notation perform := (perform_test D plat to_float to_double rnd garbage ndebug fuel fft addr taddr rand junk).

Lemma filter_impl_runs (m : mem A) : (forall o, test_addr_ok (taddr o)) ->
  exists res m' , test_filter_impl D plat taddr rand junk m = Ok (res, m') /\ filter_impl D plat taddr rand junk m = Ok (if res then 0 else 1, m').
Proof.
  clear to_float to_double rnd garbage ndebug fuel fft addr atoi atof. intros Ha. assert (E : exists res m', test_filter_impl D plat taddr rand junk m = Ok (res, m')).
  { unfold test_filter_impl. destruct (sse_available plat); [|now exists true, m].
    destruct (test_runs D taddr rand junk 64 m ltac:(lia) Ha) as (res & m' & E & _). now exists res, m'. }
  destruct E as (res & m' & E). exists res, m'. split; [exact E|]. unfold filter_impl, bind. now rewrite E.
Qed.

Definition test_ends (t : test_type) (o : options) (W nf : Z) : Prop :=
  match t with
  | TEST_ACCURACY | TEST_ERROR_TABLE | TEST_ERROR_SPECTRUM => ending rnd fuel W nf (settings_of o)
  | _ => True
  end.

Lemma perform_goes (T : Prop) t l o (m : mem A) W nf : main atoi atof (sse_available plat) l = Done (Perform t o) ->
  far3 (addr 0) (block_of (Done (Perform t o))) -> block_of (Done (Perform t o)) < 2 ^ 29 -> (forall o, test_addr_ok (taddr o)) ->
  (T -> test_ends t o W nf) ->
  goes T (perform t o) m (fun code _ => (code = 0 \/ code = 1) /\ (t <> TEST_ACCURACY -> t <> TEST_FILTER_IMPL -> code = 0)).
Proof.
  intros HM HF HB HT HE. pose proof (PropsRun.settings plat atoi atof l t o HM) as S. destruct S as [[S1 S1'] S2 _ _ S5].
  assert (RN : addresses (addr 0) (block_size o) -> 0 <= block_size o < 2 ^ 29 -> runnable plat (addr 0) 0 1 (settings_of o) 0 (fun _ => None) m).
  { intros HA HB'. constructor; cbn [settings_of t_prec t_block t_sse]; try assumption; try reflexivity; try lia; apply reach_init. }
  destruct t; cbn [block_of] in HF, HB; cbn [test_ends] in HE; unfold perform_test.
  - destruct (C80_performance plat (addr 0) garbage ndebug (perf_input to_float o) 0 1 atoi atof l o m HM ltac:(lia) HF ltac:(lia)) as (k & m' & E & _).
    apply goes_bind. eapply goes_eq; [exact E|]. apply goes_ret. auto.
  - apply far3_addresses in HF. apply goes_bind. eapply goes_mono.
    { apply (perform_ok plat to_float to_double rnd garbage ndebug fuel T (fun _ => True) (rtype o) (addr 0) 0 1 (block_size o) (precision o) (use_sse o)
        (number (frequency o)) (number (freq_min o)) (number (freq_max o)) (number (freq_inc o)) (number (max_threshold_db o)) 0 (fun _ => None) m W nf
        (reach_init plat m) eq_refl eq_refl ltac:(lia) S2 HF ltac:(lia) S5 ltac:(lia) I).
      - change (one_or (number (freq_inc o)) (number (freq_min o)) (number (frequency o))) with (lowest (settings_of o)).
        change (one_or (number (freq_inc o)) (number (freq_max o)) (1.5 * number (frequency o))) with (highest (settings_of o)).
        change (one_or (number (freq_inc o)) (number (freq_inc o)) (number (frequency o))) with (increment (settings_of o)).
        intros i Hi L. split; [intros st1 m1 x y lo k mx _ _ _ _ _ _ _ _ _; exact I|].
        intros t. destruct (HE t) as (_ & _ & _ & Q1 & Q2 & Q3 & _). apply IZR_le in Hi. assert (0 <= IZR i * increment (settings_of o))%R by (apply Rmult_le_pos; lra). lra.
      - change (one_or (number (freq_inc o)) (number (freq_min o)) (number (frequency o))) with (lowest (settings_of o)).
        change (one_or (number (freq_inc o)) (number (freq_max o)) (1.5 * number (frequency o))) with (highest (settings_of o)).
        change (one_or (number (freq_inc o)) (number (freq_inc o)) (number (frequency o))) with (increment (settings_of o)).
        intros t. destruct (HE t) as (F & N1 & N2 & Q1 & Q2 & Q3 & Q4). split; [exact F|]. split; [exact N1|]. split; [exact N2|].
        intros i Hi. unfold nth_freq in Q4. apply IZR_le in Hi. assert (IZR nf * increment (settings_of o) <= IZR i * increment (settings_of o))%R by (apply Rmult_le_compat_r; lra). lra. }
    intros r m' (pos' & mx & st' & -> & _). cbn beta. apply goes_ret. cbn [fst snd]. split; [destruct (db_above _ _); auto | congruence].
  - apply far3_addresses in HF. destruct (C81_table plat to_float to_double rnd garbage ndebug fuel (addr 0) 0 1 (settings_of o) 0 _ m (RN HF ltac:(lia))) as [P1 P2].
    apply goes_bind. eapply goes_mono; [apply goes_of|].
    + unfold error_table in P1. cbn [settings_of t_type t_block t_prec t_sse t_freq t_min t_max t_inc] in P1. destruct (perform_error_table _ _ _ _ _ _ _ _ _ _ _ _ _ _ _ _ _ _ _ m) as [[[? ?] ?]|]; [exact I | exact P1].
    + intros t. exact (P2 W nf (HE t)).
    + intros r m' _. apply goes_ret. auto.
  - apply far3_addresses in HF. destruct (C81_enough_values plat to_float to_double rnd garbage ndebug fuel fft (addr 0) 0 1 (settings_of o) 0 _ m (RN HF ltac:(lia))) as [P1 P2].
    apply goes_bind. eapply goes_mono; [apply goes_of|].
    + unfold error_spectrum in P1. cbn [settings_of t_type t_block t_prec t_sse t_freq t_min t_max t_inc] in P1. destruct (perform_error_spectrum _ _ _ _ _ _ _ _ _ _ _ _ _ _ _ _ _ _ _ _ m) as [[[? ?] ?]|]; [exact I | exact P1].
    + intros t. exact (P2 W nf (HE t)).
    + intros r m' _. apply goes_ret. auto.
  - destruct (C80_impulse plat (addr 0) garbage ndebug 0 1 atoi atof l o m HM ltac:(lia) HF) as (out & m' & y & E & _).
    apply goes_bind. eapply goes_eq; [exact E|]. apply goes_ret. auto.
  - destruct (filter_impl_runs m HT) as (res & m' & _ & E). eapply goes_eq; [exact E|]. split; [destruct res; auto | congruence].
Qed.

(** check_accuracy_full: nothing goes wrong, whatever the results *)
Lemma list_any (T : Prop) ls W nf : (forall id, addresses (addr id) 128) -> (T -> can_end rnd fuel W nf ls) ->
  forall id pos st (m : mem A), reach plat st m -> (forall i, id <= i -> st i = None) -> 0 <= pos ->
  goes T (run_list plat to_float to_double rnd garbage ndebug fuel addr id ls pos) m (fun _ _ => True).
Proof.
  clear D fft taddr rand junk atoi atof. intros HA. induction ls as [|a ls IH]; intros HT id pos st m H HN Hp; cbn [run_list].
  - now apply goes_ret.
  - apply goes_bind. eapply goes_mono.
    { apply (run_ok plat to_float to_double rnd garbage ndebug fuel T (fun _ => True) (addr id) id (id + 1) a pos st m W nf H (HN id ltac:(lia)) (HN (id + 1) ltac:(lia)) ltac:(lia) (HA id) Hp I).
      - intros f Hf st1 m1 x y lo k mx _ _ _ _ _ _ _ _ _. exact I.
      - intros t. destruct (HT t) as (F & N1 & N2 & Q). split; [exact F|]. split; [exact N1|]. split; [exact N2|]. intros b [<-|[]]. apply Q. now left. }
    intros r m' (pos' & mx & st' & -> & P & _ & H' & HO). cbn [fst snd]. destruct (negb _); [|now apply goes_ret].
    apply (IH) with (st := st'); [|exact H'| |lia].
    + intros t. destruct (HT t) as (F & N1 & N2 & Q). split; [exact F|]. split; [exact N1|]. split; [exact N2|]. intros b Hb. apply Q. now right.
    + intros i Hi. rewrite HO by lia. apply HN. lia.
Qed.
End Main.

(** ** C84 *)

(** The program, for every command line, every result of rand(), atoi and atof (finite numbers only), any
    contents of uninitialised memory, any addresses of the (16 byte aligned, separate) arrays, with blocks of less than 2^29 samples:
    no access outside an array or to a NULL pointer, no misaligned access; the exit status is 0 or 1; the only assert that can fail is the one
    about the self test, after the accuracy tests of "check".  The program can run for ever (OutOfFuel), but not if C84_ends says so. *)
Definition exit_status (d : outcome job) (code : Z) : Prop :=
  match d with
  | Exit c => code = c
  | Done Check | Done (Perform TEST_ACCURACY _) | Done (Perform TEST_FILTER_IMPL _) => code = 0 \/ code = 1
  | Done (Perform _ _) => code = 0
  | Fault _ => False
  end.
Lemma no_fault atoi atof sse l f : main atoi atof sse l <> Fault f.
Proof.
  intros E. destruct (list_eq_dec string_dec l ["check"%string]) as [->|N]; [discriminate|].
  destruct (C77_main atoi atof sse l N) as (r & _ & E' & NF). rewrite E in E'.
  destruct r as [[[|c [|c' rest]] o]|c|f']; try discriminate; [destruct (command c); discriminate | injection E' as ->; now apply (NF f')].
Qed.
Theorem C84_no_error {A : arith} (D : dops A) plat (to_float : R -> A) to_double rnd garbage ndebug fuel fft addr taddr rand junk atoi atof l (m : mem A) :
  let todo := main atoi atof (sse_available plat) l in
  (forall s, exists r, atof s = Fin r) -> (forall id, far3 (addr id) (block_of todo)) -> block_of todo < 2 ^ 29 -> (forall o, test_addr_ok (taddr o)) ->
  match program D plat to_float to_double rnd garbage ndebug fuel fft addr taddr rand junk atoi atof l m with
  | Ok (code, _) => exit_status todo code
  | Err OutOfFuel => True
  | Err AssertFail => l = ["check"%string] /\ ndebug = false /\
      exists m1 m2, check_accuracy_full plat to_float to_double rnd garbage ndebug fuel addr m = Ok (true, m1) /\
                    test_filter_impl D plat taddr rand junk m1 = Ok (false, m2)
  | Err _ => False
  end.
Proof.
  intros todo _ HF HB HT. unfold program. fold todo. destruct todo as [[|t o]|c|f] eqn:E.
  - assert (L : l = ["check"%string]).
    { destruct (list_eq_dec string_dec l ["check"%string]) as [|N]; [assumption|]. exfalso. destruct (C77_main atoi atof (sse_available plat) l N) as (r & _ & E' & _). fold todo in E'. rewrite E in E'.
      destruct r as [[[|c [|c' rest]] o]|c|f']; try discriminate. destruct (command c); discriminate. }
    pose proof (list_any (A := A) plat to_float to_double rnd garbage ndebug fuel addr False (all_tests plat) 0 0 (fun id => far3_addresses _ _ (HF id)) ltac:(tauto) 0 0 (fun _ => None) m (reach_init plat m) ltac:(reflexivity) ltac:(lia)) as G.
    unfold goes in G. unfold bind at 1. unfold check_accuracy_full at 1. unfold check_accuracy_full in *.
    destruct (run_list _ _ _ _ _ _ _ _ _ _ _ m) as [[[] m1]|e] eqn:ER; [| cbn; auto | destruct e; first [exact I | contradiction]].
    destruct (filter_impl_runs D plat taddr rand junk m1 HT) as (res & m2 & E1 & E2). unfold run_testresampler, bind. rewrite E2.
    destruct ndebug; [cbn; auto|]. destruct res; cbn; [auto|]. split; [exact L|]. split; [reflexivity|]. exists m1, m2. auto.
  - pose proof (perform_goes D plat to_float to_double rnd garbage ndebug fuel fft addr taddr rand junk atoi atof False t l o m 0 0 E (HF 0) HB HT ltac:(tauto)) as G.
    unfold goes in G. destruct (perform_test _ _ _ _ _ _ _ _ _ _ _ _ _ _ _ m) as [[code m']|e]; [|destruct e; first [exact I | contradiction]].
    destruct G as [G1 G2]. cbn [exit_status]. destruct t; auto; apply G2; discriminate.
  - reflexivity.
  - now apply no_fault in E.
Qed.

(** ... and it ends: with fair random numbers and frequencies from 0 to 44099 Hz *)
Theorem C84_ends {A : arith} (D : dops A) plat (to_float : R -> A) to_double rnd garbage ndebug fuel fft addr taddr rand junk atoi atof l (m : mem A) W nf :
  let todo := main atoi atof (sse_available plat) l in
  (forall s, exists r, atof s = Fin r) -> (forall id, far3 (addr id) (block_of todo)) -> block_of todo < 2 ^ 29 -> (forall o, test_addr_ok (taddr o)) ->
  match todo with
  | Done Check => fair rnd 128 W /\ W * 20000 <= Z.of_nat fuel /\ 360 <= Z.of_nat fuel
  | Done (Perform t o) => test_ends rnd fuel t o W nf
  | _ => True
  end ->
  program D plat to_float to_double rnd garbage ndebug fuel fft addr taddr rand junk atoi atof l m <> Err OutOfFuel.
Proof.
  intros todo _ HF HB HT HE. unfold program. fold todo. destruct todo as [[|t o]|c|f] eqn:E.
  - destruct HE as (F & N1 & N2).
    pose proof (list_any (A := A) plat to_float to_double rnd garbage ndebug fuel addr True (all_tests plat) W 360 (fun id => far3_addresses _ _ (HF id)) (fun _ => tests_end plat rnd fuel W F N1 N2) 0 0 (fun _ => None) m (reach_init plat m) ltac:(reflexivity) ltac:(lia)) as G.
    unfold goes in G. unfold bind at 1. unfold check_accuracy_full.
    destruct (run_list _ _ _ _ _ _ _ _ _ _ _ m) as [[[] m1]|e] eqn:ER; [| discriminate | destruct e; tauto].
    destruct (filter_impl_runs D plat taddr rand junk m1 HT) as (res & m2 & E1 & E2). unfold run_testresampler, bind. rewrite E2.
    destruct ndebug; [discriminate|]. destruct res; discriminate.
  - pose proof (perform_goes D plat to_float to_double rnd garbage ndebug fuel fft addr taddr rand junk atoi atof True t l o m W nf E (HF 0) HB HT (fun _ => HE)) as G.
    unfold goes in G. destruct (perform_test _ _ _ _ _ _ _ _ _ _ _ _ _ _ _ m) as [[code m']|e]; [discriminate|]. intros [= ->]. tauto.
  - discriminate.
  - discriminate.
Qed.

(** In exact arithmetic "testresampler check" ends with status 0. *)
Theorem C84_check_exact rand_max plat rnd garbage ndebug fuel fft addr taddr rand junk atoi atof (m : mem RA) W :
  (forall id, far3 (addr id) 128) -> (forall o, test_addr_ok (taddr o)) -> fair rnd 128 W -> W * 20000 <= Z.of_nat fuel -> 360 <= Z.of_nat fuel ->
  exists m', program (RD rand_max) plat (fun r => r) Fin rnd garbage ndebug fuel fft addr taddr rand junk atoi atof ["check"%string] m = Ok (0, m').
Proof.
  intros HF HT F N1 N2. destruct (C68_check_accuracy_full plat rnd garbage ndebug fuel addr m (fun id => far3_addresses _ _ (HF id))) as [_ Q].
  destruct (Q W F N1 N2) as (m1 & E1). destruct (C60_exact rand_max plat taddr rand junk m1 HT) as (m2 & E2). exists m2.
  unfold program. change (main atoi atof (sse_available plat) ["check"%string]) with (Done Check). cbv iota. unfold bind at 1. rewrite E1.
  unfold run_testresampler, filter_impl, bind. rewrite E2. destruct ndebug; reflexivity.
Qed.

(** In single precision it may abort although everything is right: the self test is too strict (C60). *)
Theorem C84_check_refuted : exists rand : Z -> Z, (forall k, 0 <= rand k <= RAND_MAX) /\
  forall plat rnd garbage fuel fft addr taddr junk atoi atof (m : mem F32), sse_available plat = true -> (forall o, test_addr_ok (taddr o)) ->
  forall code m', program F64 plat (fun r => b32_round r : F32) b32_double rnd garbage false fuel fft addr taddr rand junk atoi atof ["check"%string] m = Ok (code, m') -> code = 1.
Proof.
  destruct C60_no_false_alarm_refuted as (rand & HR & Q). exists rand. split; [exact HR|].
  intros plat rnd garbage fuel fft addr taddr junk atoi atof m Hs HT code m'. unfold program. change (main atoi atof (sse_available plat) ["check"%string]) with (Done Check). cbv iota. unfold bind at 1.
  destruct (check_accuracy_full _ _ _ _ _ _ _ _ m) as [[[] m1]|e]; [|intros [= <- _]; reflexivity | discriminate].
  destruct (Q plat taddr junk m1 Hs HT) as (m2 & E). unfold run_testresampler, filter_impl, bind. rewrite E. discriminate.
Qed.

(** In single precision, the accuracy test succeeds for every command line that asks for frequencies in the pass band
    and a threshold that is guaranteed for the precision (without an option: 0 dB). *)
Theorem C84_accuracy_single_precision (D : dops F32) plat rnd garbage ndebug fuel fft addr taddr rand junk atoi atof l o (m : mem F32) :
  main atoi atof (sse_available plat) l = Done (Perform TEST_ACCURACY o) ->
  (forall s, exists r, atof s = Fin r) -> far3 (addr 0) (block_size o) -> block_size o < 2 ^ 29 -> hq_prec (precision o) ->
  (forall i, 0 <= i -> (nth_freq (settings_of o) i < highest (settings_of o) + 1)%R -> kept (rtype o) (nth_freq (settings_of o) i)) ->
  (- guaranteed (rtype o) (precision o) <= number (max_threshold_db o))%R ->
  match program D plat (fun r => b32_round r : F32) b32_double rnd garbage ndebug fuel fft addr taddr rand junk atoi atof l m with
  | Ok (code, _) => code = 0 | Err e => e = OutOfFuel end.
Proof.
  intros HM _ HF HB HQ HK HG. destruct (PropsRun.settings plat atoi atof l _ o HM) as [[S1 S1'] S2 _ _ S5]. set (E := Rpower 10 (number (max_threshold_db o) / 20)).
  assert (E0 : (0 <= E)%R) by (unfold E, Rpower; apply Rlt_le, exp_pos).
  assert (G : goes False (program D plat (fun r => b32_round r : F32) b32_double rnd garbage ndebug fuel fft addr taddr rand junk atoi atof l) m (fun code _ => code = 0)).
  { unfold program. rewrite HM. unfold perform_test. apply goes_bind. eapply goes_mono.
    { apply (perform_ok (A := F32) plat (fun r => b32_round r : F32) b32_double rnd garbage ndebug fuel False (up_to E) (rtype o) (addr 0) 0 1 (block_size o) (precision o) (use_sse o)
        (number (frequency o)) (number (freq_min o)) (number (freq_max o)) (number (freq_inc o)) (number (max_threshold_db o)) 0 (fun _ => None) m 0 0
        (reach_init plat m) eq_refl eq_refl ltac:(lia) S2 (far3_addresses _ _ HF) ltac:(lia) S5 ltac:(lia) (up_to_0 E E0)); [|tauto].
      intros i Hi L. split; [|tauto]. pose proof (HK i Hi L) as K. apply float_good; [exact HQ | left; exact K|].
      eapply Rle_trans; [apply float_numbers; [exact HQ | exact K]|]. unfold E. apply Rle_Rpower; lra. }
    intros r m' (pos' & mx & st' & -> & _ & GM & _). apply goes_ret. cbn [fst snd]. rewrite (up_to_db E mx _ GM) by apply Rle_refl. reflexivity. }
  apply goes_partial in G. exact G.
Qed.

(** ** Instances *)
Example C84_layout : (forall id : Z, far3 ((fun _ => perf_addr) id) 128) /\ test_addr_ok (fun _ => 64).
Proof. split; [intros _; apply C80_addresses | apply C60_case]. Qed.
Example C84_accuracy plat atoi (atof : string -> xdouble) rnd garbage ndebug fuel fft taddr rand junk m : (forall s, exists r, atof s = Fin r) ->
  match program F64 plat (fun r => b32_round r : F32) b32_double rnd garbage ndebug fuel fft (fun _ => perf_addr) taddr rand junk atoi atof ["accuracy"%string] m with
  | Ok (code, _) => code = 0 | Err e => e = OutOfFuel end.
Proof.
  intros HA. eapply C84_accuracy_single_precision; [reflexivity | exact HA | apply C80_addresses | cbn; lia | right; right; left; reflexivity | |].
  - unfold nth_freq, lowest, highest, increment, one_or, kept. cbn. intros i Hi L. apply IZR_le in Hi. destruct (Rlt_dec 1 0) as [X|X]; [lra|]. lra.
  - cbn. unfold fir_snr, PREC_96DB. cbn. lra.
Qed.
Example C84_nothing {A : arith} (D : dops A) plat tf td rnd garbage ndebug fuel fft addr taddr rand junk atoi atof m :
  program D plat tf td rnd garbage ndebug fuel fft addr taddr rand junk atoi atof [] m = Ok (0, m) /\
  program D plat tf td rnd garbage ndebug fuel fft addr taddr rand junk atoi atof ["resample"%string] m = Ok (1, m).
Proof. split; reflexivity. Qed.

Print Assumptions C84_no_error.
Print Assumptions C84_ends.
Print Assumptions C84_check_exact.
Print Assumptions C84_check_refuted.
Print Assumptions C84_accuracy_single_precision.
