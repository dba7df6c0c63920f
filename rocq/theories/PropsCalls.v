(** * Properties: single calls of process_block

    [call_ok plat r m q b] (Client.v) are the caller's obligations for a call q
    with the block b in memory m; [run_call r q m] is the outcome of the call. *)
From Coq Require Import ZArith List Lia Bool ZifyNat.
From Flocq Require BinarySingleNaN.
From Verif Require Import Arith ArithF Mem FirModel IirModel Tables ResamplerModel Wp Stage Cascade
  ResamplerProof ResamplerOk Spec SpecOk Client Feed Twin StreamFacts DelayFacts CallFacts IirCalls.
Import ListNotations.
Open Scope Z_scope.

Lemma f01 : f0 (a := F32) <> f1.
Proof. intros C. apply (f_equal (fun x : b32 => BinarySingleNaN.is_finite_strict x)) in C. discriminate. Qed.

(** Calls as required exist, for every configuration, history, block and alignment. *)
Lemma some_call {A : arith} plat md ratio prec use_sse f (bs : list (Z * list A)) shift b :
  valid f ratio prec -> Forall (fun sb => 0 <= fst sb /\ size_ok f md ratio (len (snd sb))) bs ->
  0 <= shift -> size_ok f md ratio (len b) ->
  exists st m o, reach plat st m /\ st 0 = Some o /\ o_res o = built plat 0 md ratio prec use_sse f /\
    o_in o = concat (map snd bs) /\ call_ok plat (o_res o) m (feed_call shift b) b.
Proof.
  intros V F Hs Hb. destruct (feed plat md ratio prec use_sse f 0 bs V F) as (st & m & o & H & E & Er & Ei).
  exists st, (prepare b (r_over plat (o_res o)) (r_out (o_res o) (len b)) m), o.
  assert (Hr : 1 <= ratio) by (destruct V as [[->|[->|[->| ->]]] _]; lia).
  split.
  - apply reach_client with m; [exact H|]. intros b' i Hu _. unfold prepare.
    destruct b'; try reflexivity. exfalso. apply Hu. now exists k.
  - split; [exact E|]. split; [exact Er|]. split; [exact Ei|]. apply feed_call_ok; [exact Hs | rewrite Er; exact Hr | rewrite Er; exact Hb].
Qed.

(** ** C08, C37 *)
(** Every call terminates without undefined behaviour and without a misaligned
    vector access (both would be an [Err] outcome), even if the caller's memory
    consists of nothing but the input samples and the room for the output, and
    wherever these are. *)
Theorem C08_fir_memory_safe {A : arith} plat st (m : mem A) id o q b :
  reach plat st m -> st id = Some o -> r_filter (o_res o) = FILTER_FIR ->
  call_ok plat (o_res o) m q b ->
  exists m' z, run_call (o_res o) q (bare q 0 (r_out (o_res o) (len b)) m) = Ok (tt, m') /\
    len z = r_out (o_res o) (len b) /\ has m' (c_output q) (len z) (nthZ z).
Proof.
  intros H E Hf K. pose proof (bare_call plat st m id o q b H E K) as B. cbn zeta in B.
  replace (r_over plat (o_res o)) with 0 in B by (unfold r_over; now rewrite Hf). exact B.
Qed.

(** the same for IIR, where the two floats behind the input must be readable for
    downsampling with vector code (see C36) *)
Theorem C37_iir_memory_safe {A : arith} plat st (m : mem A) id o q b :
  reach plat st m -> st id = Some o -> let r := o_res o in r_filter r = FILTER_IIR -> call_ok plat r m q b ->
  let over := match r_mode r with
              | DOWN => if vector plat FILTER_IIR (r_use_sse r) && (1 <? r_ratio r) then 2 else 0
              | UP => 0 end in
  exists m' z, run_call r q (bare q over (r_out r (len b)) m) = Ok (tt, m') /\
    len z = r_out r (len b) /\ has m' (c_output q) (len z) (nthZ z).
Proof.
  intros H E r Hf K over. pose proof (bare_call plat st m id o q b H E K) as B. cbn zeta in B. fold r in B.
  replace (r_over plat r) with over in B; [exact B|]. unfold over, r_over. rewrite Hf. now destruct (r_mode r).
Qed.

(** every alignment of input and output, seven samples after eleven *)
Example C08_case shift : 0 <= shift ->
  exists st (m : mem F32) o (q : call (A := F32)), reach (Platform true false) st m /\ st 0 = Some o /\ r_filter (o_res o) = FILTER_FIR /\
    r_mode (o_res o) = UP /\ r_ratio (o_res o) = 2 /\ r_prec (o_res o) = PREC_144DB /\ size (o_in o) = 11 /\
    paddr (c_addr q) (c_input q) = 2 ^ 21 + 4 * shift /\
    call_ok (Platform true false) (o_res o) m q [f1; f1; f1; f0; f1; f1; f1].
Proof.
  intros Hs. destruct (some_call (A := F32) (Platform true false) UP 2 PREC_144DB true FILTER_FIR [(0, repeat f1 11)] shift
    [f1; f1; f1; f0; f1; f1; f1]) as (st & m & o & H & E & Er & Ei & K).
  - split; [unfold ratio_no; auto|]. intros _. cbn. unfold fir_prec, PREC_144DB. auto 7.
  - constructor; [|constructor]. cbn. lia.
  - exact Hs.
  - cbn. lia.
  - exists st, m, o, (feed_call shift [f1; f1; f1; f0; f1; f1; f1]). rewrite Er in *. rewrite Ei.
    do 7 (split; [assumption || reflexivity|]). split; [unfold paddr; cbn [feed_call c_addr c_input pb po addr_ex]; lia | exact K].
Qed.
Example C37_case : exists st (m : mem F32) o (q : call (A := F32)), reach (Platform true false) st m /\ st 0 = Some o /\
    r_filter (o_res o) = FILTER_IIR /\ r_mode (o_res o) = DOWN /\ r_ratio (o_res o) = 4 /\
    vector (Platform true false) FILTER_IIR (r_use_sse (o_res o)) = true /\
    call_ok (Platform true false) (o_res o) m q [f1; f1; f1; f0; f1; f1; f1; f0].
Proof.
  destruct (some_call (A := F32) (Platform true false) DOWN 4 PREC_72DB true FILTER_IIR [(0, repeat f1 12)] 1
    [f1; f1; f1; f0; f1; f1; f1; f0]) as (st & m & o & H & E & Er & Ei & K).
  - split; [unfold ratio_no; auto|]. intros _. cbn. unfold iir_prec, PREC_72DB. auto 7.
  - constructor; [|constructor]. cbn. split; [lia | reflexivity].
  - lia.
  - reflexivity.
  - exists st, m, o, (feed_call 1 [f1; f1; f1; f0; f1; f1; f1; f0]). rewrite Er in *.
    do 6 (split; [assumption || reflexivity|]). exact K.
Qed.

(** ** C09 *)
(** A call changes no memory of the caller but the output samples ... *)
Theorem C09_footprint {A : arith} plat st (m : mem A) id o q b :
  reach plat st m -> st id = Some o -> call_ok plat (o_res o) m q b ->
  exists m', run_call (o_res o) q m = Ok (tt, m') /\
    (forall k i, ~ (User k = pb (c_output q) /\ po (c_output q) <= i < po (c_output q) + r_out (o_res o) (len b)) ->
       m' (User k) i = m (User k) i) /\
    forall j, 0 <= j < r_out (o_res o) (len b) -> m' (pb (c_output q)) (po (c_output q) + j) <> None.
Proof.
  intros H E K. destruct (reach_call_progress plat st m id o q b H E K) as (m' & z & R & L & Hz & F & _).
  exists m'. split; [exact R|]. split.
  - intros k i Hn. apply F; [now exists k|]. rewrite L. exact Hn.
  - intros j Hj. rewrite (Hz j) by lia. discriminate.
Qed.
(** ... and what these get does not depend on anything but the object and the
    block: the rest of the caller's memory, the previous contents of the output
    buffer, other objects and uninitialised memory may differ. *)
Theorem C09_output_defined {A : arith} plat st1 (m1 : mem A) st2 m2 id o q1 q2 b m1' m2' z1 z2 :
  reach plat st1 m1 -> reach plat st2 m2 -> st1 id = Some o -> st2 id = Some o -> let r := o_res o in
  call_ok plat r m1 q1 b -> call_ok plat r m2 q2 b ->
  c_input q1 = c_input q2 -> c_output q1 = c_output q2 -> c_addr q1 = c_addr q2 ->
  run_call r q1 m1 = Ok (tt, m1') -> run_call r q2 m2 = Ok (tt, m2') ->
  len z1 = r_out r (len b) -> len z2 = r_out r (len b) ->
  has m1' (c_output q1) (len z1) (nthZ z1) -> has m2' (c_output q2) (len z2) (nthZ z2) -> z1 = z2.
Proof. exact (call_det plat st1 m1 st2 m2 id o q1 q2 b m1' m2' z1 z2). Qed.

(** different contents of output buffer and uninitialised memory *)
Example C09_case : let plat := Platform true false in
  exists st (m1 m2 : mem F32) o q1 q2 b, reach plat st m1 /\ reach plat st m2 /\ st 0 = Some o /\
    call_ok plat (o_res o) m1 q1 b /\ call_ok plat (o_res o) m2 q2 b /\ c_addr q1 = c_addr q2 /\
    c_garbage q1 0 0 0 <> c_garbage q2 0 0 0 /\ m1 (User 1) 0 <> m2 (User 1) 0.
Proof.
  intros plat. set (b := repeat (f1 (a := F32)) 8).
  destruct (some_call (A := F32) plat DOWN 8 PREC_96DB true FILTER_FIR [(3, repeat f1 16)] 5 b) as (st & m & o & H & E & Er & Ei & K).
  - split; [unfold ratio_no; auto|]. intros _. cbn. unfold fir_prec, PREC_96DB. auto 7.
  - constructor; [|constructor]. cbn. split; [lia | reflexivity].
  - lia.
  - reflexivity.
  - set (q2 := Call (addr_ex 5 (len b)) false (fun _ _ _ => f1) (Ptr (User 0) 0) (len b) (Ptr (User 1) 0) : call (A := F32)).
    assert (R : forall v, reach plat st (upd m (User 1) 0 v)).
    { intros v. apply reach_client with m; [exact H|]. intros b' i Hu _. apply upd_other. left. intros ->. apply Hu. now exists 1. }
    exists st, (upd m (User 1) 0 f0), (upd m (User 1) 0 f1), o, (feed_call 5 b), q2, b.
    split; [apply R|]. split; [apply R|]. split; [exact E|].
    assert (Q : forall v g, call_ok plat (o_res o) (upd m (User 1) 0 v)
                  (Call (addr_ex 5 (len b)) false g (Ptr (User 0) 0) (len b) (Ptr (User 1) 0)) b).
    { intros v g. destruct K. constructor; try assumption.
      intros k Hk. apply mapped_upd_any. exact (co_out k Hk). }
    split; [apply Q|]. split; [apply Q|].
    split; [reflexivity|]. split; [exact f01|].
    rewrite !upd_same. intros C. apply f01. congruence.
Qed.

(** ** C10 *)
(** The state of the program with respect to all objects is the same before and
    after: the same [st] goes on with the new memory. *)
Theorem C10_empty_block {A : arith} plat st (m : mem A) id o q :
  reach plat st m -> st id = Some o -> c_n q = 0 ->
  r_filter (o_res o) = FILTER_FIR \/ r_ratio (o_res o) <> 2 ->
  exists m', run_call (o_res o) q m = Ok (tt, m') /\ (forall k i, m' (User k) i = m (User k) i) /\ reach plat st m'.
Proof.
  intros H E N0 C. destruct (empty_call plat st m id o q H E N0) as (m' & R & F & H').
  - intros Hf H2. destruct C; congruence.
  - exists m'. split; [exact R|]. split; [|exact H']. intros k i. apply F. intros [Q|[Q|Q]]; discriminate.
Qed.
Example C10_case : exists st (m : mem F32) o (q : call (A := F32)), reach (Platform true false) st m /\ st 0 = Some o /\ c_n q = 0 /\
  r_filter (o_res o) = FILTER_FIR /\ r_ratio (o_res o) = 2 /\ size (o_in o) = 3.
Proof.
  destruct (some_call (A := F32) (Platform true false) UP 2 PREC_96DB true FILTER_FIR [(3, repeat f1 3)] 5 []) as (st & m & o & H & E & Er & Ei & K).
  - split; [unfold ratio_no; auto|]. intros _. cbn. unfold fir_prec, PREC_96DB. auto 7.
  - constructor; [|constructor]. cbn. lia.
  - lia.
  - reflexivity.
  - exists st, m, o, (feed_call 5 []). rewrite Er, Ei. repeat split; assumption.
Qed.

(** ** C11 *)
(** With asserts the program is aborted. *)
Theorem C11_short_block_aborts {A : arith} plat st (m : mem A) id o q :
  reach plat st m -> st id = Some o -> let r := o_res o in
  r_filter r = FILTER_IIR -> r_ratio r = 2 -> c_ndebug q = false ->
  (r_mode r = UP -> c_n q = 0) -> (r_mode r = DOWN -> c_n q = 0 \/ c_n q = 1) ->
  run_call r q m = Err AssertFail.
Proof. exact (short_assert plat st m id o q). Qed.
(** Without asserts and vector code a sample that was not given is processed:
    the object behaves as if it had been given one (two) samples ... *)
Theorem C11_empty_up_processes_a_sample {A : arith} plat st (m : mem A) id o q :
  reach plat st m -> st id = Some o -> let r := o_res o in
  r_filter r = FILTER_IIR -> r_ratio r = 2 -> r_mode r = UP -> vector plat FILTER_IIR (r_use_sse r) = false ->
  c_ndebug q = true -> c_n q = 0 -> run_call r q m = run_call r (with_n q 1) m.
Proof. exact (empty_up_is_one plat st m id o q). Qed.
Theorem C11_short_down_processes_two_samples {A : arith} plat st (m : mem A) id o q :
  reach plat st m -> st id = Some o -> let r := o_res o in
  r_filter r = FILTER_IIR -> r_ratio r = 2 -> r_mode r = DOWN -> vector plat FILTER_IIR (r_use_sse r) = false ->
  c_ndebug q = true -> c_n q = 0 \/ c_n q = 1 -> run_call r q m = run_call r (with_n q 2) m.
Proof. exact (short_down_is_two plat st m id o q). Qed.
(** ... and this is an access outside the caller's arrays if they are not larger than they have to be. *)
Theorem C11_empty_up_out_of_bounds {A : arith} plat st (m : mem A) id o q :
  reach plat st m -> st id = Some o -> let r := o_res o in
  r_filter r = FILTER_IIR -> r_ratio r = 2 -> r_mode r = UP -> vector plat FILTER_IIR (r_use_sse r) = false ->
  c_ndebug q = true -> c_n q = 0 -> is_user (pb (c_output q)) ->
  (~ mapped m (c_input q) 1 -> run_call r q m = Err OobRead) /\
  (mapped m (c_input q) 1 -> ~ mapped m (c_output q) 2 -> run_call r q m = Err OobWrite).
Proof. exact (empty_up_oob plat st m id o q). Qed.
Theorem C11_short_down_out_of_bounds {A : arith} plat st (m : mem A) id o q :
  reach plat st m -> st id = Some o -> let r := o_res o in
  r_filter r = FILTER_IIR -> r_ratio r = 2 -> r_mode r = DOWN -> vector plat FILTER_IIR (r_use_sse r) = false ->
  c_ndebug q = true -> c_n q = 0 \/ c_n q = 1 -> is_user (pb (c_output q)) ->
  (~ mapped m (c_input q) 2 -> run_call r q m = Err OobRead) /\
  (mapped m (c_input q) 2 -> ~ mapped m (c_output q) 1 -> run_call r q m = Err OobWrite).
Proof. exact (short_down_oob plat st m id o q). Qed.
(** the vector version without asserts does nothing *)
Theorem C11_sse_does_nothing {A : arith} plat st (m : mem A) id o q :
  reach plat st m -> st id = Some o -> let r := o_res o in
  r_filter r = FILTER_IIR -> r_ratio r = 2 -> vector plat FILTER_IIR (r_use_sse r) = true -> c_ndebug q = true ->
  (r_mode r = UP -> c_n q = 0) -> (r_mode r = DOWN -> c_n q = 0 \/ c_n q = 1) ->
  run_call r q m = Ok (tt, m).
Proof. exact (short_sse plat st m id o q). Qed.

(** a downsampler that got 4 samples, then one sample in an array of one *)
Example C11_case ndebug : exists st (m : mem F32) o (q : call (A := F32)), reach (Platform true true) st m /\ st 0 = Some o /\
  r_filter (o_res o) = FILTER_IIR /\ r_ratio (o_res o) = 2 /\ r_mode (o_res o) = DOWN /\
  vector (Platform true true) FILTER_IIR (r_use_sse (o_res o)) = false /\ c_ndebug q = ndebug /\ c_n q = 1 /\
  is_user (pb (c_output q)) /\ mapped m (c_input q) 1 /\ ~ mapped m (c_input q) 2.
Proof.
  destruct (feed (A := F32) (Platform true true) DOWN 2 PREC_144DB false FILTER_IIR 0 [(0, repeat f1 4)]) as (st & m & o & H & E & Er & Ei).
  - split; [unfold ratio_no; auto|]. intros _. cbn. unfold iir_prec, PREC_144DB. auto 7.
  - constructor; [|constructor]. cbn. split; [lia | split; [lia | reflexivity]].
  - exists st, (prepare [f1] 0 0 m), o, (Call (addr_ex 0 1) ndebug (fun _ _ _ => f0) (Ptr (User 0) 0) 1 (Ptr (User 1) 0)).
    split. { apply reach_client with m; [exact H|]. intros b' i Hu _. unfold prepare.
             destruct b'; try reflexivity. exfalso. apply Hu. now exists k. }
    rewrite Er. repeat split; try assumption.
    + now exists 1.
    + intros k Hk. cbn [c_input pb po prepare]. replace k with 0 by lia. discriminate.
    + intros Q. apply (Q 1 ltac:(lia)). reflexivity.
Qed.

(** ** C12 *)
Theorem C12_odd_block_rejected {A : arith} plat st (m : mem A) id o q :
  reach plat st m -> st id = Some o -> let r := o_res o in
  r_filter r = FILTER_FIR -> r_mode r = DOWN -> r_ratio r = 2 -> c_n q mod 2 <> 0 ->
  run_call r q m = Ok (tt, m).
Proof. exact (odd_call plat st m id o q). Qed.
Example C12_case : exists st (m : mem F32) o, reach (Platform true false) st m /\ st 0 = Some o /\
  r_filter (o_res o) = FILTER_FIR /\ r_mode (o_res o) = DOWN /\ r_ratio (o_res o) = 2 /\ size (o_in o) = 6.
Proof.
  destruct (feed (A := F32) (Platform true false) DOWN 2 PREC_LINEAR true FILTER_FIR 0 [(0, repeat f1 4); (1, repeat f1 2)])
    as (st & m & o & H & E & Er & Ei).
  - split; [unfold ratio_no; auto|]. intros _. cbn. unfold fir_prec, PREC_LINEAR. auto 7.
  - constructor; [|constructor; [|constructor]]; cbn; (split; [lia | reflexivity]).
  - exists st, m, o. rewrite Er, Ei. repeat split; assumption.
Qed.

(** ** C16 *)
Theorem C16_copies {A : arith} plat st (m : mem A) id o :
  reach plat st m -> st id = Some o -> r_ratio (o_res o) = 1 -> o_out o = o_in o.
Proof.
  intros H E R1. pose proof (reach_resample_any plat _ _ _ _ H E) as R. cbn zeta in R. rewrite R1 in R.
  unfold resample_any in R. now destruct (r_mode (o_res o)).
Qed.
(** in place: nothing changes.  (std::copy is used with destination = source here,
    for which the C++ standard gives no guarantee; the model copies element by element.) *)
Theorem C16_in_place {A : arith} plat st (m : mem A) id o q :
  reach plat st m -> st id = Some o -> r_ratio (o_res o) = 1 ->
  c_output q = c_input q -> mapped m (c_input q) (c_n q) ->
  exists m', run_call (o_res o) q m = Ok (tt, m') /\ forall b i, m' b i = m b i.
Proof. intros _ _ R1. now apply in_place_copy. Qed.
Theorem C16_delay {A : arith} plat st (m : mem A) id o :
  reach plat st m -> st id = Some o -> r_ratio (o_res o) = 1 -> delay (o_res o) = Ok (b64_dy 0 0).
Proof.
  intros H E R1. destruct (reach_built plat _ _ _ _ H E) as [B _]. rewrite B, R1. apply delay_ratio1.
Qed.
Theorem C16_reset {A : arith} plat st (m : mem A) id o addr :
  reach plat st m -> st id = Some o -> r_ratio (o_res o) = 1 -> reset addr (o_res o) m = Ok (tt, m).
Proof. intros _ _. apply reset1. Qed.
Example C16_case md f prec : exists st (m : mem F32) o, reach (Platform true false) st m /\ st 0 = Some o /\
  r_mode (o_res o) = md /\ r_filter (o_res o) = f /\ r_prec (o_res o) = prec /\
  r_ratio (o_res o) = 1 /\ o_in o = [f1; f0; fhalf] /\ mapped m (Ptr (User 0) 0) 3.
Proof.
  destruct (some_call (A := F32) (Platform true false) md 1 prec true f [(0, [f1; f0; fhalf])] 0 [f1; f1; f1])
    as (st & m & o & H & E & Er & Ei & K).
  - split; [unfold ratio_no; auto|]. lia.
  - constructor; [|constructor]. cbn. split; [lia|]. exact I.
  - lia.
  - exact I.
  - exists st, m, o. rewrite Er, Ei. repeat split; try assumption. exact (has_mapped _ _ _ _ (co_in _ _ _ _ _ K)).
Qed.

(** ** C36 *)
(** The call reads both floats behind the input: whatever makes the call possible,
    if one of the two is not there, the call is an out-of-bounds read. *)
Theorem C36_reads_behind_the_input {A : arith} plat st (m : mem A) id o q b :
  reach plat st m -> st id = Some o -> let r := o_res o in
  r_filter r = FILTER_IIR -> r_ratio r = 2 -> r_mode r = DOWN -> vector plat FILTER_IIR (r_use_sse r) = true ->
  call_ok plat r m q b ->
  forall m1, (forall b' i, ~ inr (padd (c_input q) (len b)) 2 b' i -> m1 b' i = m b' i) ->
  ~ mapped m1 (padd (c_input q) (len b)) 2 -> run_call r q m1 = Err OobRead.
Proof. exact (down_over_read plat st m id o q b). Qed.
(** What is there does not matter. *)
Theorem C36_values_behind_do_not_matter {A : arith} plat st (m1 m2 : mem A) id o q b m1' m2' z1 z2 :
  reach plat st m1 -> reach plat st m2 -> st id = Some o -> let r := o_res o in
  call_ok plat r m1 q b -> call_ok plat r m2 q b ->
  run_call r q m1 = Ok (tt, m1') -> run_call r q m2 = Ok (tt, m2') ->
  len z1 = r_out r (len b) -> len z2 = r_out r (len b) ->
  has m1' (c_output q) (len z1) (nthZ z1) -> has m2' (c_output q) (len z2) (nthZ z2) -> z1 = z2.
Proof. intros H1 H2 E r K1 K2 R1 R2. exact (call_det plat st m1 st m2 id o q q b m1' m2' z1 z2 H1 H2 E E K1 K2 eq_refl eq_refl eq_refl R1 R2). Qed.
Example C36_case : exists st (m : mem F32) o (q : call (A := F32)), reach (Platform true false) st m /\ st 0 = Some o /\
  r_filter (o_res o) = FILTER_IIR /\ r_mode (o_res o) = DOWN /\ r_ratio (o_res o) = 2 /\
  vector (Platform true false) FILTER_IIR (r_use_sse (o_res o)) = true /\
  call_ok (Platform true false) (o_res o) m q [f1; f1; f1; f0] /\
  exists m1, (forall b' i, ~ inr (padd (c_input q) 4) 2 b' i -> m1 b' i = m b' i) /\ ~ mapped m1 (padd (c_input q) 4) 2.
Proof.
  destruct (some_call (A := F32) (Platform true false) DOWN 2 PREC_72DB true FILTER_IIR [(0, repeat f1 12)] 1
    [f1; f1; f1; f0]) as (st & m & o & H & E & Er & Ei & K).
  - split; [unfold ratio_no; auto|]. intros _. cbn. unfold iir_prec, PREC_72DB. auto 7.
  - constructor; [|constructor]. cbn. split; [lia | split; [lia | reflexivity]].
  - lia.
  - cbn. split; [lia | reflexivity].
  - exists st, m, o, (feed_call 1 [f1; f1; f1; f0]). rewrite Er in *.
    do 6 (split; [assumption || reflexivity|]). split; [exact K|].
    exists (fun b i => if blk_eqb b (User 0) && (i =? 5) then None else m b i). split.
    + intros b' i Hn. destruct (blk_eqb_spec b' (User 0)) as [->|]; [|reflexivity].
      destruct (Z.eqb_spec i 5) as [->|]; [|reflexivity]. exfalso. apply Hn. unfold inr. cbn. split; [reflexivity | lia].
    + intros Q. apply (Q 1 ltac:(lia)). reflexivity.
Qed.

(** ** C44 *)
(** A downsampler may write its output over its own input, at its beginning or
    further in front, unless it is a FIR downsampler by 2 with vector code (for
    which see PropsLimits.v).  The call succeeds, the output is the one specified for
    the concatenated input, and no other memory of the caller changes. *)
Theorem C44_in_place {A : arith} plat st (m : mem A) id o q b :
  reach plat st m -> st id = Some o ->
  let r := o_res o in let vec := vector plat (r_filter r) (r_use_sse r) in
  r_mode r = DOWN -> r_ratio r <> 1 -> (r_ratio r = 2 -> r_filter r = FILTER_FIR -> vec = false) ->
  addr_ok (c_addr q) -> c_n q = len b -> size_ok (r_filter r) DOWN (r_ratio r) (len b) ->
  is_user (pb (c_input q)) -> has m (c_input q) (len b) (nthZ b) ->
  mapped m (padd (c_input q) (len b)) (r_over plat r) ->
  pb (c_output q) = pb (c_input q) -> po (c_output q) <= po (c_input q) ->
  mapped m (c_output q) (len b / r_ratio r) ->
  (forall t, t = Tmp \/ t = Tmp2 ->
    asep (c_addr q) (c_input q) (len b + r_over plat r) (Ptr t 0) 4096 /\
    asep (c_addr q) (c_output q) (len b / r_ratio r) (Ptr t 0) 4096) ->
  exists m' z, run_call r q m = Ok (tt, m') /\ len z = len b / r_ratio r /\
    has m' (c_output q) (len z) (nthZ z) /\
    (forall b' i, is_user b' -> ~ inr (c_output q) (len z) b' i -> m' b' i = m b' i) /\
    resample_any (r_filter r) DOWN (r_prec r) vec (r_ratio r) (o_in o ++ b) (o_out o ++ z) /\
    reach plat (set_obj st id (Some (obj_call o q b z))) m'.
Proof.
  intros H E r vec Hm Hr Hf Ka Kn Ks Ku Ki Ko Hb Hp Kt Kst.
  assert (Eo : r_out r (len b) = len b / r_ratio r) by (unfold r_out, out_size; now rewrite Hm).
  assert (Hip : in_place plat r q).
  { split; [|now split]. split; [exact Hm|].
    destruct (reach_inv _ _ _ H _ _ E) as (_ & Rr & _). fold r in Rr.
    destruct Rr as [Q|[Q|[Q|Q]]]; [contradiction| | now left | right; now left].
    right. right. split; [exact Q|]. now apply Hf. }
  assert (K : call_ok plat r m q b).
  { constructor; try assumption; try (right; exact Hip); try (intros _; right; exact Hip).
    - now rewrite Hm.
    - now rewrite Hb.
    - now rewrite Eo.
    - now rewrite Eo. }
  destruct (reach_call_progress plat st m id o q b H E K) as (m' & z & H1 & H2 & H3 & H4 & H5).
  exists m', z. split; [exact H1|]. split; [now rewrite H2|]. split; [exact H3|]. split; [exact H4|]. split; [|exact H5].
  pose proof (reach_resample_any plat _ _ id (obj_call o q b z) H5) as R. rewrite o_in_call in R.
  rewrite <- Hm. apply R. unfold set_obj. now rewrite Z.eqb_refl.
Qed.

(** For IIR, and for FIR without vector code, this determines the output: whatever
    the buffers of the calls were in two programs with equal settings, equal input
    gives equal output. *)
Theorem C44_same_result {A : arith} plat st1 (m1 : mem A) id1 o1 q1 m1' z1 st2 (m2 : mem A) id2 o2 q2 m2' z2 b :
  reach plat st1 m1 -> st1 id1 = Some o1 -> reach plat st2 m2 -> st2 id2 = Some o2 ->
  let r1 := o_res o1 in let r2 := o_res o2 in
  r_filter r1 = r_filter r2 -> r_mode r1 = r_mode r2 -> r_ratio r1 = r_ratio r2 -> r_prec r1 = r_prec r2 ->
  let v := vector plat (r_filter r1) (r_use_sse r1) in v = vector plat (r_filter r2) (r_use_sse r2) ->
  (r_filter r1 = FILTER_FIR -> v = false) ->
  o_in o1 = o_in o2 ->
  call_ok plat r1 m1 q1 b -> in_place plat r1 q1 -> run_call r1 q1 m1 = Ok (tt, m1') ->
  call_ok plat r2 m2 q2 b -> disj (c_input q2) (len b) (c_output q2) (r_out r2 (len b)) -> run_call r2 q2 m2 = Ok (tt, m2') ->
  len z1 = r_out r1 (len b) -> has m1' (c_output q1) (len z1) (nthZ z1) ->
  len z2 = r_out r2 (len b) -> has m2' (c_output q2) (len z2) (nthZ z2) ->
  z1 = z2.
Proof.
  intros H1 E1 H2 E2 r1 r2 Ef Em Er Ep v Ev Hv Ei K1 _ R1 K2 _ R2 L1 S1 L2 S2.
  pose proof (reach_resample plat _ _ id1 o1 H1 E1 Hv) as P1.
  pose proof (reach_resample plat _ _ id2 o2 H2 E2) as P2. cbn zeta in P2. fold r2 in P2. rewrite <- Ef, <- Em, <- Er, <- Ep in P2.
  rewrite <- Ef in Ev. rewrite <- Ev, <- Ei in P2. specialize (P2 Hv).
  pose proof (reach_call plat _ _ id1 o1 q1 b z1 m1' H1 E1 K1 R1 L1 S1) as H1'.
  pose proof (reach_call plat _ _ id2 o2 q2 b z2 m2' H2 E2 K2 R2 L2 S2) as H2'.
  pose proof (reach_resample plat _ _ id1 (obj_call o1 q1 b z1) H1' (set_obj_same _ _ _) Hv) as Q1.
  pose proof (reach_resample plat _ _ id2 (obj_call o2 q2 b z2) H2' (set_obj_same _ _ _)) as Q2.
  rewrite o_in_call in Q1, Q2. cbn [obj_call o_res o_out] in Q1, Q2. fold r1 in Q1. fold r2 in Q2.
  rewrite <- Ef, <- Em, <- Er, <- Ep, <- Ev, <- Ei in Q2. specialize (Q2 Hv).
  assert (Q : o_out o1 ++ z1 = o_out o2 ++ z2) by (etransitivity; [exact Q1 | symmetry; exact Q2]).
  assert (P : o_out o1 = o_out o2) by (etransitivity; [exact P1 | symmetry; exact P2]).
  rewrite P in Q. now apply app_inv_head in Q.
Qed.

(** the input is overwritten from its first sample, in all three kinds of configurations *)
Definition over_call (b : list F32) : call (A := F32) :=
  Call (addr_ex 3 (len b)) false (fun _ _ _ => f0) (Ptr (User 0) 0) (len b) (Ptr (User 0) 0).
Lemma over_call_ok plat ratio prec use_sse f (bs : list (Z * list F32)) b :
  valid f ratio prec -> Forall (fun sb => 0 <= fst sb /\ size_ok f DOWN ratio (len (snd sb))) bs -> size_ok f DOWN ratio (len b) ->
  in_place_ok (vector plat f use_sse) f DOWN ratio ->
  exists st m o, reach plat st m /\ st 0 = Some o /\ o_res o = built plat 0 DOWN ratio prec use_sse f /\
    o_in o = concat (map snd bs) /\ in_place plat (o_res o) (over_call b) /\ call_ok plat (o_res o) m (over_call b) b.
Proof.
  intros V F Hb Hi. destruct (some_call plat DOWN ratio prec use_sse f bs 3 b V F ltac:(lia) Hb) as (st & m & o & H & E & Er & Ei & K).
  exists st, m, o. repeat (split; [assumption|]). assert (I : in_place plat (o_res o) (over_call b)).
  { split; [rewrite Er; exact Hi|]. split; [reflexivity | cbn; lia]. }
  split; [exact I|]. destruct K as [? ? ? ? ? K1 K2 K3 ? ? K4].
  assert (Hn : 0 <= r_out (o_res o) (len b) <= len b).
  { rewrite Er. unfold r_out, out_size. cbn [built r_mode r_ratio]. assert (0 <= len b) by (unfold len; lia).
    destruct Hi as (_ & [->|[->|[-> _]]]); lia. }
  constructor; try assumption; try (right; exact I); try (intros _; right; exact I).
  - intros k Hk. cbn [over_call c_output pb po]. cbn [over_call c_input] in K1. specialize (K1 k ltac:(lia)).
    cbn [feed_call c_input pb po] in K1. rewrite K1. discriminate.
  - intros t Ht. split; [apply K4; exact Ht|]. destruct (K4 t Ht) as [Q _]. unfold asep in *. cbn [feed_call over_call c_input c_output c_addr] in *.
    destruct (over_range (vector plat (r_filter (o_res o)) (r_use_sse (o_res o))) (r_filter (o_res o)) (r_mode (o_res o)) (r_ratio (o_res o))).
    unfold r_over in *. lia.
Qed.
Example C44_case : let b := [f1; f0; f0; f1; f0; f0; f0; f0] in
  (exists st m o, reach (Platform true false) st m /\ st 0 = Some o /\ r_filter (o_res o) = FILTER_IIR /\ r_ratio (o_res o) = 2 /\
    size (o_in o) = 16 /\ in_place (Platform true false) (o_res o) (over_call b) /\ call_ok (Platform true false) (o_res o) m (over_call b) b) /\
  (exists st m o, reach (Platform true false) st m /\ st 0 = Some o /\ r_filter (o_res o) = FILTER_FIR /\ r_ratio (o_res o) = 4 /\
    size (o_in o) = 16 /\ in_place (Platform true false) (o_res o) (over_call b) /\ call_ok (Platform true false) (o_res o) m (over_call b) b) /\
  (exists st m o, reach (Platform false false) st m /\ st 0 = Some o /\ r_filter (o_res o) = FILTER_FIR /\ r_ratio (o_res o) = 2 /\
    size (o_in o) = 16 /\ in_place (Platform false false) (o_res o) (over_call b) /\ call_ok (Platform false false) (o_res o) m (over_call b) b).
Proof.
  intros b. split; [|split].
  - destruct (over_call_ok (Platform true false) 2 PREC_96DB true FILTER_IIR [(0, repeat f1 16)] b) as (st & m & o & H & E & Er & Ei & I & K).
    + split; [unfold ratio_no; auto|]. intros _. cbn. unfold iir_prec, PREC_96DB. auto 7.
    + constructor; [|constructor]. cbn. split; [lia | split; [lia | reflexivity]].
    + cbn. split; [lia | reflexivity].
    + split; [reflexivity|]. right. right. split; [reflexivity | discriminate].
    + exists st, m, o. rewrite Er in *. do 4 (split; [assumption || reflexivity|]). split; [rewrite Ei; reflexivity | now split].
  - destruct (over_call_ok (Platform true false) 4 PREC_96DB true FILTER_FIR [(0, repeat f1 16)] b) as (st & m & o & H & E & Er & Ei & I & K).
    + split; [unfold ratio_no; auto|]. intros _. cbn. unfold fir_prec, PREC_96DB. auto 7.
    + constructor; [|constructor]. cbn. split; [lia | reflexivity].
    + reflexivity.
    + split; [reflexivity|]. left. reflexivity.
    + exists st, m, o. rewrite Er in *. do 4 (split; [assumption || reflexivity|]). split; [rewrite Ei; reflexivity | now split].
  - destruct (over_call_ok (Platform false false) 2 PREC_96DB true FILTER_FIR [(0, repeat f1 16)] b) as (st & m & o & H & E & Er & Ei & I & K).
    + split; [unfold ratio_no; auto|]. intros _. cbn. unfold fir_prec, PREC_96DB. auto 7.
    + constructor; [|constructor]. cbn. split; [lia | reflexivity].
    + reflexivity.
    + split; [reflexivity|]. right. right. split; [reflexivity|]. reflexivity.
    + exists st, m, o. rewrite Er in *. do 4 (split; [assumption || reflexivity|]). split; [rewrite Ei; reflexivity | now split].
Qed.

Print Assumptions C08_fir_memory_safe.
Print Assumptions C37_iir_memory_safe.
Print Assumptions C09_footprint.
Print Assumptions C09_output_defined.
Print Assumptions C10_empty_block.
Print Assumptions C11_short_block_aborts.
Print Assumptions C11_empty_up_processes_a_sample.
Print Assumptions C11_short_down_processes_two_samples.
Print Assumptions C11_empty_up_out_of_bounds.
Print Assumptions C11_short_down_out_of_bounds.
Print Assumptions C11_sse_does_nothing.
Print Assumptions C12_odd_block_rejected.
Print Assumptions C16_copies.
Print Assumptions C16_in_place.
Print Assumptions C16_delay.
Print Assumptions C16_reset.
Print Assumptions C36_reads_behind_the_input.
Print Assumptions C36_values_behind_do_not_matter.
Print Assumptions C44_in_place.
Print Assumptions C44_same_result.
