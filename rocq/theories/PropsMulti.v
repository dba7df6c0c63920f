(** * Properties: tests/testmultidelay.cc and tests/testaddr.cc *)
From Coq Require Import ZArith Reals List Lia Lra Bool String ZifyNat ZifyBool.
From Flocq Require Import Core BinarySingleNaN.
From Interval Require Import Tactic.
From Verif Require Import Arith ArithR ArithF Mem FirModel IirModel Tables ResamplerModel Wp Stage Cascade
  ResamplerProof ResamplerOk Spec SpecOk SpecR Client Feed StreamFacts DelayFacts ConfigFacts IirCalls TablesF TableFacts FirReal FreqFir Tones
  Cases PropsFir PropsFreq FloatFreq PropsFloatFreq AccuracyModel AccuracyProof AccuracySine ToneAt MultiModel MultiProof MultiSine MultiRead PropsRatio.
Import ListNotations.
Open Scope string_scope.
Open Scope Z_scope.

(** ** C72: testmultidelay.cc *)

Lemma default_standard : Forall standard default_tests.
Proof. unfold default_tests, standard, PREC_96DB, PREC_120DB, PREC_144DB. cbn [flat_map map app Z.eqb Pos.eqb]. repeat (constructor; [cbn; auto|]). constructor. Qed.
Lemma default_runnable plat nassert : Forall (runnable plat nassert) default_tests.
Proof.
  apply Forall_forall. intros t Ht. pose proof default_standard as F. rewrite Forall_forall in F. specialize (F t Ht).
  split; [apply standard_valid, F|]. split.
  - right. assert (S : forallb (fun t => (t_up t || t_down t || t_over t) && (t_fir t || t_iir t || t_iir_sse t)) default_tests = true) by reflexivity.
    rewrite forallb_forall in S. specialize (S t Ht). apply andb_prop in S. exact S.
  - intros _ N. rewrite (standard_filter t F) in N. discriminate.
Qed.

(** Without arguments nothing goes wrong and the result is 0, whatever the arithmetic, the platform, the
    contents of memory and the addresses; the 27 reports are about the outputs of the resamplers. *)
Theorem C72_default_run {A : arith} plat (to_float : R -> A) to_double addr garbage nassert ndebug atoi (m : mem A) :
  (forall id, far (addr id)) ->
  exists rs m', multidelay_main plat to_float to_double addr garbage nassert ndebug atoi [] m = Ok ((0, rs), m') /\
    Forall2 (report_of plat to_float to_double) default_tests rs.
Proof.
  intros HA. destruct (run_tests_ok plat to_float to_double garbage nassert ndebug addr default_tests HA (default_runnable plat nassert) 0 (fun _ => None) m)
    as (rs & m' & st' & E & _ & F); [apply reach_init | reflexivity|].
  exists rs, m'. split; [|exact F]. unfold multidelay_main, bind. rewrite E. reflexivity.
Qed.

(** With four arguments: the same for every supported filter, except that the IIR downsamplers with vector code
    must not read behind their input (see below). *)
Theorem C72_run_with_arguments {A : arith} plat (to_float : R -> A) to_double addr garbage nassert ndebug atoi a1 a2 a3 a4 (m : mem A) :
  (forall id, far (addr id)) ->
  let t := test_of atoi a1 a2 a3 a4 in
  valid (t_filter t) (t_ratio t) (t_prec t) ->
  (nassert = true \/ (a1 = "up" \/ a1 = "down" \/ a1 = "over") /\ (a4 = "fir" \/ a4 = "iir" \/ a4 = "iir-sse")) ->
  (vector plat (t_filter t) (t_sse t) = true -> a4 <> "fir" -> 2 <= t_ratio t -> a1 = "up" \/ a1 <> "down" /\ t_ratio t <= 4) ->
  exists r m', multidelay_main plat to_float to_double addr garbage nassert ndebug atoi [a1; a2; a3; a4] m = Ok ((0, [r]), m') /\
    report_of plat to_float to_double t r.
Proof.
  intros HA t HV HS HR.
  assert (RN : runnable plat nassert t).
  { split; [exact HV|]. split.
    - destruct HS as [HS|[H1 H2]]; [left; exact HS|]. right. unfold sensible, t, test_of. cbn [t_up t_down t_over t_fir t_iir t_iir_sse].
      split; [destruct H1 as [->|[->| ->]] | destruct H2 as [->|[->| ->]]]; reflexivity.
    - intros V F R2. unfold t, test_of in F |- *. cbn [t_up t_down t_filter t_fir] in *. unfold t_filter in F. cbn [t_fir] in F.
      destruct (String.eqb_spec a4 "fir") as [|N4]; [discriminate|].
      destruct (HR V N4 R2) as [->|[N1 L]]; [left; reflexivity|]. right. split; [|exact L]. now destruct (String.eqb_spec a1 "down"). }
  destruct (run_report plat to_float to_double nassert ndebug (addr 0) 0 1 t (fun _ => None) m true (garbage 0) (HA 0) ltac:(lia) RN (reach_init plat m) eq_refl eq_refl)
    as (r & m' & st' & E & _ & F & _).
  exists r, m'. split; [|exact F]. unfold multidelay_main, run_arguments, argument, bind. cbn [nth_error ret]. fold t. rewrite E. reflexivity.
Qed.

(** Arguments "down", "2", any supported precision, "iir-sse" on a machine with SSE: the program reads behind the end of the input array. *)
Theorem C72_vector_iir_reads_behind {A : arith} plat (to_float : R -> A) to_double addr garbage nassert ndebug atoi a2 a3 (m : mem A) :
  has_sse plat = true -> (forall id, far (addr id)) -> (forall t, t = Tmp \/ t = Tmp2 -> asep (addr 0) (Ptr in_a 0) 1026 (Ptr t 0) 4096) ->
  atoi a2 = 2 -> 1 < u32 (atoi a3) ->
  multidelay_main plat to_float to_double addr garbage nassert ndebug atoi ["down"; a2; a3; "iir-sse"] m = Err OobRead.
Proof.
  intros SSE HA HT E2 E3. unfold multidelay_main, run_arguments, argument, bind. cbn [nth_error ret].
  rewrite (run_over_read plat to_float to_double (addr 0) (garbage 0) nassert ndebug 0 1 (test_of atoi "down" a2 a3 "iir-sse") true (fun _ => None) m (HA 0) HT); try reflexivity; try assumption; try apply reach_init; try lia.
  cbn [test_of t_prec]. unfold iir_prec, find_precision_for_bits, PREC_LINEAR, PREC_48DB, PREC_72DB, PREC_96DB, PREC_120DB, PREC_144DB.
  repeat match goal with |- context [?a <=? ?b] => destruct (Z.leb_spec a b) end; lia.
Qed.

(** In exact arithmetic: the delays that are printed, and all 27 errors are below max_error. *)
Definition printed_delays : list R :=
  ([31; 41; 51; 71; 95; 117; 149; 199; 245;
    15.5; 20.5; 25.5; 17.75; 23.75; 29.25; 18.625; 24.875; 30.625;
    31; 41; 51; 35.5; 47.5; 58.5; 37.25; 49.75; 61.25])%R.
Lemma default_delays : map delay_of default_tests = printed_delays.
Proof.
  unfold default_tests, printed_delays, PREC_96DB, PREC_120DB, PREC_144DB. cbn [flat_map map app Z.eqb Pos.eqb]. unfold delay_of, total_delay. cbn [t_up t_down t_ratio t_prec].
  repeat match goal with |- context [fir_delay8 ?a ?b ?c] => let v := eval vm_compute in (fir_delay8 a b c) in change (fir_delay8 a b c) with v end.
  repeat (f_equal; [lra|]). f_equal. lra.
Qed.

Lemma forall2_imp {X Y} (P Q : X -> Y -> Prop) (G : X -> Prop) l k : (forall x y, G x -> P x y -> Q x y) -> Forall G l -> Forall2 P l k -> Forall2 Q l k.
Proof. intros H HG F. induction F as [|x y l k Hp F IH]; [constructor|]. inversion HG; subst. constructor; auto. Qed.
Lemma forall2_map {X Y Z} (f : X -> Z) (g : Y -> Z) l k : Forall2 (fun x y => g y = f x) l k -> map g k = map f l.
Proof. induction 1; cbn [map]; [reflexivity | congruence]. Qed.

Theorem C72_exact_arithmetic plat addr garbage nassert ndebug atoi (m : mem RA) : (forall id, far (addr id)) ->
  exists rs m', multidelay_main (A := RA) plat (fun v => v) Fin addr garbage nassert ndebug atoi [] m = Ok ((0, rs), m') /\
    map p_delay rs = printed_delays /\
    Forall (fun r => exists v, p_error r = Fin v /\ (0 <= v <= 4.1e-5)%R /\ (v < max_error)%R) rs.
Proof.
  intros HA. destruct (C72_default_run (A := RA) plat (fun v => v) Fin addr garbage nassert ndebug atoi m HA) as (rs & m' & E & F). exists rs, m'. split; [exact E|].
  pose proof (forall2_imp _ _ _ _ _ (exact_report plat) default_standard F) as G. split.
  - rewrite <- default_delays. apply forall2_map. eapply (forall2_imp _ _ (fun _ => True)); [|apply Forall_forall; auto|exact G]. intros t r _ (_ & Q & _). exact Q.
  - pose proof (forall2_imp _ (fun t r => standard t /\ up_to (exact_err t) (p_error r)) standard _ _ (fun t r S Q => conj S (proj2 (proj2 Q))) default_standard G) as G2.
    clear - G2. induction G2 as [|t r l k [S (v & Ev & Hv)] G2 IH]; constructor; [|exact IH]. exists v. pose proof (exact_err_pos t S). split; [exact Ev|]. unfold max_error. lra.
Qed.

(** In single precision: the same delays; an upper limit for each error, below max_error for 20 of the 27 runs. *)
Theorem C72_single_precision plat addr garbage nassert ndebug atoi (m : mem F32) : (forall id, far (addr id)) ->
  exists rs m', multidelay_main (A := F32) plat (fun v => b32_round v : F32) b32_double addr garbage nassert ndebug atoi [] m = Ok ((0, rs), m') /\
    map p_delay rs = printed_delays /\
    Forall2 (fun t r => exists v, p_error r = Fin v /\ (0 <= v)%R /\
      ((t_over t = false \/ t_ratio t = 2) /\ ~ (t_up t = true /\ t_ratio t = 8 /\ t_prec t = PREC_96DB) -> (v < max_error)%R) /\
      (t_up t = true -> (v <= 7.1e-5)%R) /\ (t_over t = true -> (v <= if t_ratio t =? 4 then 1.1e-4 else 2.8e-4)%R)) default_tests rs.
Proof.
  intros HA. destruct (C72_default_run (A := F32) plat (fun v => b32_round v : F32) b32_double addr garbage nassert ndebug atoi m HA) as (rs & m' & E & F). exists rs, m'. split; [exact E|].
  pose proof (forall2_imp _ _ _ _ _ (float_report plat) default_standard F) as G. split.
  - rewrite <- default_delays. apply forall2_map. eapply (forall2_imp _ _ (fun _ => True)); [|apply Forall_forall; auto|exact G]. intros t r _ (_ & Q & _). exact Q.
  - assert (M : Forall (fun t => standard t /\ Bool.eqb (t_over t) (negb (t_up t || t_down t)) = true) default_tests).
    { apply Forall_and; [apply default_standard|]. apply Forall_forall. apply forallb_forall. reflexivity. }
    eapply forall2_imp; [|exact M|exact G]. intros t r [S O] (_ & _ & (v & Ev & Hv)). exists v. split; [exact Ev|]. split; [apply Hv|].
    pose proof (float_numbers_1000 t S) as N. apply Bool.eqb_prop in O. unfold float_limit in N. unfold max_error, PREC_96DB. destruct S as (_ & R & P).
    destruct (t_up t); [|destruct (t_down t)]; cbn [orb negb] in O; rewrite O;
    destruct R as [R|[R|R]], P as [P|[P|P]]; rewrite R, P in *; cbn [Z.eqb Pos.eqb] in *; (split; [intros [Q1 Q2]|split; intros Q]);
    try discriminate; try lra; try (exfalso; apply Q2; auto; fail); try (destruct Q1 as [Q1|Q1]; discriminate).
Qed.

(** The limit max_error has no effect: arguments "up", "2", "8", "fir" give a larger error, and the result is 0 all the same. *)
Theorem C72_large_error_not_reported plat addr garbage nassert ndebug atoi a2 a3 (m : mem RA) : (forall id, far (addr id)) ->
  atoi a2 = 2 -> atoi a3 = 8 ->
  exists r m' v, multidelay_main (A := RA) plat (fun v => v) Fin addr garbage nassert ndebug atoi ["up"; a2; a3; "fir"] m = Ok ((0, [r]), m') /\
    p_error r = Fin v /\ (20 * max_error < v)%R.
Proof.
  intros HA E2 E3. set (t := test_of atoi "up" a2 a3 "fir").
  assert (TR : t_ratio t = 2) by exact E2. assert (TP : t_prec t = 8) by (unfold t, test_of; cbn [t_prec]; rewrite E3; reflexivity).
  destruct (C72_run_with_arguments (A := RA) plat (fun v => v) Fin addr garbage nassert ndebug atoi "up" a2 a3 "fir" m HA) as (r & m' & E & F).
  - fold t. rewrite TR, TP. apply configb_ok. reflexivity.
  - right. auto.
  - intros _ N. congruence.
  - fold t in F. destruct F as (st & mm & idu & idd & ou & od & y & du & dd & H & Eu & Ed & Ru & Rd & Hu & Hd & Pos & PT & Ly & Er).
    unfold total_delay, passed_through, out_samples, new_rate in *. change (t_up t) with true in *. cbv iota in *. rewrite TR in *. destruct PT as [Ex Ey].
    assert (TF : t_filter t = FILTER_FIR) by reflexivity. rewrite TF, TP in *.
    assert (DU : du = 15%R).
    { rewrite Ru in Hu. rewrite (delay_unique _ _ _ Hu (fir_delay_is plat idu UP 2 8 (t_sse t) ltac:(now apply configb_ok))).
      replace (fir_delay8 UP 2 8) with 120 by reflexivity. lra. }
    subst du.
    pose proof (C49_sine_upsampling plat st mm idu ou 15 1 w1000 0 H Eu) as Q. cbn zeta in Q. rewrite Ru in Q. cbn [built r_filter r_mode r_ratio r_prec] in Q.
    rewrite Ru in Hu. specialize (Q eq_refl eq_refl eq_refl Hu). rewrite Ex, Ey in Q.
    assert (Sx : size (signal (A := RA) (fun v => v)) = 1024) by apply size_signal.
    assert (Sy : size y = 2048) by exact Ly.
    specialize (Q ltac:(intros k Hk; rewrite Sx in Hk; rewrite (signal_at (A := RA)) by exact Hk; unfold freq, rate, w1000; rewrite Rmult_1_l; f_equal; field) 36 ltac:(lra) ltac:(rewrite Sy; lia)).
    change (Z.even 36) with true in Q. cbv iota in Q. pose proof gain_48dB as G. set (g := response _ _) in *.
    assert (SB : (0.99 <= sin (w1000 * ((36 - 15) / 2) + 0))%R) by (unfold w1000; interval with (i_prec 60)).
    assert (DB : (20 * max_error < ideal (rate * 2) 15 36 - smp y 36)%R).
    { rewrite Q. unfold ideal. replace ((36 - 15) * freq / (rate * 2) * 2 * PI)%R with (w1000 * ((36 - 15) / 2) + 0)%R by (unfold freq, rate, w1000; field).
      set (sv := sin _) in *. replace (sv - g * (1 * sv))%R with ((1 - g) * sv)%R by ring. unfold max_error. clearbody sv g.
      assert (1.17e-3 * 0.99 <= (1 - g) * sv)%R by (apply Rmult_le_compat; lra). lra. }
    destruct (measure_above (A := RA) Fin (rate * 2) 15 y (20 * max_error) 2048 36 (smp y 36)) as (u & Eu' & Hu'); try lra; try lia; try reflexivity; try exact DB.
    + intros i _. eexists. reflexivity.
    + exists r, m', u. split; [exact E|]. split; [|exact Hu']. rewrite Er. cbn [p_error]. exact Eu'.
Qed.

(** Only outputs that are too small count: the error is 0 for outputs at or above what is expected, and for NaN. *)
Theorem C72_only_downwards {A : arith} (to_double : A -> xdouble) verbose (y : list A) new_rate delay (m : mem A) :
  has m (Ptr out_a 0) (len y) (nthZ y) ->
  (forall i, 0 <= i < len y -> let pos := (IZR i - delay)%R in
     match to_double (nthZ y i) with
     | NaN | PInf => True | MInf => False
     | Fin v => ((if Rle_dec 0 pos then sin (pos * freq / new_rate * 2 * PI) else 0) <= v)%R end) ->
  find_error to_double verbose (len y) new_rate delay m = Ok (Fin 0, m).
Proof.
  intros Hh H. rewrite (find_error_ok (fun _ => f0) to_double (fun _ _ _ _ => f0) verbose y new_rate delay m Hh). do 2 f_equal. apply measure_nothing. intros i Hi.
  pose proof (len_nonneg y). rewrite Z2Nat.id in Hi by assumption. specialize (H i Hi). cbn zeta in H. rewrite nthZ_smp in H by lia. unfold expected_at.
  destruct (to_double (smp y i)); auto.
Qed.

(** addresses as required exist *)
Definition md_addr (b : blk) : Z := match b with Tmp2 => 2 ^ 20 | User k => 2 ^ 21 + 65536 * k | _ => 0 end.
Example C72_addresses : far md_addr /\ forall t, t = Tmp \/ t = Tmp2 -> asep md_addr (Ptr in_a 0) 1026 (Ptr t 0) 4096.
Proof.
  split.
  - constructor.
    + constructor; intros; try reflexivity. right. unfold paddr. cbn. lia.
    + right. unfold paddr. cbn. lia.
    + right. unfold paddr. cbn. lia.
    + left. unfold paddr. cbn. lia.
    + intros t [->| ->]; repeat split; left; unfold paddr; cbn; lia.
  - intros t [->| ->]; left; unfold paddr; cbn; lia.
Qed.
(** the hypotheses of [C72_run_with_arguments] for "over 4 16 iir-sse" and "down 8 24 fir" *)
Example C72_case_arguments plat : let atoi s := if String.eqb s "4" then 4 else if String.eqb s "16" then 16 else if String.eqb s "8" then 8 else 24 in
  (let t := test_of atoi "over" "4" "16" "iir-sse" in valid (t_filter t) (t_ratio t) (t_prec t) /\ t_sse t = true /\ t_filter t = FILTER_IIR /\ t_ratio t = 4) /\
  (let t := test_of atoi "down" "8" "24" "fir" in valid (t_filter t) (t_ratio t) (t_prec t) /\ vector plat (t_filter t) (t_sse t) = has_sse plat || has_neon plat).
Proof. split; [split; [apply configb_ok; reflexivity | repeat split]|]. split; [apply configb_ok; reflexivity|]. unfold vector, t_filter, t_sse. cbn. now rewrite ?andb_true_r. Qed.
(** [find_error] with NaN in the whole output *)
Example C72_case_nan : exists (m : mem F32) (y : list F32), len y = 2048 /\ has m (Ptr out_a 0) (len y) (nthZ y) /\
  find_error b32_double false (len y) (rate * 2) 31 m = Ok (Fin 0, m).
Proof.
  set (y := repeat (B754_nan : b32) 2048 : list F32). set (m := fun (b : blk) i => if blk_eqb b out_a && (0 <=? i) && (i <? 2048) then Some (nthZ y i) else None).
  assert (Ly : len y = 2048) by reflexivity.
  assert (N : forall i, 0 <= i < len y -> nthZ y i = (B754_nan : b32)).
  { intros i Hi. rewrite Ly in Hi. unfold nthZ, y. destruct (Z.ltb_spec i 0); [lia|]. rewrite (nth_indep _ _ (B754_nan : T F32)) by (rewrite repeat_length; lia). apply nth_repeat. }
  assert (Hh : has m (Ptr out_a 0) (len y) (nthZ y)).
  { intros i Hi. rewrite Ly in Hi. cbn [pb po]. unfold m. rewrite blk_eqb_refl. cbn [andb]. destruct (Z.leb_spec 0 (0 + i)), (Z.ltb_spec (0 + i) 2048); try lia. reflexivity. }
  exists m, y. split; [exact Ly|]. split; [exact Hh|]. apply C72_only_downwards; [exact Hh|]. intros i Hi. cbn zeta. rewrite N by exact Hi. exact I.
Qed.

(** *** Wrong arguments *)
(** fewer than four: a string that is not there is compared *)
Theorem C72_few_arguments {A : arith} plat (to_float : R -> A) to_double addr garbage nassert ndebug atoi args (m : mem A) :
  (1 <= List.length args < 4)%nat -> multidelay_main plat to_float to_double addr garbage nassert ndebug atoi args m = Err NullDeref.
Proof. destruct args as [|a1 [|a2 [|a3 [|a4 args]]]]; cbn [List.length]; intros H; try lia; reflexivity. Qed.
(** other words, or a ratio above 8: an assertion, if these are compiled in *)
Theorem C72_wrong_words {A : arith} plat (to_float : R -> A) to_double addr garbage ndebug atoi a1 a2 a3 a4 (m : mem A) :
  ~ (a1 = "up" \/ a1 = "down" \/ a1 = "over") \/ ~ (a4 = "fir" \/ a4 = "iir" \/ a4 = "iir-sse") \/ 8 < atoi a2 ->
  multidelay_main plat to_float to_double addr garbage false ndebug atoi [a1; a2; a3; a4] m = Err AssertFail.
Proof.
  intros H. unfold multidelay_main, run_arguments, argument, run, bind. cbn [nth_error ret]. unfold assert_, test_of. cbn [t_up t_down t_over t_fir t_iir t_iir_sse t_ratio t_prec].
  destruct (_ || _ || _) eqn:E1; [|reflexivity]. cbn [require ret].
  destruct (String.eqb a4 "fir" || String.eqb a4 "iir" || String.eqb a4 "iir-sse") eqn:E2; [|reflexivity]. cbn [require ret].
  destruct H as [H|[H|H]].
  - exfalso. apply H. repeat (apply orb_prop in E1; destruct E1 as [E1|E1]); apply String.eqb_eq in E1; auto.
  - exfalso. apply H. repeat (apply orb_prop in E2; destruct E2 as [E2|E2]); apply String.eqb_eq in E2; auto.
  - set (f := t_filter _). set (v := t_sse _). set (p := find_precision_for_bits _). set (ra := u32 _).
    destruct (construct_any plat 0 UP ra p v f m) as (m1 & -> & _). destruct (construct_any plat 1 DOWN ra p v f m1) as (m2 & -> & _).
    unfold MAX_RATIO. replace (atoi a2 <=? 8) with false by lia. reflexivity.
Qed.
(** a ratio or a precision for which there is no filter: the program does not return *)
Lemma fails_bind {A : arith} {X Y} (c : M A X) (k : X -> M A Y) m :
  (forall x m', c m = Ok (x, m') -> exists e, k x m' = Err e) -> exists e, bind c k m = Err e.
Proof. intros H. unfold bind. destruct (c m) as [[x m']|e]; [now apply H | now exists e]. Qed.
Lemma fails_first {A : arith} {X Y} (c : M A X) (k : X -> M A Y) m : (exists e, c m = Err e) -> exists e, bind c k m = Err e.
Proof. intros [e E]. exists e. unfold bind. now rewrite E. Qed.
Lemma process_fails {A : arith} plat id md ratio prec sse f addr ndebug (g : Z -> Z -> Z -> A) inp n out m :
  0 <= ratio <= 8 -> ~ valid f ratio prec -> 1 <= n -> exists e, process_block addr ndebug g (built plat id md ratio prec sse f) inp n out m = Err e.
Proof.
  intros Hr V Hn. set (q := Call addr ndebug g inp n out).
  assert (D : ratio_no ratio \/ ~ ratio_no ratio) by (unfold ratio_no; lia). destruct D as [D|D].
  - exists NullDeref. destruct (Z_lt_le_dec ratio 2) as [L|L]; [exfalso; apply V; split; [exact D | lia]|].
    apply (no_tables_null plat id md ratio prec sse f q m L); [|exact Hn]. intros T. apply V. split; [exact D | intros _; exact T].
  - destruct (construct_any plat id md ratio prec sse f m) as (m1 & E & _).
    destruct (C63_below_8 plat id md ratio prec sse f m _ _ m1 q m E) as [_ F]; [unfold ratio_no in D; lia | exact D | exact Hn | exact F].
Qed.
Theorem C72_no_filter {A : arith} plat (to_float : R -> A) to_double addr garbage nassert ndebug atoi a1 a2 a3 a4 (m : mem A) :
  let t := test_of atoi a1 a2 a3 a4 in
  0 <= t_ratio t <= 8 -> ~ valid (t_filter t) (t_ratio t) (t_prec t) ->
  exists e, multidelay_main plat to_float to_double addr garbage nassert ndebug atoi [a1; a2; a3; a4] m = Err e.
Proof.
  intros t Hr V. unfold multidelay_main, run_arguments, argument, bind. cbn [nth_error ret]. fold t.
  enough (Q : exists e, run plat to_float to_double (addr 0) (garbage 0) nassert ndebug 0 1 t true m = Err e) by (destruct Q as [e ->]; now exists e).
  unfold run. apply fails_bind; intros ? ? _. apply fails_bind; intros ? m0 _. replace (u32 (t_ratio t)) with (t_ratio t) by (unfold u32; rewrite Z.mod_small; lia).
  apply fails_bind. intros u m1 Eu. apply fails_bind. intros d m2 Ed.
  destruct (construct_any plat 0 UP (t_ratio t) (t_prec t) (t_sse t) (t_filter t) m0) as (? & Eu' & _). rewrite Eu in Eu'. injection Eu' as -> _.
  destruct (construct_any plat 1 DOWN (t_ratio t) (t_prec t) (t_sse t) (t_filter t) m1) as (? & Ed' & _). rewrite Ed in Ed'. injection Ed' as -> _. cbn [fst].
  do 4 (apply fails_bind; intros ? ? _). apply fails_first. unfold resample_once. destruct (t_up t); [|destruct (t_down t)].
  - apply fails_first. now apply process_fails.
  - apply fails_bind; intros ? ? _. apply fails_first. now apply process_fails.
  - do 3 (apply fails_bind; intros ? ? _). apply fails_first. now apply process_fails.
Qed.
Example C72_case_wrong : ~ valid FILTER_IIR 2 PREC_LINEAR /\ ~ valid FILTER_FIR 0 PREC_96DB /\ ~ valid FILTER_FIR 6 PREC_96DB /\ (let t := test_of (fun s => if String.eqb s "1" then 1 else 2) "over" "2" "1" "iir" in t_ratio t = 2 /\ t_prec t = PREC_LINEAR /\ t_filter t = FILTER_IIR).
Proof.
  split; [|split; [|split; [|repeat split]]].
  - intros [_ H]. specialize (H ltac:(lia)). unfold has_tables, iir_prec, PREC_LINEAR in H. cbn in H. lia.
  - intros [H _]. unfold ratio_no in H. lia.
  - intros [H _]. unfold ratio_no in H. lia.
Qed.

(** a negative ratio passes the assertion, the object works like one for ratio 8, and no sample is compared: the error is 0 *)
Definition with_ratio (t : test) (ratio : Z) : test := Test (t_up t) (t_down t) (t_over t) ratio (t_prec t) (t_fir t) (t_iir t) (t_iir_sse t).
Lemma run_negative {A : arith} plat (to_float : R -> A) to_double addr g nassert ndebug idu idd t verbose (m m' : mem A) rep :
  - 2 ^ 21 <= t_ratio t < 0 -> t_up t = true ->
  run plat to_float to_double addr g nassert ndebug idu idd (with_ratio t 8) verbose m = Ok (rep, m') ->
  exists d m'', run plat to_float to_double addr g nassert ndebug idu idd t verbose m = Ok (Report (rate * IZR (t_ratio t)) d (Fin 0), m'').
Proof.
  intros Hr Hu H. unfold run, bind in *. cbn [with_ratio t_up t_down t_over t_fir t_iir t_iir_sse t_ratio t_prec] in H.
  change (t_filter (with_ratio t 8)) with (t_filter t) in H. change (t_sse (with_ratio t 8)) with (t_sse t) in H. change (u32 8) with 8 in H.
  assert (L : 8 < u32 (t_ratio t)) by (unfold u32; rewrite <- (Z_mod_plus_full (t_ratio t) 1 (2 ^ 32)), Z.mod_small; lia). set (ra := u32 (t_ratio t)) in *. clearbody ra.
  destruct (assert_ nassert (t_up t || t_down t || t_over t) m) as [[? m0]|]; [|discriminate]. destruct (assert_ nassert (t_fir t || t_iir t || t_iir_sse t) m0) as [[? m1]|]; [|discriminate].
  destruct (construct_any plat idu UP ra (t_prec t) (t_sse t) (t_filter t) m1) as (m2 & Eu & _). rewrite Eu. destruct (C63_above_8_construct _ _ _ _ _ _ _ _ _ _ _ Eu L) as (_ & ok8 & Eu8). rewrite Eu8 in H.
  destruct (construct_any plat idd DOWN ra (t_prec t) (t_sse t) (t_filter t) m2) as (m3 & Ed & _). rewrite Ed. destruct (C63_above_8_construct _ _ _ _ _ _ _ _ _ _ _ Ed L) as (_ & ok8' & Ed8). rewrite Ed8 in H.
  unfold MAX_RATIO in *. replace (t_ratio t <=? 8) with true by lia. change (8 <=? 8) with true in H.
  destruct (assert_ nassert true m3) as [[? m4]|]; [|discriminate]. cbn [fst] in *. unfold alloc in H |- *.
  destruct (for_up _ _ _ _ _) as [[? m6]|]; [|discriminate]. unfold resample_once in *. cbn [with_ratio t_up] in H. rewrite Hu in *. unfold bind in *.
  rewrite C63_above_8_small_blocks by (try exact L; unfold SAMPLES; lia).
  destruct (process_block _ _ _ _ _ _ _ m6) as [[? m7]|]; [|discriminate].
  unfold delay_value, lift, bind in *. rewrite (C63_above_8_delay (built plat idu UP ra (t_prec t) (t_sse t) (t_filter t))) by exact L.
  destruct (delay _) as [d|]; [|discriminate]. cbn [ret] in *. unfold find_error. unfold SAMPLES. replace (Z.to_nat (1024 * t_ratio t)) with 0%nat by lia. cbn [for_up ret free].
  eexists _, _. reflexivity.
Qed.
Theorem C72_negative_ratio {A : arith} plat (to_float : R -> A) to_double addr garbage nassert ndebug atoi a2 a3 a4 (m : mem A) :
  (forall id, far (addr id)) -> - 2 ^ 21 <= atoi a2 < 0 ->
  let t := test_of atoi "up" a2 a3 a4 in
  has_tables (t_filter t) (t_prec t) -> (nassert = true \/ a4 = "fir" \/ a4 = "iir" \/ a4 = "iir-sse") ->
  exists d m', multidelay_main plat to_float to_double addr garbage nassert ndebug atoi ["up"; a2; a3; a4] m = Ok ((0, [Report (rate * IZR (atoi a2)) d (Fin 0)]), m').
Proof.
  intros HA Hr t HT HS.
  assert (RN : runnable plat nassert (with_ratio t 8)).
  { split; [|split].
    - split; [unfold ratio_no; cbn; lia | intros _; exact HT].
    - destruct HS as [HS|HS]; [left; exact HS|]. right. split; [reflexivity|]. destruct HS as [->|[->| ->]]; reflexivity.
    - intros _ _ _. left. reflexivity. }
  destruct (run_report plat to_float to_double nassert ndebug (addr 0) 0 1 (with_ratio t 8) (fun _ => None) m true (garbage 0) (HA 0) ltac:(lia) RN (reach_init plat m) eq_refl eq_refl)
    as (r & m1 & st' & E & _).
  destruct (run_negative plat to_float to_double (addr 0) (garbage 0) nassert ndebug 0 1 t true m m1 r Hr eq_refl E) as (d & m2 & E2).
  exists d, m2. unfold multidelay_main, run_arguments, argument, bind. cbn [nth_error ret]. fold t. rewrite E2. reflexivity.
Qed.
Example C72_case_negative : let atoi s := if String.eqb s "-2" then -2 else 16 in let t := test_of atoi "up" "-2" "16" "fir" in
  - 2 ^ 21 <= atoi "-2" < 0 /\ has_tables (t_filter t) (t_prec t).
Proof. cbn zeta. split; [cbn; lia|]. change (fir_prec 16). unfold fir_prec. lia. Qed.

(** ** C73: testaddr.cc *)
(** for every block size below 100 (or any other limit), every ratio and precision, and all addresses of the vectors: no error *)
Theorem C73_all_addresses {A : arith} plat addr garbage ndebug count (m : mem A) :
  0 <= count -> count * 8 < 2 ^ 31 - 4 -> (forall id n, 0 <= n < count -> far_n (addr id) n) ->
  exists m', addr_main plat addr garbage ndebug count m = Ok (0, m').
Proof. intros H0 H1 HA. exact (addr_main_ok plat addr garbage ndebug count H0 H1 HA m). Qed.

(** any address for the vectors, not aligned, will do *)
Example C73_case {A : arith} plat garbage ndebug (a : Z -> Z) (m : mem A) : (forall id, 2 ^ 21 <= a id) ->
  exists m', addr_main plat (fun id b => match b with Tmp2 => 2 ^ 20 | User 0 => a id | User 1 => a id + 400 | _ => 0 end) garbage ndebug 100 m = Ok (0, m').
Proof.
  intros Ha. apply C73_all_addresses; [lia | lia|]. intros id n Hn. specialize (Ha id). constructor.
  - constructor; intros; try reflexivity. right. unfold paddr. cbn. lia.
  - right. unfold paddr. cbn [pb po in_a out_a]. lia.
  - intros t [->| ->]; split; left; unfold paddr; cbn [pb po in_a out_a]; lia.
Qed.

Print Assumptions C72_default_run.
Print Assumptions C72_run_with_arguments.
Print Assumptions C72_vector_iir_reads_behind.
Print Assumptions C72_exact_arithmetic.
Print Assumptions C72_single_precision.
Print Assumptions C72_large_error_not_reported.
Print Assumptions C72_only_downwards.
Print Assumptions C72_few_arguments.
Print Assumptions C72_wrong_words.
Print Assumptions C72_no_filter.
Print Assumptions C72_negative_ratio.
Print Assumptions C73_all_addresses.
