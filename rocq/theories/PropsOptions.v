(** * Properties: the command line of tests/testresampler.cc *)
From Coq Require Import String Ascii ZArith Reals List Lia Lra Bool ZifyNat ZifyBool.
From Verif Require Import Arith ArithR ArithF Mem FirModel IirModel Tables ResamplerModel Wp Stage Cascade ResamplerProof ResamplerOk
  Spec SpecOk Client Feed StreamFacts DelayFacts ConfigFacts Tones AccuracyModel AccuracyProof OptModel OptProof.
Import ListNotations.
Open Scope Z_scope.

(** ** C77 *)

(** Options::parse accesses no element outside argv and no NULL pointer, and its loops end, for all
    arguments, whatever atoi and atof return.  What it does is given by [reads] (OptProof.v), which
    assigns exactly one meaning to every command line: it leaves the arguments that are not options,
    in their order, behind the name of the program, and exits where [reads] says so. *)
Theorem C77_parse atoi atof prog l o :
  exists r, (forall r', reads atoi atof l o r' <-> r' = r) /\
    match r with
    | Done (rest, o') => exists j,
        parse atoi atof (Some prog :: map Some l) o = Done (Some prog :: map Some rest ++ repeat None j, S (List.length rest), o')
    | Exit c => parse atoi atof (Some prog :: map Some l) o = Exit c
    | Fault _ => False
    end.
Proof.
  destruct (parse_ok atoi atof prog l o) as (r & R & Q). exists r. split; [|exact Q].
  intros r'. split; [|intros ->; exact R]. intros R'. symmetry. eapply reads_fun; eassumption.
Qed.

(** the settings before the command line is read *)
Definition start (sse : bool) : options :=
  Options 128 (Fin 440) (Fin (-1)) (Fin (-1)) (Fin 0) false (Fin 0) PREC_96DB false false sse RES_UPSAMPLE.

(** so main goes wrong nowhere: it runs a test if exactly one argument is left and names one;
    it exits with 0 if nothing is left, and with 1 otherwise *)
Theorem C77_main atoi atof sse l : l <> ["check"%string] ->
  exists r, reads atoi atof l (start sse) r /\
    main atoi atof sse l =
    match r with
    | Done ([], _) => Exit 0
    | Done ([c], o) => match command c with Some t => Done (Perform t o) | None => Exit 1 end
    | Done (_, _) => Exit 1
    | Exit c => Exit c
    | Fault f => Fault f
    end /\ (forall f, r <> Fault f).
Proof.
  intros N. destruct (parse_ok atoi atof "testresampler" l (start sse)) as (r & R & Q). exists r. split; [exact R|].
  assert (E : main atoi atof sse l = standalone atoi atof sse (Some "testresampler"%string :: map Some l)).
  { unfold main. destruct l as [|s [|s' l]]; try reflexivity. unfold same. destruct (String.eqb_spec s "check"); [subst s; contradiction | reflexivity]. }
  rewrite E. unfold standalone. fold (start sse). change (Options (block_size defaults) _ _ _ _ _ _ _ _ _ _ _) with (start sse).
  destruct r as [[rest o]|c|f]; [| |destruct Q].
  - destruct Q as (j & ->). cbn [andthen]. split; [|discriminate].
    destruct rest as [|c [|c' rest]]; reflexivity.
  - rewrite Q. split; [reflexivity | discriminate].
Qed.
Example C77_main_check atoi atof sse : main atoi atof sse ["check"%string] = Done Check.
Proof. reflexivity. Qed.

(** the settings with which a test can run *)
Record settings_ok (sse : bool) (o : options) : Prop := {
  ok_block : 2 <= block_size o < 2 ^ 32 /\ block_size o mod 2 = 0;
  ok_precision : fir_prec (precision o);
  ok_inc : freq_inc o = Fin 0 \/ xlt (freq_inc o) (Fin 1) = false;
  ok_threshold : xlt (Fin 0) (max_threshold_db o) = false;
  ok_sse : use_sse o = true -> sse = true }.

Lemma start_ok sse : settings_ok sse (start sse).
Proof.
  split; cbn [start block_size precision freq_inc max_threshold_db use_sse].
  - split; [lia | reflexivity].
  - unfold fir_prec, PREC_96DB. auto.
  - now left.
  - cbn. destruct (Rlt_dec 0 0); [lra | reflexivity].
  - auto.
Qed.

Lemma even_block z : let b := u32 z in let b := if Z.land b 1 =? 1 then u32 (b + 1) else b in let b := if b <? 2 then 2 else b in
  2 <= b < 2 ^ 32 /\ b mod 2 = 0.
Proof.
  cbv zeta. assert (U : forall x, 0 <= u32 x < 2 ^ 32) by (intros; apply Z.mod_pos_bound; lia).
  assert (U2 : forall x, u32 x mod 2 = x mod 2).
  { intros x. unfold u32. change (2 ^ 32) with (2 * 2 ^ 31). rewrite Z.rem_mul_r by lia. rewrite Z.mul_comm, Z.mod_add by lia. apply Z.mod_mod. lia. }
  assert (L : Z.land (u32 z) 1 = u32 z mod 2) by (change 1 with (Z.ones 1) at 1; rewrite Z.land_ones by lia; reflexivity). rewrite L.
  pose proof (U z). pose proof (U (u32 z + 1)). pose proof (Z.mod_pos_bound (u32 z) 2 ltac:(lia)).
  destruct (Z.eqb_spec (u32 z mod 2) 1) as [E|E].
  - assert (u32 (u32 z + 1) mod 2 = 0) by (rewrite U2, Z.add_mod, E by lia; reflexivity).
    destruct (Z.ltb_spec (u32 (u32 z + 1)) 2); [split; [lia | reflexivity] | split; [lia | assumption]].
  - destruct (Z.ltb_spec (u32 z) 2); [split; [lia | reflexivity] | split; [lia |]]. clear - E H1; lia.
Qed.

(** Whatever the arguments, the block size is even and at least 2, the precision is one with filter
    tables, the threshold is not positive, vector code is not asked for where it is not available. *)
Theorem C77_settings atoi atof sse l rest o : reads atoi atof l (start sse) (Done (rest, o)) -> settings_ok sse o.
Proof.
  assert (G : forall l o r, reads atoi atof l o r -> settings_ok sse o -> match r with Done (_, o') => settings_ok sse o' | _ => True end).
  { assert (SF : forall opt f o, In (opt, Flag f) (chain atoi atof) -> settings_ok sse o -> settings_ok sse (f o)).
    { intros opt f o' H S. cbn [chain In] in H.
      repeat (destruct H as [H|H]; [first [discriminate H | injection H as _ <-]; split; try apply S; cbn; try discriminate; unfold fir_prec, PREC_LINEAR; auto|]). destruct H. }
    assert (SA : forall opt f v o o', In (opt, Arg f) (chain atoi atof) -> f v o = Done o' -> settings_ok sse o -> settings_ok sse o').
    { intros opt f v o1 o2 H E S. cbn [chain In] in H.
      repeat (destruct H as [H|H]; [first [discriminate H | injection H as _ <-]|]); [..|destruct H].
      - injection E as <-. split; try apply S. cbn [block_size]. apply even_block.
      - unfold set_precision in E. match type of E with (if ?c then _ else _) = _ => destruct c eqn:C end; [|discriminate]. injection E as <-.
        split; try apply S. cbn [with_precision precision]. unfold fir_prec. lia.
      - unfold set_freq_scan in E. cbv zeta in E. match type of E with (if xlt (freq_inc ?t) _ then _ else _) = _ => set (o3 := t) in E end.
        destruct (xlt (freq_inc o3) (Fin 1)) eqn:C; [discriminate|]. injection E as <-. unfold o3 in *.
        destruct (pieces v "") as [|fmin [|fmax [|finc ps]]]; try exact S. split; try apply S. now right.
      - injection E as <-. split; apply S.
      - injection E as <-. split; try apply S. change (xlt (Fin 0) (if xlt (Fin 0) (atof v) then xneg (atof v) else atof v) = false).
        destruct (xlt (Fin 0) (atof v)) eqn:C; [|exact C].
        destruct (atof v) as [r| | |]; cbn in C |- *; try discriminate; try reflexivity. destruct (Rlt_dec 0 r); [|discriminate]. destruct (Rlt_dec 0 (- r)); [lra | reflexivity]. }
    induction 1; intros S; auto; try (apply IHreads; eauto; fail).
    specialize (IHreads S). destruct r as [[l' o']|c|f]; exact IHreads. }
  intros H. exact (G _ _ _ H (start_ok sse)).
Qed.

(** ** Running the accuracy test with the settings of a command line *)
Definition real (x : xdouble) : R := match x with Fin r => r | _ => 0%R end.
Definition finite_settings (o : options) : Prop :=
  forall x, In x [frequency o; freq_min o; freq_max o; freq_inc o; max_threshold_db o] -> exists r, x = Fin r.
Definition accuracy {A : arith} plat to_float to_double rnd garbage ndebug fuel addr idu idd (o : options) : M A (Z * Z) :=
  perform_accuracy plat to_float to_double rnd garbage ndebug fuel (rtype o) addr idu idd (block_size o) (precision o) (use_sse o)
    (real (frequency o)) (real (freq_min o)) (real (freq_max o)) (real (freq_inc o)) (real (max_threshold_db o)) 0.

(** No memory error, failing assert or misaligned access for any command line that asks for blocks
    of less than 2^29 samples (and no infinite or NaN setting), whatever the random numbers. *)
Theorem C77_accuracy {A : arith} plat (to_float : R -> A) to_double rnd garbage ndebug fuel addr idu idd atoi atof l o st (m : mem A) :
  reach plat st m -> st idu = None -> st idd = None -> idu <> idd -> addresses addr (block_size o) ->
  main atoi atof (sse_available plat) l = Done (Perform TEST_ACCURACY o) -> finite_settings o -> block_size o < 2 ^ 29 ->
  match accuracy plat to_float to_double rnd garbage ndebug fuel addr idu idd o m with Ok _ => True | Err e => e = OutOfFuel end.
Proof.
  intros H Eu Ed Ne HA HM _ HB.
  assert (S : settings_ok (sse_available plat) o).
  { assert (N : l <> ["check"%string]) by (intros ->; discriminate).
    destruct (C77_main atoi atof (sse_available plat) l N) as (r & R & E & _). rewrite HM in E.
    destruct r as [[[|c [|c' rest]] o']|c|f]; try discriminate. destruct (command c); [|discriminate]. injection E as _ ->. eapply C77_settings, R. }
  destruct S as [[S1 _] S2 _ _ S5].
  pose proof (perform_ok plat to_float to_double rnd garbage ndebug fuel False (fun _ => True) (rtype o) addr idu idd (block_size o) (precision o) (use_sse o)
    (real (frequency o)) (real (freq_min o)) (real (freq_max o)) (real (freq_inc o)) (real (max_threshold_db o)) 0 st m 0 0 H Eu Ed Ne S2 HA ltac:(lia) S5 ltac:(lia) I) as Q.
  cbn zeta in Q. apply goes_partial in Q; [| |tauto].
  - unfold accuracy. destruct (perform_accuracy _ _ _ _ _ _ _ _ _ _ _ _ _ _ _ _ _ _ _ _ m) as [[r m']|e]; [exact I | exact Q].
  - intros i Hi _. split; [|tauto]. intros st1 m1 x y lo k mx _ _ _ _ _ _ _ _ _. exact I.
Qed.

(** ** What goes wrong *)

(** --block-size 2147483647 is turned into 2^31, and the arrays, of twice that size, have size 0:
    the first block writes behind an array.  This holds for every kind of resampling and precision. *)
Theorem C77_huge_block {A : arith} plat (to_float : R -> A) to_double rnd garbage ndebug fuel addr idu idd o (m : mem A) sse :
  settings_ok sse o -> sse = sse_available plat -> block_size o = 2 ^ 31 -> idu <> idd ->
  (if Rlt_dec 1 (real (freq_inc o)) then real (freq_min o) < real (freq_max o) + 1 else -2 < real (frequency o))%R ->
  let r := accuracy plat to_float to_double rnd garbage ndebug fuel addr idu idd o m in
  (r = Err OobWrite \/ r = Err OutOfFuel) /\
  ((0 < fuel)%nat -> 2 <= rnd 1 mod (2 ^ 31 + 1 - rnd 0 mod 4) -> r = Err OobWrite).
Proof.
  intros S Hs HB Ne HF0 r. subst sse.
  assert (HF : (one_or (real (freq_inc o)) (real (freq_min o)) (real (frequency o)) < one_or (real (freq_inc o)) (real (freq_max o)) (1.5 * real (frequency o)) + 1)%R)
    by (unfold one_or; destruct (Rlt_dec 1 (real (freq_inc o))); lra). destruct S as [_ HP _ _ HS].
  assert (V : valid FILTER_FIR 2 (precision o)) by (split; [unfold ratio_no; auto | intros _; exact HP]).
  destruct (reach_new_progress plat (fun _ => None) m idu UP 2 (precision o) (use_sse o) FILTER_FIR (reach_init plat m) eq_refl (proj1 V) (proj2 V)) as (m1 & E1 & F1 & H1). cbn zeta in *.
  destruct (reach_new_progress plat _ m1 idd DOWN 2 (precision o) (use_sse o) FILTER_FIR H1) as (m2 & E2 & F2 & H2); [|exact (proj1 V)|exact (proj2 V)|].
  { unfold set_obj. destruct (Z.eqb_spec idd idu); [congruence | reflexivity]. }
  cbn zeta in *.
  assert (VV : vector plat FILTER_FIR (use_sse o) = use_sse o).
  { unfold vector. unfold sse_available in HS. destruct (use_sse o); [now rewrite HS | apply andb_false_r]. }
  assert (RQ : forall id md, lift (A := A) (sse_enabled (built plat id md 2 (precision o) (use_sse o) FILTER_FIR)) m2 = Ok (use_sse o, m2)).
  { intros id md. unfold lift. rewrite built_sse_enabled by (exact V || lia). now rewrite VV. }
  assert (RE : require (A := A) (Bool.eqb (use_sse o) (use_sse o)) m2 = Ok (tt, m2)) by (unfold require; now rewrite Bool.eqb_reflx).
  pose proof (RQ idu UP) as RU. pose proof (RQ idd DOWN) as RD.
  set (U := built plat idu UP 2 (precision o) (use_sse o) FILTER_FIR) in *.
  set (D := built plat idd DOWN 2 (precision o) (use_sse o) FILTER_FIR) in *.
  set (fr := real (frequency o)) in *. set (fmin := one_or (real (freq_inc o)) (real (freq_min o)) fr) in *.
  set (fmax := one_or (real (freq_inc o)) (real (freq_max o)) (1.5 * fr)%R) in *.
  set (finc := one_or (real (freq_inc o)) (real (freq_inc o)) fr).
  (* the arrays are empty *)
  assert (EM : exists m3, (forall i, m3 in_a i = None) /\
    (forall e, scan_all to_float rnd garbage ndebug fuel (larger to_double) (rtype o) addr (2 ^ 31) U D fmax finc (fmin, 0, Fin 0%R) m3 = Err e -> r = Err e)).
  { set (r' := perform_scan plat to_float rnd garbage ndebug fuel (larger to_double) (rtype o) addr idu idd (block_size o) (precision o) (use_sse o)
      (real (frequency o)) (real (freq_min o)) (real (freq_max o)) (real (freq_inc o)) (Fin 0%R) 0 m).
    assert (RR : forall e, r' = Err e -> r = Err e) by (intros e E; unfold r, accuracy, perform_accuracy, bind; fold r'; now rewrite E).
    enough (EM : exists m3, (forall i, m3 in_a i = None) /\
      (forall e, scan_all to_float rnd garbage ndebug fuel (larger to_double) (rtype o) addr (2 ^ 31) U D fmax finc (fmin, 0, Fin 0%R) m3 = Err e -> r' = Err e)).
    { destruct EM as (m3 & X1 & X2). exists m3. split; [exact X1 | intros e E; apply RR, X2, E]. }
    unfold r', perform_scan. rewrite HB. unfold bind at 1. rewrite E1. unfold bind at 1. rewrite E2. cbn [fst].
    unfold bind at 1. rewrite RU. unfold bind at 1. rewrite RE. unfold bind at 1. rewrite RD. unfold bind at 1. rewrite RE.
    change (u32 (2 ^ 31 * 2)) with 0. unfold bind at 1, alloc at 1. unfold bind at 1, alloc at 1. unfold bind at 1, alloc at 1.
    set (m3 := fun b' i => if blk_eqb b' out2_a then _ else _). exists m3. split.
    { intros i. unfold m3. cbn. destruct (i <? 0) eqn:E; destruct (0 <=? i) eqn:E'; try reflexivity; lia. }
    fold fr. replace (if if Rlt_dec 1 (real (freq_inc o)) then true else false then real (freq_min o) else fr) with fmin by (unfold fmin, one_or; now destruct (Rlt_dec 1 (real (freq_inc o)))).
    replace (if if Rlt_dec 1 (real (freq_inc o)) then true else false then real (freq_max o) else 1.5 * fr)%R with fmax by (unfold fmax, one_or; now destruct (Rlt_dec 1 (real (freq_inc o)))).
    replace (if if Rlt_dec 1 (real (freq_inc o)) then true else false then real (freq_inc o) else fr) with finc by (unfold finc, one_or; now destruct (Rlt_dec 1 (real (freq_inc o)))).
    intros e E. unfold bind at 1. now rewrite E. }
  destruct EM as (m3 & Hm & Q). clearbody r.
  enough (G : let s := scan_all to_float rnd garbage ndebug fuel (larger to_double) (rtype o) addr (2 ^ 31) U D fmax finc (fmin, 0, Fin 0%R) m3 in
    (s = Err OobWrite \/ s = Err OutOfFuel) /\ ((0 < fuel)%nat -> 2 <= rnd 1 mod (2 ^ 31 + 1 - rnd 0 mod 4) -> s = Err OobWrite)).
  { destruct G as [G1 G2]. split; [destruct G1 as [G|G]; apply Q in G; auto | intros X Y; apply Q; auto]. }
  clear Q. cbv zeta.
  (* one step *)
  assert (ST : forall s, 0 <= s_k s < 20000 -> let g := rnd (s_pos s + 1) mod (2 ^ 31 + 1 - rnd (s_pos s) mod 4) in
    let t := scan_step to_float rnd garbage ndebug (larger to_double) (rtype o) addr (2 ^ 31) U D fmin s m3 in
    if g <? 2 then t = Ok (Scan (s_pos s + 2) (s_k s) (s_phase s) (s_ophase s) (s_seen s), m3) else t = Err OobWrite).
  { intros s Hk g t. unfold t, scan_step. pose proof (Z.mod_pos_bound (rnd (s_pos s)) 4 ltac:(lia)) as M4.
    replace (2 ^ 31 <=? rnd (s_pos s) mod 4) with false by (symmetry; apply Z.leb_gt; lia). fold g.
    destruct (Z.ltb_spec g 2) as [L|L]; [reflexivity|].
    set (bs := match rtype o with RES_DOWNSAMPLE | RES_SUBSAMPLE => g - Z.land g 1 | _ => g end).
    assert (B : 1 <= bs).
    { assert (X : Z.land g 1 = g mod 2) by (change 1 with (Z.ones 1) at 1; rewrite Z.land_ones by lia; reflexivity).
      unfold bs. rewrite X. pose proof (Z.mod_pos_bound g 2 ltac:(lia)). destruct (rtype o); lia. }
    clearbody bs. unfold bind at 1. unfold fill_input. destruct (Z.to_nat bs) as [|n] eqn:En; [lia|]. cbn [for_up].
    unfold bind at 1, bind at 1, store. cbn [pb po]. now rewrite Hm. }
  unfold scan_all. assert (SW : forall n s, 0 <= s_k s < 20000 ->
    let t := while n (fun t => s_k t <? 20000) (scan_step to_float rnd garbage ndebug (larger to_double) (rtype o) addr (2 ^ 31) U D fmin) s m3 in
    t = Err OobWrite \/ t = Err OutOfFuel).
  { induction n as [|n IH]; intros s Hk t; unfold t; cbn [while]; replace (s_k s <? 20000) with true by (symmetry; apply Z.ltb_lt; lia); [right; reflexivity|].
    pose proof (ST s Hk) as X. cbv zeta in X. unfold bind. destruct (_ <? 2); rewrite X; [|now left]. apply IH. exact Hk. }
  destruct fuel as [|n]; cbn [while].
  - destruct (Rlt_dec fmin (fmax + 1)); [|contradiction]. split; [now right | lia].
  - destruct (Rlt_dec fmin (fmax + 1)); [|contradiction]. split.
    + pose proof (SW (S n) (Scan 0 0 0 0 (Fin 0%R)) ltac:(cbn; lia)) as E. cbv zeta in E. cbn [while s_k] in E |- *.
      unfold bind in E |- *. destruct E as [E|E]; rewrite E; auto.
    + intros _ HR. cbn [while s_k]. replace (0 <? 20000) with true by reflexivity.
      pose proof (ST (Scan 0 0 0 0 (Fin 0%R)) ltac:(cbn; lia)) as X. cbv zeta in X. cbn [s_pos Z.add] in X.
      replace (_ <? 2) with false in X by (symmetry; apply Z.ltb_ge; exact HR). unfold bind. rewrite X. reflexivity.
Qed.

(** ** Command lines *)
Section Lines.
Context (atoi : string -> Z) (atof : string -> xdouble) (sse : bool).
Open Scope string_scope.

Lemma line_ok l r : l <> ["check"] -> reads atoi atof l (start sse) r ->
  main atoi atof sse l =
    match r with
    | Done ([], _) => Exit 0
    | Done ([c], o) => match command c with Some t => Done (Perform t o) | None => Exit 1 end
    | Done (_, _) => Exit 1
    | Exit c => Exit c
    | Fault f => Fault f
    end.
Proof. intros N R. destruct (C77_main atoi atof sse l N) as (r' & R' & E & _). now rewrite (reads_fun _ _ _ _ _ R _ R'). Qed.
Ltac found := cbn [chain In]; repeat first [left; reflexivity | right].
Ltac handled := unfold set_block_size, set_precision, set_freq_scan, set_frequency, start;
  cbn [pieces same String.eqb Ascii.eqb Bool.eqb append freq_inc block_size frequency freq_min freq_max freq_scan_verbose max_threshold_db precision filter_impl_verbose verbose use_sse rtype];
  repeat match goal with E : _ = _ |- _ => rewrite E end; cbn [Z.eqb Pos.eqb orb]; reflexivity.
Ltac other := eapply reads_other; [discriminate | discriminate |
  let H := fresh in let M := fresh in intros ? ? H M; apply (matches_name atoi atof) with (1 := H) in M; vm_compute in M; subst;
  cbn [chain In] in H; repeat (destruct H as [H|H]; [discriminate H|]); destruct H |].
Ltac line := intros; eapply eq_trans; [eapply line_ok; [discriminate|] |].
Example C77_scan : atoi "24" = 24 -> atof "50" = Fin 50 -> atof "18000" = Fin 18000 -> xlt (Fin 50) (Fin 1) = false ->
  main atoi atof sse ["--down"; "--precision=24"; "accuracy"; "--freq-scan"; "50,18000,50"] =
  Done (Perform TEST_ACCURACY (Options 128 (Fin 440) (Fin 50) (Fin 18000) (Fin 50) false (Fin 0) 24 false false sse RES_DOWNSAMPLE)).
Proof.
  line. {
  eapply reads_flag; [found|].
  eapply (reads_value _ _ "--precision" _ "24"); [found | handled |].
  other.
  eapply (reads_next _ _ "--freq-scan" _ "50,18000,50"); [found | handled |].
  apply reads_nil.
  }
  reflexivity.
Qed.
Example C77_help : main atoi atof sse ["accuracy"; "--up"; "-h"; "--precision=1"] = Exit 0.
Proof.
  line. {
  other.
  eapply reads_flag; [found|].
  apply reads_help. auto.
  }
  reflexivity.
Qed.
Example C77_missing : main atoi atof sse ["accuracy"; "--block-size"] = Exit 1.
Proof.
  line. {
  other.
  eapply reads_missing. found.
  }
  reflexivity.
Qed.
Example C77_unwanted : main atoi atof sse ["accuracy"; "--fpu=1"] = Exit 1.
Proof.
  line. {
  other.
  eapply (reads_flag_value _ _ "--fpu" _ "1"). found.
  }
  reflexivity.
Qed.
Example C77_bad_precision : atoi "17" = 17 -> main atoi atof sse ["accuracy"; "--precision"; "17"] = Exit 1.
Proof.
  line. {
  other.
  eapply reads_bad_next; [found | handled].
  }
  reflexivity.
Qed.
(** the option --verbose for the self test is not understood *)
Example C77_check_verbose : main atoi atof sse ["check"; "--verbose"] = Exit 1.
Proof.
  line. {
  other.
  eapply reads_flag; [found|].
  apply reads_nil.
  }
  reflexivity.
Qed.
(** the argument of an option can look like an option *)
Example C77_swallow : main atoi atof sse ["accuracy"; "--frequency"; "--down"] =
  Done (Perform TEST_ACCURACY (Options 128 (atof "--down") (Fin (-1)) (Fin (-1)) (Fin 0) false (Fin 0) 16 false false sse RES_UPSAMPLE)).
Proof.
  line. {
  other.
  eapply (reads_next _ _ "--frequency" _ "--down"); [found | handled |].
  apply reads_nil.
  }
  reflexivity.
Qed.
(** a --freq-scan option without three numbers is an error, but not if it follows a correct one *)
Example C77_malformed_first : xlt (Fin 0) (Fin 1) = true -> main atoi atof sse ["accuracy"; "--freq-scan=50,18000"] = Exit 1.
Proof.
  line. {
  other.
  eapply (reads_bad_value _ _ "--freq-scan" _ "50,18000"); [found | handled].
  }
  reflexivity.
Qed.
Example C77_malformed_second : atof "50" = Fin 50 -> atof "18000" = Fin 18000 -> xlt (Fin 50) (Fin 1) = false ->
  main atoi atof sse ["accuracy"; "--freq-scan=50,18000,50"; "--freq-scan=nothing"] =
  Done (Perform TEST_ACCURACY (Options 128 (Fin 440) (Fin 50) (Fin 18000) (Fin 50) false (Fin 0) 16 false false sse RES_UPSAMPLE)).
Proof.
  line. {
  other.
  eapply (reads_value _ _ "--freq-scan" _ "50,18000,50"); [found | handled |].
  eapply (reads_value _ _ "--freq-scan" _ "nothing"); [found | handled |].
  apply reads_nil.
  }
  reflexivity.
Qed.
(** the block size that is too large *)
Example C77_huge : atoi "2147483647" = 2147483647 -> main atoi atof sse ["accuracy"; "--block-size=2147483647"] =
  Done (Perform TEST_ACCURACY (Options (2 ^ 31) (Fin 440) (Fin (-1)) (Fin (-1)) (Fin 0) false (Fin 0) 16 false false sse RES_UPSAMPLE)).
Proof.
  line. {
  other.
  eapply (reads_value _ _ "--block-size" _ "2147483647"); [found | handled |].
  apply reads_nil.
  }
  reflexivity.
Qed.
End Lines.

(** the accuracy test with the default settings *)
Example C77_accuracy_case plat (to_float : R -> F32) to_double rnd garbage ndebug fuel addr (atoi : string -> Z) (atof : string -> xdouble) : addresses addr 128 ->
  match accuracy (A := F32) plat to_float to_double rnd garbage ndebug fuel addr 0 1 (start (sse_available plat)) (fun _ _ => None) with
  | Ok _ => True | Err e => e = OutOfFuel end.
Proof.
  intros HA. apply C77_accuracy with (atoi := atoi) (atof := atof) (l := ["accuracy"%string]) (st := fun _ => None); try reflexivity; try lia.
  - apply reach_init.
  - exact HA.
  - intros x Hx. cbn in Hx. repeat (destruct Hx as [Hx|Hx]; [rewrite <- Hx; eauto|]). destruct Hx.
Qed.
(** 2^31 samples in a block, for any kind of resampling *)
Example C77_huge_case plat (to_float : R -> F32) to_double garbage ndebug n addr t :
  accuracy (A := F32) plat to_float to_double (fun _ => 100) garbage ndebug (S n) addr 0 1
    (Options (2 ^ 31) (Fin 440) (Fin (-1)) (Fin (-1)) (Fin 0) false (Fin 0) 16 false false false t) (fun _ _ => None) = Err OobWrite.
Proof.
  set (o := Options (2 ^ 31) (Fin 440) (Fin (-1)) (Fin (-1)) (Fin 0) false (Fin 0) 16 false false false t).
  assert (S : settings_ok (sse_available plat) o).
  { split; cbn [o block_size precision freq_inc max_threshold_db use_sse]; try discriminate.
    + split; [lia | reflexivity].
    + unfold fir_prec. auto.
    + now left.
    + cbn. destruct (Rlt_dec 0 0); [lra | reflexivity]. }
  refine (proj2 (C77_huge_block plat _ _ (fun _ => 100) garbage ndebug (Datatypes.S n) addr 0 1 o _ (sse_available plat) S eq_refl eq_refl ltac:(lia) _) _ _).
  - cbn [o real freq_inc frequency]. destruct (Rlt_dec 1 0); lra.
  - apply Nat.lt_0_succ.
  - vm_compute. discriminate.
Qed.
Print Assumptions C77_parse.
Print Assumptions C77_main.
Print Assumptions C77_settings.
Print Assumptions C77_accuracy.
Print Assumptions C77_huge_block.
