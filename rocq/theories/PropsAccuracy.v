(** * Properties: the accuracy tests of tests/testresampler.cc *)
From Coq Require Import ZArith Reals List Lia Lra Bool ZifyNat ZifyBool.
From Flocq Require Import Core BinarySingleNaN.
From Interval Require Import Tactic.
From Verif Require Import Arith ArithR ArithF Mem FirModel IirModel Tables ResamplerModel Wp Stage Cascade
  ResamplerProof ResamplerOk Spec SpecOk SpecR Client Feed StreamFacts DelayFacts ConfigFacts TablesF FirReal FreqFir Cases PropsConfig PropsFreq PropsFloatFreq AccuracyModel AccuracyProof AccuracySine.
Import ListNotations.
Open Scope Z_scope.

(** the arguments tell which frequencies are tested: with an increment above 1, a range, and 440 Hz otherwise *)
Definition first_freq (a : arguments) : R := one_or (g_inc a) (g_min a) 440.
Definition last_freq (a : arguments) : R := one_or (g_inc a) (g_max a) (1.5 * 440).
Definition next_freq (a : arguments) : R := one_or (g_inc a) (g_inc a) 440.
Definition tested (a : arguments) (f : R) : Prop := exists i, 0 <= i /\ f = (first_freq a + IZR i * next_freq a)%R /\ (f < last_freq a + 1)%R.
Definition precision_of (a : arguments) : Z := find_precision_for_bits (g_bits a).
(** the limit in dB, whatever its sign *)
Definition limit (a : arguments) : R := (- Rabs (g_threshold a))%R.

(** rand() allows progress: among any W consecutive pairs of numbers there is one for which samples are processed.
    [nf] frequencies are enough to reach the last one *)
Definition can_end (rnd : Z -> Z) (fuel : nat) (W nf : Z) (l : list arguments) : Prop :=
  fair rnd 128 W /\ W * 20000 <= Z.of_nat fuel /\ nf <= Z.of_nat fuel /\
  forall a, In a l -> (0 <= first_freq a /\ last_freq a <= 44099 /\ 0 < next_freq a /\ last_freq a + 1 <= first_freq a + IZR nf * next_freq a)%R.

Lemma find_fir bits : fir_prec (find_precision_for_bits bits).
Proof. pose proof (C19_find_precision bits) as [H _]. cbn in H. unfold fir_prec, PREC_LINEAR, PREC_48DB, PREC_72DB, PREC_96DB, PREC_120DB, PREC_144DB in *. lia. Qed.
Lemma find_hq bits : 1 < bits -> hq_prec (find_precision_for_bits bits).
Proof.
  intros H. unfold hq_prec, find_precision_for_bits, PREC_LINEAR, PREC_48DB, PREC_72DB, PREC_96DB, PREC_120DB, PREC_144DB.
  destruct (Z.leb_spec bits 1), (Z.leb_spec bits 8), (Z.leb_spec bits 12), (Z.leb_spec bits 16), (Z.leb_spec bits 20); lia.
Qed.

Section Run.
Context {A : arith} (plat : platform) (to_float : R -> A) (to_double : A -> xdouble).
Context (rnd : Z -> Z) (garbage : Z -> Z -> Z -> Z -> Z -> A) (ndebug : bool) (fuel : nat).

Lemma run_ok (t : Prop) (Good : xdouble -> Prop) addr idu idd a pos st (m : mem A) W nf :
  reach plat st m -> st idu = None -> st idd = None -> idu <> idd -> addresses addr 128 -> 0 <= pos -> Good (Fin 0) ->
  (forall f, tested a f -> looks_good plat to_float to_double (g_type a) idu idd (precision_of a) (sse_available plat && g_sse a) Good f) ->
  (t -> can_end rnd fuel W nf [a]) ->
  goes t (run_accuracy plat to_float to_double rnd garbage ndebug fuel addr idu idd a pos) m
    (fun r m' => exists pos' mx st', r = (pos', negb (db_above mx (limit a))) /\ pos <= pos' /\ Good mx /\ reach plat st' m' /\
       forall id, id <> idu -> id <> idd -> st' id = st id).
Proof.
  intros H Eu Ed Ne HA Hp HG HL HT. unfold run_accuracy. apply goes_bind.
  assert (EL : (if Rlt_dec 0 (g_threshold a) then (- g_threshold a)%R else g_threshold a) = limit a).
  { unfold limit. destruct (Rlt_dec 0 (g_threshold a)); [rewrite Rabs_pos_eq; lra | rewrite Rabs_left1; lra]. }
  rewrite EL. eapply goes_mono.
  - apply (perform_ok plat to_float to_double rnd garbage ndebug fuel t Good (g_type a) addr idu idd 128 (find_precision_for_bits (g_bits a)) (sse_available plat && g_sse a)
      440 (g_min a) (g_max a) (g_inc a) (limit a) pos st m W nf H Eu Ed Ne (find_fir _) HA ltac:(lia)).
    + intros E. apply andb_prop in E. apply E.
    + exact Hp.
    + exact HG.
    + fold (first_freq a) (next_freq a) (last_freq a). intros i Hi L. split; [apply HL; exists i; auto|].
      intros T. destruct (HT T) as (_ & _ & _ & Q). destruct (Q a (or_introl eq_refl)) as (Q1 & Q2 & Q3 & _).
      apply IZR_le in Hi. assert (0 <= IZR i * next_freq a)%R by (apply Rmult_le_pos; lra). lra.
    + fold (first_freq a) (next_freq a) (last_freq a). intros T. destruct (HT T) as (F & N1 & N2 & Q). destruct (Q a (or_introl eq_refl)) as (Q1 & Q2 & Q3 & Q4).
      split; [exact F|]. split; [exact N1|]. split; [exact N2|]. intros i Hi. apply IZR_le in Hi.
      assert (IZR nf * next_freq a <= IZR i * next_freq a)%R by (apply Rmult_le_compat_r; lra). lra.
  - intros r m' (pos' & mx & st' & -> & Q1 & Q2 & Q3 & Q4). apply goes_ret. cbn [fst snd]. exists pos', mx, st'. split; [|auto].
    now destruct (db_above mx (limit a)).
Qed.

(** all runs of a list pass *)
Lemma list_ok (t : Prop) (Good : arguments -> xdouble -> Prop) addr l W nf : (forall id, addresses (addr id) 128) -> (t -> can_end rnd fuel W nf l) ->
  (forall a, In a l -> Good a (Fin 0) /\ (forall mx, Good a mx -> db_above mx (limit a) = false) /\ forall f, tested a f -> forall idu idd,
     looks_good plat to_float to_double (g_type a) idu idd (precision_of a) (sse_available plat && g_sse a) (Good a) f) ->
  forall id pos st (m : mem A), reach plat st m -> (forall i, id <= i -> st i = None) -> 0 <= pos ->
  goes t (run_list plat to_float to_double rnd garbage ndebug fuel addr id l pos) m (fun b _ => b = true).
Proof.
  intros HA. induction l as [|a l IH]; intros HT HL id pos st m H HN Hp; cbn [run_list].
  - now apply goes_ret.
  - destruct (HL a (or_introl eq_refl)) as (G0 & GD & GL).
    apply goes_bind. eapply goes_mono.
    { apply (run_ok t (Good a) (addr id) id (id + 1) a pos st m W nf H (HN id ltac:(lia)) (HN (id + 1) ltac:(lia)) ltac:(lia) (HA id) Hp G0).
      - intros f Hf. now apply GL.
      - intros T. destruct (HT T) as (F & N1 & N2 & Q). split; [exact F|]. split; [exact N1|]. split; [exact N2|]. intros b [<-|[]]. apply Q. now left. }
    intros r m' (pos' & mx & st' & -> & P & GM & H' & HO). cbn [fst snd]. rewrite (GD mx GM). cbn [negb].
    apply (IH) with (st := st'); [| |exact H'| |lia].
    + intros T. destruct (HT T) as (F & N1 & N2 & Q). split; [exact F|]. split; [exact N1|]. split; [exact N2|]. intros b Hb. apply Q. now right.
    + intros b Hb. apply HL. now right.
    + intros i Hi. rewrite HO by lia. apply HN. lia.
Qed.
End Run.

(** ** C68: whatever the arguments, the random numbers, the arithmetic and the memory: no access outside an array,
    no misaligned access, no failing assert *)
Theorem C68_no_error {A : arith} plat (to_float : R -> A) (to_double : A -> xdouble) rnd garbage ndebug fuel addr idu idd a pos st (m : mem A) :
  reach plat st m -> st idu = None -> st idd = None -> idu <> idd -> addresses addr 128 -> 0 <= pos ->
  match run_accuracy plat to_float to_double rnd garbage ndebug fuel addr idu idd a pos m with Ok _ => True | Err e => e = OutOfFuel end.
Proof.
  intros H Eu Ed Ne HA Hp.
  pose proof (run_ok plat to_float to_double rnd garbage ndebug fuel False (fun _ => True) addr idu idd a pos st m 0 0 H Eu Ed Ne HA Hp I) as Q.
  apply goes_partial in Q; [|intros f _ st1 m1 x y lo k mx _ _ _ _ _ _ _ _ _; exact I | tauto].
  destruct (run_accuracy _ _ _ _ _ _ _ _ _ _ _ _ m) as [[r m']|e]; [exact I | exact Q].
Qed.

(** ... and the loops end *)
Theorem C68_ends {A : arith} plat (to_float : R -> A) (to_double : A -> xdouble) rnd garbage ndebug fuel addr idu idd a pos st (m : mem A) W nf :
  reach plat st m -> st idu = None -> st idd = None -> idu <> idd -> addresses addr 128 -> 0 <= pos -> can_end rnd fuel W nf [a] ->
  exists r m', run_accuracy plat to_float to_double rnd garbage ndebug fuel addr idu idd a pos m = Ok (r, m').
Proof.
  intros H Eu Ed Ne HA Hp HE.
  pose proof (run_ok plat to_float to_double rnd garbage ndebug fuel (can_end rnd fuel W nf [a]) (fun _ => True) addr idu idd a pos st m W nf H Eu Ed Ne HA Hp I) as Q.
  destruct (goes_ok _ _ _ _ (Q ltac:(intros f _ st1 m1 x y lo k mx _ _ _ _ _ _ _ _ _; exact I) (fun h => h)) HE) as (r & m' & E & _). now exists r, m'.
Qed.

(** ** C68: in exact arithmetic a run whose limit is above the error of the filters passes *)
Theorem C68_exact plat rnd garbage ndebug fuel addr idu idd a pos st (m : mem RA) :
  reach plat st m -> st idu = None -> st idd = None -> idu <> idd -> addresses addr 128 -> 0 <= pos -> 1 < g_bits a ->
  (forall f, tested a f -> covered (g_type a) f /\ (exact_bound (g_type a) (precision_of a) f <= Rpower 10 (limit a / 20))%R) ->
  match run_accuracy (A := RA) plat (fun r => r) Fin rnd garbage ndebug fuel addr idu idd a pos m with
  | Ok ((_, passed), _) => passed = true | Err e => e = OutOfFuel end.
Proof.
  intros H Eu Ed Ne HA Hp HB HF. set (E := Rpower 10 (limit a / 20)).
  assert (E0 : (0 <= E)%R) by (unfold E, Rpower; apply Rlt_le, exp_pos).
  pose proof (run_ok (A := RA) plat (fun r => r) Fin rnd garbage ndebug fuel False (up_to E) addr idu idd a pos st m 0 0 H Eu Ed Ne HA Hp (up_to_0 E E0)) as Q.
  apply goes_partial in Q; [| |tauto].
  - destruct (run_accuracy _ _ _ _ _ _ _ _ _ _ _ _ m) as [[r m']|e]; [|exact Q]. destruct Q as (pos' & mx & st' & -> & _ & G & _).
    rewrite (up_to_db E mx (limit a) G); [reflexivity | apply Rle_refl].
  - intros f Hf. destruct (HF f Hf) as [C B]. apply exact_good; [now apply find_hq | exact C | exact B].
Qed.

(** ** C68: in single precision, with the number of dB that is guaranteed *)
Theorem C68_single_precision plat rnd garbage ndebug fuel addr idu idd a pos st (m : mem F32) :
  reach plat st m -> st idu = None -> st idd = None -> idu <> idd -> addresses addr 128 -> 0 <= pos -> 1 < g_bits a ->
  (forall f, tested a f -> kept (g_type a) f) -> (Rabs (g_threshold a) <= guaranteed (g_type a) (precision_of a))%R ->
  match run_accuracy (A := F32) plat (fun r => b32_round r : F32) b32_double rnd garbage ndebug fuel addr idu idd a pos m with
  | Ok ((_, passed), _) => passed = true | Err e => e = OutOfFuel end.
Proof.
  intros H Eu Ed Ne HA Hp HB HF HG. set (E := Rpower 10 (limit a / 20)).
  assert (E0 : (0 <= E)%R) by (unfold E, Rpower; apply Rlt_le, exp_pos).
  pose proof (run_ok (A := F32) plat (fun r => b32_round r : F32) b32_double rnd garbage ndebug fuel False (up_to E) addr idu idd a pos st m 0 0 H Eu Ed Ne HA Hp (up_to_0 E E0)) as Q.
  apply goes_partial in Q; [| |tauto].
  - destruct (run_accuracy _ _ _ _ _ _ _ _ _ _ _ _ m) as [[r m']|e]; [|exact Q]. destruct Q as (pos' & mx & st' & -> & _ & G & _).
    rewrite (up_to_db E mx (limit a) G); [reflexivity | apply Rle_refl].
  - intros f Hf. pose proof (find_hq _ HB) as HQ. fold (precision_of a) in HQ. apply float_good; [exact HQ | left; now apply HF|].
    eapply Rle_trans; [apply float_numbers; [exact HQ | now apply HF]|]. unfold E. apply Rle_Rpower; [lra|]. unfold limit. lra.
Qed.

(** ** C68: check_accuracy_full() passes in exact arithmetic *)
Lemma test_numbers plat a : In a (all_tests plat) -> 1 < g_bits a /\ (1 < g_inc a)%R /\ (first_freq a = g_inc a /\ g_min a = g_inc a /\ last_freq a = 360 * g_inc a /\ next_freq a = g_inc a)%R /\
  (g_inc a = (if downs_first (g_type a) then 25 else 50))%R /\
  forall f, (f < 11025 -> exact_bound (g_type a) (precision_of a) f <= Rpower 10 (limit a / 20))%R \/ downs_first (g_type a) = false /\ (exact_bound (g_type a) (precision_of a) f <= Rpower 10 (limit a / 20))%R.
Proof.
  intros H.
  assert (IN : In a (up_tests true 124.5 ++ down_tests true ++ up_tests false 124 ++ down_tests false ++
    [ Arguments_ RES_OVERSAMPLE true 8  50 18000 50 44; Arguments_ RES_OVERSAMPLE true 16 50 18000 50 89; Arguments_ RES_SUBSAMPLE true 16 25 9000 25 85.5 ] ++
    [ Arguments_ RES_OVERSAMPLE false 16 50 18000 50 89; Arguments_ RES_SUBSAMPLE false 16 25 9000 25 85.5 ])).
  { unfold all_tests in H. rewrite !in_app_iff in *. destruct (sse_available plat); rewrite ?in_app_iff in H; tauto. }
  assert (LG : forall t, (0 <= t)%R -> (- Rabs t)%R = (- t)%R) by (intros t Ht; now rewrite Rabs_pos_eq).
  clear H. cbn [up_tests down_tests app In] in IN.
  unfold first_freq, last_freq, next_freq, one_or, limit, precision_of.
  repeat (destruct IN as [IN|IN]; [rewrite <- IN; clear IN; cbn [g_type g_sse g_bits g_min g_max g_inc g_threshold downs_first]; rewrite LG by lra;
    match goal with |- context [find_precision_for_bits ?b] => let v := eval vm_compute in (find_precision_for_bits b) in change (find_precision_for_bits b) with v end;
    (split; [lia|]); (split; [lra|]); split; [destruct (Rlt_dec 1 _) as [_|n]; [|exfalso; lra]; repeat split; lra|]; split; [reflexivity|];
    intros f; first [left; intros Hf; unfold exact_bound; destruct (Rlt_dec f 11025) as [_|n]; [|contradiction]; unfold error_of, PREC_48DB, PREC_72DB, PREC_96DB, PREC_120DB, Rpower; cbn [Z.eqb Pos.eqb]; interval with (i_prec 60)
      | right; split; [reflexivity|]; unfold exact_bound, error_of, PREC_48DB, PREC_72DB, PREC_96DB, PREC_120DB, Rpower; cbn [Z.eqb Pos.eqb]; interval with (i_prec 60)] |]).
  contradiction.
Qed.

Lemma tests_kept plat a f : In a (all_tests plat) -> tested a f -> kept (g_type a) f.
Proof.
  intros Ha (i & Hi & Ef & Lf). destruct (test_numbers plat a Ha) as (_ & _ & (E1 & _ & E2 & E3) & E4 & _). unfold kept. rewrite E1, E3 in Ef. rewrite E2 in Lf.
  destruct (downs_first (g_type a)); rewrite E4 in *.
  - assert (I : (IZR i < IZR 360)%R) by lra. apply lt_IZR in I. assert (i <= 359) as I' by lia. apply IZR_le in I', Hi. lra.
  - assert (I : (IZR i < IZR 360)%R) by lra. apply lt_IZR in I. assert (i <= 359) as I' by lia. apply IZR_le in I', Hi. lra.
Qed.

Lemma tests_end plat rnd fuel W : fair rnd 128 W -> W * 20000 <= Z.of_nat fuel -> 360 <= Z.of_nat fuel -> can_end rnd fuel W 360 (all_tests plat).
Proof.
  intros F N1 N2. split; [exact F|]. split; [exact N1|]. split; [exact N2|]. intros a Ha. destruct (test_numbers plat a Ha) as (_ & Q & (-> & _ & -> & ->) & E & _).
  rewrite E. destruct (downs_first (g_type a)); lra.
Qed.

Theorem C68_check_accuracy_full plat rnd garbage ndebug fuel addr (m : mem RA) : (forall id, addresses (addr id) 128) ->
  match check_accuracy_full (A := RA) plat (fun r => r) Fin rnd garbage ndebug fuel addr m with Ok (passed, _) => passed = true | Err e => e = OutOfFuel end /\
  (forall W, fair rnd 128 W -> W * 20000 <= Z.of_nat fuel -> 360 <= Z.of_nat fuel ->
   exists m', check_accuracy_full (A := RA) plat (fun r => r) Fin rnd garbage ndebug fuel addr m = Ok (true, m')).
Proof.
  intros HA. unfold check_accuracy_full.
  assert (G : forall (t : Prop) W, (t -> can_end rnd fuel W 360 (all_tests plat)) ->
    goes t (run_list (A := RA) plat (fun r => r) Fin rnd garbage ndebug fuel addr 0 (all_tests plat) 0) m (fun b _ => b = true)).
  { intros t W HT. apply (list_ok (A := RA) plat (fun r => r) Fin rnd garbage ndebug fuel t (fun a => up_to (Rpower 10 (limit a / 20))) addr (all_tests plat) W 360 HA HT) with (st := fun _ => None).
    - intros a Ha. split; [apply up_to_0; unfold Rpower; apply Rlt_le, exp_pos|]. split; [intros mx Hm; apply (up_to_db _ _ _ Hm), Rle_refl|].
      intros f Hf idu idd. pose proof (tests_kept plat a f Ha Hf) as K. destruct (test_numbers plat a Ha) as (HB & _ & _ & _ & Q).
      apply exact_good; [now apply find_hq | now left|]. destruct (Q f) as [Q'|[_ Q']]; [|exact Q']. destruct (Q f) as [Q2|[_ Q2]]; [|exact Q2].
      destruct (downs_first (g_type a)) eqn:ED; [apply Q'; unfold kept in K; rewrite ED in K; lra|].
      assert (ZB : exact_bound (g_type a) (precision_of a) f = exact_bound (g_type a) (precision_of a) 0) by (unfold exact_bound; destruct (g_type a); reflexivity || discriminate).
      rewrite ZB. destruct (Q 0%R) as [Q3|[_ Q3]]; [apply Q3; lra | exact Q3].
    - apply reach_init.
    - reflexivity.
    - lia. }
  split.
  - pose proof (goes_partial _ _ _ _ (G False 0 ltac:(tauto))) as Q. destruct (run_list _ _ _ _ _ _ _ _ _ _ _ m) as [[b m']|e]; exact Q.
  - intros W F N1 N2. destruct (goes_ok _ _ _ _ (G True W (fun _ => tests_end plat rnd fuel W F N1 N2)) I) as (b & m' & E & ->). now exists m'.
Qed.

(** ** C68: the comparison has only one side: what is too low or not a number leaves no trace *)
Definition unseen (v : F32) : Prop := match b32_double v with Fin r => (r <= -1)%R | PInf => False | MInf | NaN => True end.

Theorem C68_only_upwards freq (e : expected) order4 k phase mx (m : mem F32) : (0 <= mx)%R -> (0 <= e_volume e <= 1)%R ->
  (forall i, 0 <= i < e_bs e -> exists v, m (e_check e) i = Some v /\ unseen v) ->
  match check_output (A := F32) (larger b32_double) freq e order4 (k, phase, Fin mx) m with
  | Ok ((k', _, mx'), m') => k' = k + Z.max 0 (e_bs e) /\ mx' = Fin mx /\ m' = m | Err er => er = OutOfFuel end.
Proof.
  intros Hm Hv Hc.
  assert (G : goes False (check_output (A := F32) (larger b32_double) freq e order4 (k, phase, Fin mx)) m
    (fun s m' => m' = m /\ exists ph, s = (k + Z.max 0 (e_bs e), ph, Fin mx))).
  { unfold check_output. apply goes_for with (Inv := fun i s m' => m' = m /\ exists ph, s = (k + i, ph, Fin mx)).
    - split; [reflexivity|]. exists phase. now rewrite Z.add_0_r.
    - intros i s m' Hi (-> & ph & ->). apply goes_bind. apply (goes_mono _ _ _ (fun d m' => m' = m /\ d = Fin mx)).
      + destruct (order4 <? k + i); [|now apply goes_ret]. apply goes_bind. destruct (Hc i ltac:(lia)) as (v & E & U).
        eapply goes_load; [exact E|]. apply goes_ret. split; [reflexivity|]. unfold unseen in U. unfold larger.
        match goal with |- context [sin ?u] => pose proof (SIN_bound u) as B; set (s := sin u) in * end.
        assert (-1 <= s * e_volume e)%R by nra.
        destruct (b32_double v) as [r| | |]; cbn; try reflexivity; [|contradiction].
        unfold xmax. cbn. destruct (Rlt_dec mx (r - s * e_volume e)); [exfalso; lra | reflexivity].
      + intros d m' [-> ->]. apply goes_bind. apply (goes_mono _ _ _ (fun _ m' => m' = m)).
        { unfold wrap. apply goes_while with (Inv := fun _ _ m' => m' = m); [reflexivity | tauto| |].
          - intros n q m' -> _. now apply goes_ret.
          - intros n q m' -> _. reflexivity. }
        intros q m' ->. apply goes_ret. split; [reflexivity|]. exists q. now rewrite Z.add_assoc.
    - intros s m' [-> [ph ->]]. split; [reflexivity|]. exists ph. do 3 f_equal. lia. }
  apply goes_partial in G. destruct (check_output _ _ _ _ _ m) as [[s m']|er]; [|exact G]. destruct G as (-> & ph & ->). auto.
Qed.

(** ** Instances *)
Definition ex_addr (b : blk) : Z :=
  match b with Tmp2 => 2 ^ 20 | User 0 => 2 ^ 21 | User 1 => 2 ^ 21 + 4096 | User 2 => 2 ^ 21 + 8192 | _ => 0 end.
Example C68_addresses : addresses ex_addr 128.
Proof.
  constructor.
  - constructor; intros; try reflexivity. right. unfold paddr. cbn. lia.
  - right. unfold paddr. cbn. lia.
  - right. unfold paddr. cbn. lia.
  - intros b t Hb Ht. left. unfold paddr. cbn [pb po]. destruct Hb as [->|[->| ->]], Ht as [->| ->]; cbn; lia.
Qed.
Example C68_fair : fair (fun _ => 12) 128 1.
Proof. split; [lia|]. intros i Hi. exists 0. split; [lia|]. split; reflexivity || (cbn; lia). Qed.
(** upsampling with 8 bits, first SSE test *)
Example C68_case plat rnd garbage ndebug fuel :
  match run_accuracy (A := F32) plat (fun r => b32_round r : F32) b32_double rnd garbage ndebug fuel ex_addr 0 1
      (Arguments_ RES_UPSAMPLE true 8 50 18000 50 44) 0 (fun _ _ => None) with
  | Ok ((_, passed), _) => passed = true | Err e => e = OutOfFuel end.
Proof.
  apply C68_single_precision with (st := fun _ => None); try reflexivity; try apply C68_addresses; try apply reach_init; try lia; cbn [g_bits g_type g_threshold]; try lia.
  - intros f Hf. apply (tests_kept (Platform true true) (Arguments_ RES_UPSAMPLE true 8 50 18000 50 44) f); [left; reflexivity | exact Hf].
  - rewrite Rabs_pos_eq by lra. unfold guaranteed, precision_of. cbn. lra.
Qed.
Print Assumptions C68_no_error.
Print Assumptions C68_ends.
Print Assumptions C68_exact.
Print Assumptions C68_single_precision.
Print Assumptions C68_check_accuracy_full.
Print Assumptions C68_only_upwards.
