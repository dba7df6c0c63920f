(** * Runs of testsawquality.cc *)
From Coq Require Import String ZArith Reals List Lia Bool ZifyNat ZifyBool.
From Verif Require Import Arith Mem FirModel IirModel Tables ResamplerModel Wp Stage Cascade
  ResamplerProof ResamplerOk Spec SpecOk Client StreamFacts AccuracyModel ExampleModel ExampleProof ToolsModel ToolsArrays ErrorModel SpecR FirReal FirEnergy Blackman SawModel.
Import ListNotations.
Open Scope list_scope.
Open Scope Z_scope.
Open Scope m_scope.

Lemma saw_blackman i : saw_window i = blackman (Z.to_nat SAW_SIZE) i.
Proof. unfold saw_window, blackman. rewrite INR_IZR_INZ, Z2Nat.id by (unfold SAW_SIZE; lia). reflexivity. Qed.
Lemma saw_window_sum : sumR (Z.to_nat SAW_SIZE) saw_window = (0.42 * 8192)%R.
Proof.
  rewrite (sumR_ext _ _ (blackman (Z.to_nat SAW_SIZE))) by (intros; apply saw_blackman).
  rewrite window_sum by (unfold SAW_SIZE; lia). rewrite INR_IZR_INZ, Z2Nat.id by (unfold SAW_SIZE; lia). reflexivity.
Qed.

Section Saw.
Context {A : arith} (plat : platform).
Context (addr : blk -> Z) (gu gd : Z -> Z -> Z -> A) (gt : Z -> A) (ndebug : bool).
Context (to_double : A -> xdouble) (to_float : xdouble -> A) (shape : A -> A) (partial : A -> Z -> Z -> xdouble).
Context (zita : list A -> Z -> A) (fft : list A -> Z -> A * A).
Implicit Types m : mem A.

(** the first n partials *)
Fixpoint first_partials (n : nat) (freq : A) (i : Z) : A :=
  match n with
  | O => f0
  | S n => to_float (xadd (to_double (first_partials n freq i)) (partial freq (Z.of_nat (S n)) i))
  end.
Notation below := (below_half to_double to_float).
Notation partials := (partials to_double to_float partial).

Lemma partials_some freq i p0 n : forall p, 1 <= p <= p0 -> p0 <= p + Z.of_nat n ->
  (forall q, p <= q < p0 -> below freq q = true) -> below freq p0 = false ->
  partials n freq i p (first_partials (Z.to_nat (p - 1)) freq i) = Some (first_partials (Z.to_nat (p0 - 1)) freq i).
Proof.
  induction n as [|n IH]; intros p Hp Hn H1 H2.
  - assert (p = p0) as -> by lia. cbn [SawModel.partials]. now rewrite H2.
  - cbn [SawModel.partials]. destruct (Z.eq_dec p p0) as [->|N]; [now rewrite H2|]. rewrite H1 by lia.
    rewrite <- (IH (p + 1) ltac:(lia) ltac:(lia) ltac:(intros q Hq; apply H1; lia) H2).
    replace (Z.to_nat (p + 1 - 1)) with (S (Z.to_nat (p - 1))) by lia. cbn [first_partials].
    replace (Z.of_nat (S (Z.to_nat (p - 1)))) with p by lia. reflexivity.
Qed.
Lemma partials_none freq i n : forall p v, (forall q, p <= q <= p + Z.of_nat n -> below freq q = true) -> partials n freq i p v = None.
Proof.
  induction n as [|n IH]; intros p v H; cbn [SawModel.partials]; rewrite H by lia; [reflexivity|]. apply IH. intros q Hq. apply H. lia.
Qed.

Definition fill_step (freq : A) (n : nat) (i : Z) (ok : bool) : M A bool :=
  if ok then
      x <- load (Ptr in_a i) ;;
      match partials n freq i 1 x with
      | Some v => store (Ptr in_a i) v ;;; ret true
      | None => ret false
      end
    else ret false.
Lemma input_runs freq n N (v : Z -> A) m : 0 <= N -> has m (Ptr in_a 0) N (fun _ => f0) -> (forall i, 0 <= i < N -> partials n freq i 1 f0 = Some (v i)) ->
  runs (for_up (Z.to_nat N) 0 (fill_step freq n) true) m
    (fun ok m' => ok = true /\ has m' (Ptr in_a 0) N (nthZ (tab N v)) /\ forall b i, b <> in_a -> m' b i = m b i).
Proof.
  intros N0 HM HP.
  apply runs_for with (Inv := fun i ok m' => ok = true /\ (forall j, 0 <= j < N -> m' in_a j = Some (if j <? i then v j else f0)) /\ forall b i, b <> in_a -> m' b i = m b i).
  - split; [reflexivity|]. split; [|reflexivity]. intros j Hj. replace (j <? 0) with false by lia. apply (HM j Hj).
  - intros i ok m' Hi (-> & H1 & H2). unfold fill_step. apply runs_bind. eapply runs_load; [cbn [pb po]; apply H1; lia|]. rewrite Z.ltb_irrefl.
    rewrite HP by lia. apply runs_bind. apply runs_store; [cbn [pb po]; rewrite H1 by lia; discriminate|]. apply runs_ret. cbn [pb po]. split; [reflexivity|]. split.
    + intros j Hj. destruct (Z.eq_dec j i) as [->|].
      * rewrite upd_same. now replace (i <? i + 1) with true by lia.
      * rewrite upd_other by lia. rewrite H1 by lia. now replace (j <? i + 1) with (j <? i) by lia.
    + intros b j Hb. unfold upd. destruct (blk_eqb_spec b in_a); [contradiction | now apply H2].
  - intros ok m' (-> & H1 & H2). split; [reflexivity|]. split; [|exact H2]. intros j Hj. cbn [pb po]. rewrite Z.add_0_l, H1 by lia. replace (j <? 0 + Z.of_nat (Z.to_nat N)) with true by lia.
    f_equal. pose proof (smp_tab (A := A) N v j Hj) as E. rewrite <- E. unfold smp, nthZ. destruct (Z.ltb_spec j 0); [lia | reflexivity].
Qed.
Lemma input_overflow freq n N m : 0 < N -> has m (Ptr in_a 0) N (fun _ => f0) -> partials n freq 0 1 f0 = None ->
  runs (for_up (Z.to_nat N) 0 (fill_step freq n) true) m (fun ok m' => ok = false /\ m' = m).
Proof.
  intros N0 HM HP. apply runs_for with (Inv := fun i ok m' => m' = m /\ ok = (i =? 0)).
  - split; reflexivity.
  - intros i ok m' Hi (-> & ->). destruct (Z.eqb_spec i 0) as [->|N1]; unfold fill_step.
    + apply runs_bind. eapply runs_load; [apply (HM 0); lia|]. rewrite HP. apply runs_ret. split; reflexivity.
    + apply runs_ret. split; [reflexivity | lia].
  - intros ok m' (-> & ->). split; [lia | reflexivity].
Qed.

Definition window_all (y : list A) : list A := tab (len y) (fun i => to_float (xscale (to_double (nthZ y i)) (saw_window i))).
Lemma windowing_runs N (y : list A) m : len y = N -> has m (Ptr out_a 0) N (nthZ y) ->
  runs (for_up (Z.to_nat N) 0 (fun i normalize =>
    x <- load (Ptr out_a i) ;;
    store (Ptr out_a i) (to_float (xscale (to_double x) (saw_window i))) ;;;
    ret (normalize + saw_window i)%R) 0%R) m
    (fun s m' => s = sumR (Z.to_nat N) saw_window /\ has m' (Ptr out_a 0) N (nthZ (window_all y)) /\ forall b i, b <> out_a -> m' b i = m b i).
Proof.
  intros L HM. set (w := fun i => to_float (xscale (to_double (nthZ y i)) (saw_window i))).
  apply runs_for with (Inv := fun i s m' => s = sumR (Z.to_nat i) saw_window /\ (forall j, 0 <= j < N -> m' out_a j = Some (if j <? i then w j else nthZ y j)) /\ forall b i, b <> out_a -> m' b i = m b i).
  - split; [reflexivity|]. split; [|reflexivity]. intros j Hj. replace (j <? 0) with false by lia. apply (HM j Hj).
  - intros i s m' Hi (-> & H1 & H2). apply runs_bind. eapply runs_load; [cbn [pb po]; apply H1; lia|]. rewrite Z.ltb_irrefl.
    apply runs_bind. apply runs_store; [cbn [pb po]; rewrite H1 by lia; discriminate|]. apply runs_ret. cbn [pb po]. split; [|split].
    + replace (Z.to_nat (i + 1)) with (S (Z.to_nat i)) by lia. cbn [sumR]. now rewrite Z2Nat.id by lia.
    + intros j Hj. destruct (Z.eq_dec j i) as [->|].
      * rewrite upd_same. now replace (i <? i + 1) with true by lia.
      * rewrite upd_other by lia. rewrite H1 by lia. now replace (j <? i + 1) with (j <? i) by lia.
    + intros b j Hb. unfold upd. destruct (blk_eqb_spec b out_a); [contradiction | now apply H2].
  - intros s m' (-> & H1 & H2). split; [f_equal; lia|]. split; [|exact H2]. intros j Hj. cbn [pb po]. rewrite Z.add_0_l, H1 by lia. replace (j <? 0 + Z.of_nat (Z.to_nat N)) with true by lia.
    f_equal. unfold window_all. rewrite L. pose proof (smp_tab (A := A) N w j Hj) as E. unfold w at 1 in E. rewrite <- E. unfold smp, nthZ. destruct (Z.ltb_spec j 0); [lia | reflexivity].
Qed.

(** the lines for the output y *)
Definition lines_for (y : list A) : list (xdouble * xdouble) := saw_lines to_double to_float fft (0.42 * 8192 / 2) (window_all y).

Notation main := (saw_main plat addr gu gd gt ndebug to_double to_float shape partial zita fft).

Lemma windowing_ok y m : len y = SAW_SIZE -> has m (Ptr out_a 0) SAW_SIZE (nthZ y) ->
  exists m', saw_windowing to_double to_float m = Ok ((0.42 * 8192 / 2)%R, m') /\ contents out_a SAW_SIZE m' = Ok (window_all y, m').
Proof.
  intros L H. destruct (runs_inv _ _ _ (windowing_runs SAW_SIZE y m L H)) as (s & m' & E & -> & H' & _).
  exists m'. unfold saw_windowing, bind at 1. rewrite E, saw_window_sum. split; [reflexivity|].
  apply contents_ok; [|exact H']. unfold window_all. rewrite L. apply len_tab. unfold SAW_SIZE; lia.
Qed.

Definition start_mem m : mem A := fun b i => if blk_eqb b out_a then (if (0 <=? i) && (i <? SAW_SIZE) then Some f0 else None) else
    if blk_eqb b in_a then (if (0 <=? i) && (i <? SAW_SIZE) then Some f0 else None) else m b i.
Lemma main_start atof a1 mode m : mode = "zita"%string \/ mode = "panda"%string ->
  main atof [a1; mode] m =
    (ok <- saw_input to_double to_float partial (atof a1) ;;
    if negb ok then ret Overflow
    else
      s <- sat_new plat SAW_OVERSAMPLE SAW_PREC 0 1 ;;
      (if String.eqb mode "zita" then
         x <- contents in_a SAW_SIZE ;; fill out_a SAW_SIZE (zita x)
       else
         sat_process SAW_OVERSAMPLE shape addr ndebug gu gd gt 2 (fst s) (Ptr in_a 0) SAW_SIZE (Ptr out_a 0)) ;;;
      normalize <- saw_windowing to_double to_float ;;
      out <- contents out_a SAW_SIZE ;;
      free out_a ;;; free in_a ;;;
      ret (Lines (saw_lines to_double to_float fft normalize out))) (start_mem m).
Proof. intros [->| ->]; reflexivity. Qed.
Lemma start_in m : has (start_mem m) (Ptr in_a 0) SAW_SIZE (fun _ => f0).
Proof. intros i Hi. cbn [pb po]. unfold start_mem. cbn [blk_eqb in_a out_a Z.eqb]. now replace ((0 <=? 0 + i) && (0 + i <? SAW_SIZE)) with true by lia. Qed.
Lemma start_out m : mapped (start_mem m) (Ptr out_a 0) SAW_SIZE.
Proof. intros i Hi. cbn [pb po]. unfold start_mem. rewrite blk_eqb_refl. replace ((0 <=? 0 + i) && (0 + i <? SAW_SIZE)) with true by lia. discriminate. Qed.

Theorem saw_overflow atof a1 mode m : mode = "zita"%string \/ mode = "panda"%string ->
  (forall p, 1 <= p <= INT_MAX -> below (atof a1) p = true) -> exists m', main atof [a1; mode] m = Ok (Overflow, m').
Proof.
  intros Hm HB. rewrite main_start by exact Hm.
  assert (E : partials (Z.to_nat (INT_MAX - 1)) (atof a1) 0 1 f0 = None) by (apply partials_none; intros q Hq; apply HB; unfold INT_MAX in *; lia).
  destruct (runs_inv _ _ _ (input_overflow (atof a1) _ SAW_SIZE (start_mem m) ltac:(reflexivity) (start_in m) E)) as (ok & m' & E1 & -> & ->).
  unfold bind at 1. change (saw_input to_double to_float partial (atof a1)) with (for_up (Z.to_nat SAW_SIZE) 0 (fill_step (atof a1) (Z.to_nat (INT_MAX - 1))) true).
  rewrite E1. cbn [negb]. exists (start_mem m). reflexivity.
Qed.

(** different arrays have different addresses *)
Record far_saw : Prop := {
  fs_ok : addr_ok addr;
  fs_in : asep addr (Ptr in_a 0) 8192 (Ptr (User 2) 0) 65536;
  fs_out : asep addr (Ptr (User 2) 0) 65536 (Ptr out_a 0) 8192;
  fs_s : forall t, t = Tmp \/ t = Tmp2 ->
    asep addr (Ptr in_a 0) 8192 (Ptr t 0) 4096 /\ asep addr (Ptr out_a 0) 8192 (Ptr t 0) 4096 /\ asep addr (Ptr (User 2) 0) 65536 (Ptr t 0) 4096 }.

Definition saw_of (freq : A) (p0 : Z) : list A := tab SAW_SIZE (first_partials (Z.to_nat (p0 - 1)) freq).
(** p0 - 1 partials are below 24000 Hz *)
Definition stops (freq : A) (p0 : Z) : Prop := 1 <= p0 <= INT_MAX /\ (forall p, 1 <= p < p0 -> below freq p = true) /\ below freq p0 = false.

Lemma input_ok freq p0 m : stops freq p0 ->
  exists m1, saw_input to_double to_float partial freq (start_mem m) = Ok (true, m1) /\
    has m1 (Ptr in_a 0) SAW_SIZE (nthZ (saw_of freq p0)) /\ forall b i, b <> in_a -> m1 b i = start_mem m b i.
Proof.
  intros (Hp & HB & HE).
  assert (HP : forall i, 0 <= i < SAW_SIZE -> partials (Z.to_nat (INT_MAX - 1)) freq i 1 f0 = Some (first_partials (Z.to_nat (p0 - 1)) freq i)).
  { intros i _. refine (partials_some freq i p0 (Z.to_nat (INT_MAX - 1)) 1 _ _ HB HE); [lia | unfold INT_MAX in *; lia]. }
  destruct (runs_inv _ _ _ (input_runs freq (Z.to_nat (INT_MAX - 1)) SAW_SIZE (first_partials (Z.to_nat (p0 - 1)) freq) (start_mem m) ltac:(discriminate) (start_in m) HP))
    as (ok & m1 & E1 & -> & H1 & F1).
  exists m1. split; [exact E1|]. split; [exact H1 | exact F1].
Qed.

Theorem saw_zita atof a1 p0 m : stops (atof a1) p0 ->
  exists m', main atof [a1; "zita"%string] m = Ok (Lines (lines_for (tab SAW_SIZE (zita (saw_of (atof a1) p0)))), m').
Proof.
  intros HS. rewrite main_start by auto. destruct (input_ok (atof a1) p0 m HS) as (m1 & E1 & H1 & F1).
  unfold bind at 1. rewrite E1. cbn [negb].
  assert (Vr : ratio_no SAW_OVERSAMPLE) by (unfold ratio_no, SAW_OVERSAMPLE; auto).
  assert (VT : 2 <= SAW_OVERSAMPLE -> fir_prec SAW_PREC) by (intros _; unfold fir_prec, SAW_PREC, PREC_96DB; auto).
  destruct (sat_new_ok plat SAW_OVERSAMPLE SAW_PREC shape 0 1 Vr VT (fun _ => None) m1 (reach_init plat m1) eq_refl eq_refl ltac:(lia)) as (s & m2 & st2 & E2 & _ & _ & F2 & _).
  unfold bind at 1. rewrite E2. cbn [String.eqb Ascii.eqb Bool.eqb].
  assert (Lx : len (saw_of (atof a1) p0) = SAW_SIZE) by (apply len_tab; unfold SAW_SIZE; lia).
  unfold bind at 1. unfold bind at 1.
  assert (C2 : contents in_a SAW_SIZE m2 = Ok (saw_of (atof a1) p0, m2)) by (apply (contents_ok 0 SAW_SIZE (saw_of (atof a1) p0) m2 Lx); intros i Hi; rewrite F2 by (now exists 0); now apply H1).
  rewrite C2.
  destruct (fill_ok 1 SAW_SIZE (zita (saw_of (atof a1) p0)) m2 ltac:(unfold SAW_SIZE; lia)) as (m3 & E3 & H3 & _).
  { intros i Hi. rewrite F2 by now exists 1. cbn [pb po]. rewrite F1 by discriminate. now apply start_out. }
  change (User 1) with out_a in *. rewrite E3.
  destruct (windowing_ok (tab SAW_SIZE (zita (saw_of (atof a1) p0))) m3 ltac:(apply len_tab; unfold SAW_SIZE; lia) H3) as (m4 & E4 & E5).
  unfold bind at 1. rewrite E4. unfold bind at 1. rewrite E5. eexists. reflexivity.
Qed.

Theorem saw_panda atof a1 p0 m : far_saw -> stops (atof a1) p0 ->
  exists u y m', main atof [a1; "panda"%string] m = Ok (Lines (lines_for y), m') /\ len u = 65536 /\ len y = 8192 /\
    resample_any (A := A) FILTER_FIR UP PREC_96DB (vector plat FILTER_FIR true) 8 (saw_of (atof a1) p0) u /\
    resample_any (A := A) FILTER_FIR DOWN PREC_96DB (vector plat FILTER_FIR true) 8 (map shape u) y.
Proof.
  intros [AO A1 A2 A3] HS. rewrite main_start by auto. destruct (input_ok (atof a1) p0 m HS) as (m1 & E1 & H1 & F1).
  unfold bind at 1. rewrite E1. cbn [negb].
  assert (Vr : ratio_no SAW_OVERSAMPLE) by (unfold ratio_no, SAW_OVERSAMPLE; auto).
  assert (VT : 2 <= SAW_OVERSAMPLE -> fir_prec SAW_PREC) by (intros _; unfold fir_prec, SAW_PREC, PREC_96DB; auto).
  destruct (sat_new_ok plat SAW_OVERSAMPLE SAW_PREC shape 0 1 Vr VT (fun _ => None) m1 (reach_init plat m1) eq_refl eq_refl ltac:(lia)) as (s & m2 & st2 & E2 & X2 & S2 & F2 & _).
  unfold bind at 1. rewrite E2. cbn [String.eqb Ascii.eqb Bool.eqb fst].
  set (x := saw_of (atof a1) p0) in *.
  assert (Lx : len x = SAW_SIZE) by (apply len_tab; unfold SAW_SIZE; lia).
  destruct (sat_process_ok plat SAW_OVERSAMPLE SAW_PREC shape 0 1 Vr VT st2 m2 s [] [] addr ndebug gu gd gt 2 (Ptr in_a 0) x (Ptr out_a 0) X2 S2) as (m3 & st3 & y & E3 & Ly & H3 & X3 & S3 & _ & _).
  { constructor; rewrite ?Lx; try assumption.
    - reflexivity.
    - reflexivity.
    - now exists 0.
    - now exists 1.
    - intros i Hi. rewrite F2 by now exists 0. now apply H1.
    - intros i Hi. rewrite F2 by now exists 1. cbn [pb po]. rewrite F1 by discriminate. now apply start_out.
    - split; discriminate.
    - split; assumption. }
  rewrite Lx in E3, Ly, H3. unfold bind at 1. rewrite E3.
  destruct (windowing_ok y m3 Ly H3) as (m4 & E4 & E5).
  unfold bind at 1. rewrite E4. unfold bind at 1. rewrite E5.
  destruct S3 as (Bu & Bd & _ & ou & od & Eu & Ed & Ru & Rd & Xi & Xt & Yo). cbn [app] in Xi, Yo.
  pose proof (reach_resample_any plat st3 m3 0 ou X3 Eu) as Q1. pose proof (reach_resample_any plat st3 m3 1 od X3 Ed) as Q2.
  pose proof (reach_size plat st3 m3 0 ou X3 Eu) as Z1. cbn zeta in Q1, Q2. rewrite Ru, Bu, Xi in Q1, Z1. rewrite Rd, Bd, Xt, Yo in Q2.
  exists (o_out ou), y. eexists. split; [reflexivity|]. split; [|split; [exact Ly|split; [exact Q1 | exact Q2]]].
  unfold size in Z1. cbn [built r_mode r_ratio out_size] in Z1. unfold len in Lx |- *. rewrite Z1, Lx. reflexivity.
Qed.

Theorem saw_usage atof args m : (forall a1 mode, args = [a1; mode] -> mode <> "zita"%string /\ mode <> "panda"%string) -> main atof args m = Ok (Usage, m).
Proof.
  intros H. unfold saw_main. cbv zeta. set (mode := match args with [_; mode] => mode | _ => ""%string end).
  assert (N : mode <> "zita"%string /\ mode <> "panda"%string).
  { unfold mode. destruct args as [|a1 [|a2 [|a3 l]]]; try (split; discriminate). now apply (H a1 a2). }
  destruct N as [N1 N2]. apply String.eqb_neq in N1, N2. rewrite N1, N2. reflexivity.
Qed.
End Saw.
