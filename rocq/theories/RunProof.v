(** * The impulse response and performance tests of testresampler.cc run without error *)
From Coq Require Import ZArith Reals List Lia Bool ZifyNat ZifyBool.
From Verif Require Import Arith Mem FirModel IirModel Tables ResamplerModel Wp Stage Cascade
  ResamplerProof ResamplerOk Spec SpecOk Client Feed StreamFacts DelayFacts ConfigFacts CallFacts IirCalls
  AccuracyModel AccuracyProof ExampleProof Cases MultiProof ToolsModel ToolsArrays RunModel.
Import ListNotations.
Open Scope Z_scope.
Open Scope m_scope.

Section Fill.
Context {A : arith}.
Lemma fill_beyond k n (v : Z -> A) m m' : fill (User k) n v m = Ok (tt, m') -> forall i, n <= i -> m' (User k) i = m (User k) i.
Proof.
  unfold fill. intros E i Hi. destruct (Z.le_gt_cases n 0) as [N|N].
  { replace (Z.to_nat n) with 0%nat in E by lia. cbn in E. now injection E as <-. }
  assert (G : forall c j m0 m1, 0 <= j -> j + Z.of_nat c <= n -> for_up c j (fun i _ => store (Ptr (User k) i) (v i)) tt m0 = Ok (tt, m1) -> m1 (User k) i = m0 (User k) i).
  { induction c as [|c IH]; intros j m0 m1 J1 J2 Ej; cbn [for_up] in Ej; [now injection Ej as <-|].
    unfold bind, store in Ej. cbn [pb po] in Ej. destruct (m0 (User k) j); [|discriminate]. apply IH in Ej; [|lia|lia]. rewrite Ej. rewrite upd_other by lia. reflexivity. }
  apply (G (Z.to_nat n) 0 m m'); [lia | lia | exact E].
Qed.
(** an array that is too short *)
Lemma fill_over k n (v : Z -> A) m c : 0 <= c < n -> mapped m (Ptr (User k) 0) c -> m (User k) c = None -> fill (User k) n v m = Err OobWrite.
Proof.
  unfold fill. intros Hc Mc Nc.
  assert (G : forall d j m0, 0 <= j <= c -> c < j + Z.of_nat d -> mapped m0 (Ptr (User k) 0) c -> m0 (User k) c = None ->
    for_up d j (fun i _ => store (Ptr (User k) i) (v i)) tt m0 = Err OobWrite).
  { induction d as [|d IH]; intros j m0 J1 J2 Mj Nj; [lia|]. cbn [for_up]. unfold bind, store. cbn [pb po].
    destruct (Z.eq_dec j c) as [->|]; [now rewrite Nj|]. pose proof (Mj j ltac:(lia)) as Q. cbn [pb po] in Q. rewrite Z.add_0_l in Q.
    destruct (m0 (User k) j); [|contradiction]. apply IH; [lia | lia | | now rewrite upd_other by lia].
    intros i Hi. cbn [pb po]. rewrite Z.add_0_l. destruct (Z.eq_dec i j) as [->|]; [rewrite upd_same; discriminate|]. rewrite upd_other by lia. specialize (Mj i Hi). cbn [pb po] in Mj. now rewrite Z.add_0_l in Mj. }
  apply G; [lia | lia | exact Mc | exact Nc].
Qed.
End Fill.

Section Run.
Context {A : arith} (plat : platform).
Context (addr : blk -> Z) (garbage : Z -> Z -> Z -> Z -> Z -> A) (ndebug : bool).
Implicit Types m : mem A.

(** no two arrays overlap *)
Record far3 (n : Z) : Prop := {
  f3_ok : addr_ok addr;
  f3_io : asep addr (Ptr in_a 0) (2 * n) (Ptr out_a 0) (2 * n);
  f3_oo : asep addr (Ptr out_a 0) (2 * n) (Ptr out2_a 0) (2 * n);
  f3_s : forall t k, t = Tmp \/ t = Tmp2 -> k = in_a \/ k = out_a \/ k = out2_a -> asep addr (Ptr k 0) (2 * n) (Ptr t 0) 4096 }.

(** one call for a whole array; everything else keeps its value *)
Lemma call_frame g st m id o ka kb (x : list A) n_out : ka <> kb ->
  reach plat st m -> st id = Some o -> far_io addr (User ka) (User kb) (len x) n_out ->
  size_ok (r_filter (o_res o)) (r_mode (o_res o)) (r_ratio (o_res o)) (len x) -> r_over plat (o_res o) = 0 -> n_out = r_out (o_res o) (len x) ->
  has m (Ptr (User ka) 0) (len x) (nthZ x) -> mapped m (Ptr (User kb) 0) n_out ->
  exists m' o' y, process_block addr ndebug g (o_res o) (Ptr (User ka) 0) (len x) (Ptr (User kb) 0) m = Ok (tt, m') /\
    len y = n_out /\ has m' (Ptr (User kb) 0) n_out (nthZ y) /\ (forall k i, k <> kb \/ n_out <= i -> m' (User k) i = m (User k) i) /\
    o_res o' = o_res o /\ o_in o' = o_in o ++ x /\ o_out o' = o_out o ++ y /\ reach plat (set_obj st id (Some o')) m'.
Proof.
  intros NE H Eo [A1 A2 A3] SO OV -> Hx My.
  set (q := Call (A := A) addr ndebug g (Ptr (User ka) 0) (len x) (Ptr (User kb) 0)).
  assert (K : call_ok plat (o_res o) m q x).
  { constructor; cbn [q c_addr c_n c_input c_output]; rewrite ?OV, ?Z.add_0_r.
    - exact A1.
    - reflexivity.
    - exact SO.
    - now exists ka.
    - now exists kb.
    - exact Hx.
    - intros i Hi. lia.
    - exact My.
    - left. left. cbn. congruence.
    - intros _. left. exact A2.
    - exact A3. }
  destruct (reach_call_progress plat st m id o q x H Eo K) as (m' & z & E & Lz & Hz & F & H').
  exists m', (obj_call o q x z), z. unfold run_call in E. cbn [q c_addr c_ndebug c_garbage c_input c_n c_output] in E, Hz, F.
  split; [exact E|]. split; [exact Lz|]. split; [now rewrite Lz in Hz|]. split.
  { intros k i Hk. apply F; [now exists k|]. intros [Q1 Q2]. cbn [pb po] in Q1, Q2. destruct Hk as [Hk|Hk]; [congruence | rewrite Lz in Q2; lia]. }
  split; [reflexivity|]. split; [apply o_in_call|]. split; [reflexivity | exact H'].
Qed.

Context (rt : resample_type) (idu idd n p : Z) (use_sse : bool) (Ne : idu <> idd) (HP : fir_prec p) (HA : far3 n) (Hn : 0 <= n < 2 ^ 31 - 4) (Ev : n mod 2 = 0).
Notation U := (built plat idu UP 2 p use_sse FILTER_FIR).
Notation D := (built plat idd DOWN 2 p use_sse FILTER_FIR).

Lemma far_sub a b k l : (a = in_a /\ b = out_a \/ a = out_a /\ b = out2_a) -> 0 <= k <= 2 * n -> 0 <= l <= 2 * n -> far_io addr a b k l.
Proof.
  intros Hab Hk Hl. destruct HA as [B1 B2 B3 B4]. constructor; [exact B1| |].
  - destruct Hab as [[-> ->]|[-> ->]]; [eapply asep_shorter; [exact B2 | lia | lia] | eapply asep_shorter; [exact B3 | lia | lia]].
  - intros t Ht. split; (eapply asep_shorter; [apply B4; [exact Ht | tauto] | lia | lia]).
Qed.

(** the two objects and the three arrays *)
Definition run_inv (st : state (A := A)) m : Prop :=
  reach plat st m /\ (exists ou, st idu = Some ou /\ o_res ou = U) /\ (exists od, st idd = Some od /\ o_res od = D) /\
  mapped m (Ptr in_a 0) (2 * n) /\ mapped m (Ptr out_a 0) (2 * n) /\ mapped m (Ptr out2_a 0) (2 * n).

(** what comes out of fresh objects, and where *)
Definition ran (x : list A) m m' : Prop :=
  let S md := resample_any (A := A) FILTER_FIR md p (vector plat FILTER_FIR use_sse) 2 in
  match rt with
  | RES_UPSAMPLE => exists y, S UP x y /\ len y = 2 * n /\ has m' (Ptr out_a 0) (2 * n) (nthZ y)
  | RES_DOWNSAMPLE => exists y, S DOWN x y /\ len y = n / 2 /\ has m' (Ptr out_a 0) (n / 2) (nthZ y) /\ forall i, n / 2 <= i -> m' out_a i = m out_a i
  | RES_OVERSAMPLE => exists u y, S UP x u /\ S DOWN u y /\ len u = 2 * n /\ len y = n /\ has m' (Ptr out2_a 0) n (nthZ y)
  | RES_SUBSAMPLE => exists u y, S DOWN x u /\ S UP u y /\ len u = n / 2 /\ len y = n /\ has m' (Ptr out2_a 0) n (nthZ y)
  end.

Lemma result st m id o md x y : reach plat st m -> st id = Some o -> o_res o = built plat id md 2 p use_sse FILTER_FIR -> o_in o = x -> o_out o = y ->
  resample_any (A := A) FILTER_FIR md p (vector plat FILTER_FIR use_sse) 2 x y.
Proof. apply once_result. Qed.

Lemma map_keep m m' k N n' : (forall k' i, k' <> k \/ n' <= i -> m' (User k') i = m (User k') i) -> mapped m' (Ptr (User k) 0) n' ->
  forall j, mapped m (Ptr (User j) 0) N -> mapped m' (Ptr (User j) 0) N.
Proof.
  intros F M' j Mj i Hi. cbn [pb po]. rewrite Z.add_0_l. destruct (Z.eq_dec j k) as [->|].
  - destruct (Z.lt_ge_cases i n') as [L|L]; [specialize (M' i ltac:(lia)); cbn [pb po] in M'; now rewrite Z.add_0_l in M'|].
    rewrite F by auto. specialize (Mj i Hi). cbn [pb po] in Mj. now rewrite Z.add_0_l in Mj.
  - rewrite F by auto. specialize (Mj i Hi). cbn [pb po] in Mj. now rewrite Z.add_0_l in Mj.
Qed.

Lemma once_runs rep st m x : run_inv st m -> len x = n -> has m (Ptr in_a 0) n (nthZ x) ->
  exists m' st', resample_once addr garbage ndebug rt rep U D n m = Ok (tt, m') /\ run_inv st' m' /\ has m' (Ptr in_a 0) n (nthZ x) /\
    ((forall o, st idu = Some o \/ st idd = Some o -> o_in o = [] /\ o_out o = []) -> ran x m m').
Proof.
  intros (H & (ou & Eu & Ru) & (od & Ed & Rd) & Mi & Mo & M2) Lx Hx.
  assert (U2 : u32 (n * 2) = 2 * n) by (unfold u32; rewrite Z.mod_small; lia).
  assert (OU : r_over plat U = 0) by reflexivity. assert (OD : r_over plat D = 0) by reflexivity.
  assert (TU : forall k, r_out U k = 2 * k) by (intros k; unfold r_out; cbn [built r_mode r_ratio out_size]; lia).
  assert (TD : forall k, r_out D k = k / 2) by reflexivity.
  assert (N2 : 0 <= n / 2 <= n) by (Z.div_mod_to_equations; lia). assert (N3 : 2 * (n / 2) = n) by (Z.div_mod_to_equations; lia).
  assert (SU : forall k, 0 <= k <= n -> size_ok (r_filter U) (r_mode U) (r_ratio U) k) by (intros k Hk; cbn; lia).
  assert (SD : forall k, k mod 2 = 0 -> size_ok (r_filter D) (r_mode D) (r_ratio D) k) by (intros k Hk; exact Hk).
  assert (E2 : (2 * n) mod 2 = 0) by (rewrite Z.mul_comm; apply Z.mod_mul; lia).
  (* a call of the upsampler or downsampler from the first to the second array *)
  assert (C1 : forall md, let id := match md with UP => idu | DOWN => idd end in let r := match md with UP => U | DOWN => D end in
    exists m1 st1 o1 o y, process_block addr ndebug (garbage rep 0) r (Ptr in_a 0) n (Ptr out_a 0) m = Ok (tt, m1) /\ st id = Some o /\
      len y = r_out r n /\ has m1 (Ptr out_a 0) (len y) (nthZ y) /\ (forall k i, k <> 1 \/ len y <= i -> m1 (User k) i = m (User k) i) /\
      reach plat st1 m1 /\ st1 id = Some o1 /\ o_res o1 = r /\ o_in o1 = o_in o ++ x /\ o_out o1 = o_out o ++ y /\ forall i, i <> id -> st1 i = st i).
  { intros md id r.
    assert (Q : exists o, st id = Some o /\ o_res o = r) by (unfold id, r; destruct md; [exists ou | exists od]; auto). destruct Q as (o & Eo & Ro).
    assert (Tr : 0 <= r_out r n <= 2 * n) by (unfold r; destruct md; rewrite ?TU, ?TD; lia).
    destruct (call_frame (garbage rep 0) st m id o 0 1 x (r_out r n)) as (m1 & o1 & y & E & Ly & Hy & F & B1 & B2 & B3 & H1); try assumption; try discriminate.
    - rewrite Lx. apply far_sub; [left; auto | lia | lia].
    - rewrite Ro, Lx. unfold r. destruct md; [apply SU; lia | apply SD; exact Ev].
    - rewrite Ro. unfold r. now destruct md.
    - now rewrite Ro, Lx.
    - now rewrite Lx.
    - intros i Hi. apply Mo. lia.
    - rewrite Ro, Lx in E. exists m1, (set_obj st id (Some o1)), o1, o, y. rewrite Ly. split; [exact E|]. split; [exact Eo|]. split; [reflexivity|]. split; [exact Hy|]. split; [exact F|]. split; [exact H1|].
      split; [unfold set_obj; now rewrite Z.eqb_refl|]. split; [congruence|]. split; [exact B2|]. split; [exact B3|]. intros i Hi. unfold set_obj. destruct (Z.eqb_spec i id); [contradiction | reflexivity]. }
  (* and from the second to the third *)
  assert (C2 : forall md m1 st1 o u, let id := match md with UP => idu | DOWN => idd end in let r := match md with UP => U | DOWN => D end in
    reach plat st1 m1 -> st1 id = Some o -> o_res o = r -> r_out r (len u) = n -> (md = UP -> 0 <= len u <= n) -> (md = DOWN -> len u = 2 * n) -> 0 <= len u <= 2 * n ->
    has m1 (Ptr out_a 0) (len u) (nthZ u) -> mapped m1 (Ptr out2_a 0) (2 * n) ->
    exists m2 st2 o2 y, process_block addr ndebug (garbage rep 1) r (Ptr out_a 0) (len u) (Ptr out2_a 0) m1 = Ok (tt, m2) /\
      len y = n /\ has m2 (Ptr out2_a 0) n (nthZ y) /\ (forall k i, k <> 2 \/ n <= i -> m2 (User k) i = m1 (User k) i) /\
      reach plat st2 m2 /\ st2 id = Some o2 /\ o_res o2 = r /\ o_in o2 = o_in o ++ u /\ o_out o2 = o_out o ++ y /\ forall i, i <> id -> st2 i = st1 i).
  { intros md m1 st1 o u id r H1 Eo Ro Tr LU LD Lu Hu My.
    destruct (call_frame (garbage rep 1) st1 m1 id o 1 2 u n) as (m2 & o2 & y & E & Ly & Hy & F & B1 & B2 & B3 & H2); try assumption; try discriminate.
    - apply far_sub; [right; auto | lia | lia].
    - rewrite Ro. unfold r in *. destruct md; [apply SU, LU; reflexivity | apply SD]. rewrite LD by reflexivity. exact E2.
    - rewrite Ro. unfold r. now destruct md.
    - now rewrite Ro.
    - intros i Hi. apply My. lia.
    - rewrite Ro in E. exists m2, (set_obj st1 id (Some o2)), o2, y. split; [exact E|]. split; [exact Ly|]. split; [exact Hy|]. split; [exact F|]. split; [exact H2|].
      split; [unfold set_obj; now rewrite Z.eqb_refl|]. split; [congruence|]. split; [exact B2|]. split; [exact B3|]. intros i Hi. unfold set_obj. destruct (Z.eqb_spec i id); [contradiction | reflexivity]. }
  assert (K1 : forall m1 ny (y : list A), len y = ny -> has m1 (Ptr out_a 0) (len y) (nthZ y) -> (forall k i, k <> 1 \/ len y <= i -> m1 (User k) i = m (User k) i) ->
    mapped m1 (Ptr in_a 0) (2 * n) /\ mapped m1 (Ptr out_a 0) (2 * n) /\ mapped m1 (Ptr out2_a 0) (2 * n) /\ has m1 (Ptr in_a 0) n (nthZ x)).
  { intros m1 ny y Ly Hy F. pose proof (map_keep m m1 1 (2 * n) (len y) F (has_mapped _ _ _ _ Hy)) as K.
    split; [now apply K|]. split; [now apply K|]. split; [now apply K|]. intros i Hi. cbn [pb po]. change in_a with (User 0). rewrite F by (left; lia). now apply Hx. }
  assert (K2 : forall m1 m2 (y : list A), has m2 (Ptr out2_a 0) n (nthZ y) -> (forall k i, k <> 2 \/ n <= i -> m2 (User k) i = m1 (User k) i) ->
    mapped m1 (Ptr in_a 0) (2 * n) /\ mapped m1 (Ptr out_a 0) (2 * n) /\ mapped m1 (Ptr out2_a 0) (2 * n) /\ has m1 (Ptr in_a 0) n (nthZ x) ->
    mapped m2 (Ptr in_a 0) (2 * n) /\ mapped m2 (Ptr out_a 0) (2 * n) /\ mapped m2 (Ptr out2_a 0) (2 * n) /\ has m2 (Ptr in_a 0) n (nthZ x)).
  { intros m1 m2 y Hy F (Q1 & Q2 & Q3 & Q4). pose proof (map_keep m1 m2 2 (2 * n) n F (has_mapped _ _ _ _ Hy)) as K.
    split; [now apply K|]. split; [now apply K|]. split; [now apply K|]. intros i Hi. cbn [pb po]. change in_a with (User 0). rewrite F by (left; lia). now apply Q4. }
  assert (Ne' : idd <> idu) by congruence.
  unfold resample_once, ran. cbv zeta. destruct rt.
  - destruct (C1 DOWN) as (m1 & st1 & o1 & o & y & E & Eo & Ly & Hy & F & H1 & Eo1 & Ro1 & I1 & O1 & S1). cbv zeta in *.
    destruct (K1 m1 _ y eq_refl Hy F) as (Q1 & Q2 & Q3 & Q4). rewrite TD in Ly.
    exists m1, st1. split; [exact E|]. split; [split; [exact H1|]; split; [exists ou; rewrite S1 by exact Ne; auto|]; split; [exists o1; auto|]; auto|]. split; [exact Q4|].
    intros Fr. destruct (Fr o (or_intror Eo)) as [Z1 Z2]. rewrite Z1 in I1. rewrite Z2 in O1. exists y. split; [eapply result; eassumption|]. rewrite Ly in Hy. split; [exact Ly|]. split; [exact Hy|].
    intros i Hi. apply (F 1 i). right. lia.
  - destruct (C1 UP) as (m1 & st1 & o1 & o & y & E & Eo & Ly & Hy & F & H1 & Eo1 & Ro1 & I1 & O1 & S1). cbv zeta in *.
    destruct (K1 m1 _ y eq_refl Hy F) as (Q1 & Q2 & Q3 & Q4). rewrite TU in Ly.
    exists m1, st1. split; [exact E|]. split; [split; [exact H1|]; split; [exists o1; auto|]; split; [exists od; rewrite S1 by exact Ne'; auto|]; auto|]. split; [exact Q4|].
    intros Fr. destruct (Fr o (or_introl Eo)) as [Z1 Z2]. rewrite Z1 in I1. rewrite Z2 in O1. exists y. split; [eapply result; eassumption|]. rewrite Ly in Hy. auto.
  - destruct (C1 DOWN) as (m1 & st1 & o1 & o & u & E & Eo & Lu & Hu & F & H1 & Eo1 & Ro1 & I1 & O1 & S1). cbv zeta in *.
    pose proof (K1 m1 _ u eq_refl Hu F) as Q. rewrite TD in Lu. unfold bind. rewrite E.
    destruct (C2 UP m1 st1 ou u H1) as (m2 & st2 & o2 & y & E2' & Ly & Hy & F2 & H2 & Eo2 & Ro2 & I2 & O2 & S2); cbv zeta in *; try (rewrite ?TU; lia || discriminate); [rewrite S1 by exact Ne; exact Eu | exact Ru | exact Hu | apply Q|].
    rewrite Lu in E2'. destruct (K2 m1 m2 y Hy F2 Q) as (Q1 & Q2 & Q3 & Q4).
    exists m2, st2. split; [exact E2'|]. split; [split; [exact H2|]; split; [exists o2; auto|]; split; [exists o1; rewrite S2 by exact Ne'; auto|]; auto|]. split; [exact Q4|].
    intros Fr. destruct (Fr o (or_intror Eo)) as [Z1 Z2]. rewrite Z1 in I1. rewrite Z2 in O1. destruct (Fr ou (or_introl Eu)) as [Z3 Z4]. rewrite Z3 in I2. rewrite Z4 in O2.
    exists u, y. split; [eapply (result st1); eassumption|]. split; [eapply (result st2); eassumption|]. auto.
  - destruct (C1 UP) as (m1 & st1 & o1 & o & u & E & Eo & Lu & Hu & F & H1 & Eo1 & Ro1 & I1 & O1 & S1). cbv zeta in *.
    pose proof (K1 m1 _ u eq_refl Hu F) as Q. rewrite TU in Lu. unfold bind. rewrite E.
    destruct (C2 DOWN m1 st1 od u H1) as (m2 & st2 & o2 & y & E2' & Ly & Hy & F2 & H2 & Eo2 & Ro2 & I2 & O2 & S2); cbv zeta in *; try discriminate; try lia; [rewrite S1 by exact Ne'; exact Ed | exact Rd | rewrite TD, Lu, Z.mul_comm; apply Z.div_mul; lia | exact Hu | apply Q|].
    rewrite U2. rewrite Lu in E2'. destruct (K2 m1 m2 y Hy F2 Q) as (Q1 & Q2 & Q3 & Q4).
    exists m2, st2. split; [exact E2'|]. split; [split; [exact H2|]; split; [exists o1; rewrite S2 by exact Ne; auto|]; split; [exists o2; auto|]; auto|]. split; [exact Q4|].
    intros Fr. destruct (Fr o (or_introl Eo)) as [Z1 Z2]. rewrite Z1 in I1. rewrite Z2 in O1. destruct (Fr od (or_intror Ed)) as [Z3 Z4]. rewrite Z3 in I2. rewrite Z4 in O2.
    exists u, y. split; [eapply (result st1); eassumption|]. split; [eapply (result st2); eassumption|]. auto.
Qed.

(** two new objects and three arrays of zeros *)
Definition fresh : state (A := A) := set_obj (set_obj (fun _ => None) idu (Some (Obj U [] []))) idd (Some (Obj D [] [])).
Definition zeros3 m : Prop := forall b i, b = in_a \/ b = out_a \/ b = out2_a -> 0 <= i < 2 * n -> m b i = Some f0.

Lemma fresh_inv m : reach plat fresh m -> zeros3 m -> run_inv fresh m.
Proof.
  intros H Z3. split; [exact H|]. unfold fresh, set_obj. rewrite !Z.eqb_refl. destruct (Z.eqb_spec idu idd); [contradiction|].
  split; [eexists; split; reflexivity|]. split; [eexists; split; reflexivity|].
  split; [|split]; intros i Hi; cbn [pb po]; rewrite Z3 by (auto || lia); discriminate.
Qed.
Lemma fresh_empty o : fresh idu = Some o \/ fresh idd = Some o -> o_in o = [] /\ o_out o = [].
Proof.
  unfold fresh, set_obj. rewrite !Z.eqb_refl. destruct (Z.eqb_spec idu idd); [contradiction|]. intros [E|E]; injection E as <-; split; reflexivity.
Qed.

Lemma with_ok {X} (test : resampler -> resampler -> M A X) (Q : X -> Prop) m : (use_sse = true -> sse_available plat = true) ->
  (forall m3, reach plat fresh m3 -> zeros3 m3 -> exists x m4, test U D m3 = Ok (x, m4) /\ Q x) ->
  exists x m', with_resamplers plat idu idd n p use_sse test m = Ok (x, m') /\ Q x.
Proof.
  intros HS HT.
  assert (V : valid FILTER_FIR 2 p) by (split; [unfold ratio_no; auto | intros _; exact HP]).
  destruct (reach_new_progress plat (fun _ => None) m idu UP 2 p use_sse FILTER_FIR (reach_init plat m) eq_refl (proj1 V) (proj2 V)) as (m1 & E1 & F1 & H1). cbn zeta in *.
  destruct (reach_new_progress plat _ m1 idd DOWN 2 p use_sse FILTER_FIR H1) as (m2 & E2 & F2 & H2); [|exact (proj1 V)|exact (proj2 V)|].
  { unfold set_obj. destruct (Z.eqb_spec idd idu); [congruence | reflexivity]. }
  cbn zeta in *. fold fresh in H2.
  assert (VV : vector plat FILTER_FIR use_sse = use_sse).
  { unfold vector. unfold sse_available in HS. destruct use_sse; [now rewrite HS | apply andb_false_r]. }
  assert (RQ : forall id md, lift (A := A) (sse_enabled (built plat id md 2 p use_sse FILTER_FIR)) m2 = Ok (use_sse, m2)).
  { intros id md. unfold lift. rewrite built_sse_enabled by (exact V || lia). now rewrite VV. }
  assert (RE : require (A := A) (Bool.eqb use_sse use_sse) m2 = Ok (tt, m2)) by (unfold require; now rewrite Bool.eqb_reflx).
  assert (U2 : u32 (n * 2) = 2 * n) by (unfold u32; rewrite Z.mod_small; lia).
  unfold with_resamplers. rewrite U2. unfold bind at 1. rewrite E1. unfold bind at 1. rewrite E2. cbn [fst].
  unfold bind at 1. rewrite RQ. unfold bind at 1. rewrite RE. unfold bind at 1. rewrite RQ. unfold bind at 1. rewrite RE.
  unfold bind at 1, alloc at 1. unfold bind at 1, alloc at 1. unfold bind at 1, alloc at 1.
  match goal with |- context [bind (test U D) _ ?t] => set (m3 := t) end.
  destruct (HT m3) as (x & m4 & E & HQ).
  - apply (reach_client plat _ m2 m3 H2). intros b i NU _. unfold m3, in_a, out_a, out2_a.
    destruct (blk_eqb_spec b (User 2)) as [->|]; [exfalso; apply NU; now exists 2|]. destruct (blk_eqb_spec b (User 1)) as [->|]; [exfalso; apply NU; now exists 1|].
    destruct (blk_eqb_spec b (User 0)) as [->|]; [exfalso; apply NU; now exists 0 | reflexivity].
  - intros b i Hb Hi. assert (Bi : (0 <=? i) && (i <? 2 * n) = true) by lia. unfold m3. destruct Hb as [->|[->| ->]]; cbn [blk_eqb in_a out_a out2_a Z.eqb]; now rewrite Bi.
  - exists x. unfold bind at 1. rewrite E. eexists. split; [reflexivity | exact HQ].
Qed.

(** ** The performance test *)
Lemma performance_ok (v : Z -> A) samples m : (use_sse = true -> sse_available plat = true) ->
  exists k m', perform_performance plat addr garbage ndebug rt v idu idd samples n p use_sse m = Ok (k, m') /\
    k = match rt with RES_DOWNSAMPLE => Z.max 0 (samples / n) * n / 2 | _ => Z.max 0 (samples / n) * n end.
Proof.
  intros HS. apply with_ok; [exact HS|]. intros m3 H Z3.
  destruct (fresh_inv m3 H Z3) as (_ & _ & _ & Mi & Mo & M2).
  destruct (fill_ok 0 n v m3) as (m4 & E4 & H4 & F4); [lia | intros i Hi; apply Mi; lia|]. change (User 0) with in_a in E4, H4, F4.
  assert (I4 : run_inv fresh m4).
  { assert (K : forall b i, b <> in_a -> m4 b i = m3 b i) by exact F4. pose proof (fresh_inv m3 H Z3) as (_ & Q1 & Q2 & _).
    split; [apply (reach_client plat _ m3 m4 H); intros b i NU _; apply K; intros ->; apply NU; now exists 0|]. split; [exact Q1|]. split; [exact Q2|].
    split; [|split; [intros i Hi; cbn [pb po]; rewrite K by discriminate; now apply Mo | intros i Hi; cbn [pb po]; rewrite K by discriminate; now apply M2]].
    intros i Hi. destruct (Z.lt_ge_cases i n) as [L|L].
    - rewrite (H4 i) by lia. discriminate.
    - pose proof (fill_beyond 0 n v m3 m4 E4 i L) as Eb. cbn [pb po]. rewrite Z.add_0_l. change in_a with (User 0). rewrite Eb. apply (Mi i Hi). }
  unfold bind at 1. rewrite E4. set (x := tab n v) in *. assert (Lx : len x = n) by (apply len_tab; lia).
  assert (R : runs (for_up (Z.to_nat (samples / n)) 0 (fun i k => resample_once addr garbage ndebug rt i U D n ;;; ret (k + n)) 0) m4
    (fun k _ => k = Z.max 0 (samples / n) * n)).
  { apply runs_for with (Inv := fun i k m' => k = i * n /\ exists st, run_inv st m' /\ has m' (Ptr in_a 0) n (nthZ x)).
    - split; [lia|]. exists fresh. auto.
    - intros i k m' Hi (-> & st & Hst & Hx). destruct (once_runs i st m' x Hst Lx Hx) as (m5 & st5 & E5 & I5 & X5 & _).
      apply runs_bind. unfold runs. rewrite E5. apply runs_ret. split; [lia|]. exists st5. auto.
    - intros k m' (-> & _). lia. }
  destruct (runs_inv _ _ _ R) as (k & m6 & E6 & ->). unfold bind at 1. rewrite E6. eexists _, m6. split; [reflexivity|]. now destruct rt.
Qed.
End Run.

(** ** The impulse response test *)
Section Impulse.
Context {A : arith} (plat : platform).
Context (addr : blk -> Z) (garbage : Z -> Z -> Z -> Z -> Z -> A) (ndebug : bool).
Implicit Types m : mem A.

Definition unit_impulse : list A := f1 :: repeat f0 149.
(** what is printed, by what comes out of the last object *)
Definition printed (rt : resample_type) (y : list A) : list A :=
  match rt with RES_UPSAMPLE => firstn 150 y | RES_DOWNSAMPLE => y ++ repeat f0 75 | _ => y end.
(** what comes out for the input x *)
Definition responds (vec : bool) (p : Z) (rt : resample_type) (x y : list A) : Prop :=
  let S md := resample_any (A := A) FILTER_FIR md p vec 2 in
  match rt with
  | RES_UPSAMPLE => S UP x y
  | RES_DOWNSAMPLE => S DOWN x y
  | RES_OVERSAMPLE => exists u, S UP x u /\ S DOWN u y
  | RES_SUBSAMPLE => exists u, S DOWN x u /\ S UP u y
  end.

Lemma nthZ_repeat k i : nthZ (repeat (@f0 A) k) i = f0.
Proof. unfold nthZ. generalize (Z.to_nat i). intros j. revert k. induction j as [|j IH]; intros [|k]; cbn; auto. Qed.

Lemma impulse_ok rt idu idd p (use_sse : bool) m : idu <> idd -> fir_prec p -> far3 addr 150 -> (use_sse = true -> sse_available plat = true) ->
  exists out m', perform_impulse plat addr garbage ndebug rt idu idd p use_sse m = Ok (out, m') /\
    exists y, responds (vector plat FILTER_FIR use_sse) p rt unit_impulse y /\ out = printed rt y /\ len out = 150.
Proof.
  intros Ne HP HA HS. unfold perform_impulse, IMPULSE_SIZE.
  eapply (with_ok plat garbage idu idd 150 p use_sse Ne HP ltac:(lia) eq_refl); [exact HS|]. intros m3 H Z3.
  destruct (fresh_inv plat idu idd 150 p use_sse Ne m3 H Z3) as (_ & Q1 & Q2 & Mi & Mo & M2).
  set (ma := upd m3 in_a 0 f1 : mem A).
  assert (Za : forall b i, b = in_a \/ b = out_a \/ b = out2_a -> 1 <= i < 300 -> ma b i = Some f0) by (intros b i Hb Hi; unfold ma; rewrite upd_other by lia; apply Z3; [exact Hb | lia]).
  assert (Wr : forall b i m', (forall b' j, m' b' j = ma b' j) -> (b = in_a \/ b = out_a \/ b = out2_a) -> 1 <= i < 150 -> 
    runs (store (Ptr b i) f0) m' (fun _ m'' => forall b' j, m'' b' j = ma b' j)).
  { intros b i m' E Hb Hi. apply runs_store; cbn [pb po]; [rewrite E, Za by (auto || lia); discriminate|]. intros b' j. unfold upd.
    destruct (blk_eqb_spec b' b) as [->|]; cbn [andb]; [|apply E]. destruct (Z.eqb_spec j i) as [->|]; [|apply E]. symmetry. apply Za; [exact Hb | lia]. }
  assert (R : runs (for_up (Z.to_nat (150 - 1)) 1 (fun i _ => store (Ptr in_a i) f0 ;;; store (Ptr out_a i) f0 ;;; store (Ptr out2_a i) f0) tt) ma
    (fun _ m' => forall b j, m' b j = ma b j)).
  { assert (G : forall c i m', 1 <= i -> i + Z.of_nat c <= 150 -> (forall b j, m' b j = ma b j) ->
      runs (for_up c i (fun i _ => store (Ptr in_a i) f0 ;;; store (Ptr out_a i) f0 ;;; store (Ptr out2_a i) f0) tt) m' (fun _ m' => forall b j, m' b j = ma b j)).
    { induction c as [|c IH]; intros i m' I1 I2 E; cbn [for_up]; [apply runs_ret; exact E|].
      apply runs_bind. apply runs_bind. eapply runs_mono; [apply (Wr in_a i m' E); [auto | lia]|]. intros [] m4 E4. cbn beta.
      apply runs_bind. eapply runs_mono; [apply (Wr out_a i m4 E4); [auto | lia]|]. intros [] m5 E5. cbn beta.
      eapply runs_mono; [apply (Wr out2_a i m5 E5); [auto | lia]|]. intros [] m6 E6. cbn beta. apply IH; [lia | lia | exact E6]. }
    apply G; [lia | lia | reflexivity]. }
  destruct (runs_inv _ _ _ R) as ([] & m4 & E4 & S4).
  assert (St : store (Ptr in_a 0) f1 m3 = Ok (tt, ma)).
  { unfold store. cbn [pb po]. rewrite Z3 by (auto || lia). reflexivity. }
  unfold bind at 1. rewrite St. unfold bind at 1. rewrite E4.
  assert (I4 : run_inv plat idu idd 150 p use_sse (fresh plat idu idd p use_sse) m4).
  { split; [apply (reach_client plat _ m3 m4 H); intros b i NU _; rewrite S4; unfold ma, upd; destruct (blk_eqb_spec b in_a) as [->|]; [exfalso; apply NU; now exists 0 | reflexivity]|].
    split; [exact Q1|]. split; [exact Q2|].
    assert (Mm : forall b, mapped m3 (Ptr b 0) (2 * 150) -> mapped m4 (Ptr b 0) (2 * 150)).
    { intros b Mb i Hi. rewrite S4. unfold ma, upd. destruct (blk_eqb (pb (Ptr b 0)) in_a && _); [discriminate | now apply Mb]. }
    auto. }
  assert (Lx : len unit_impulse = 150) by reflexivity.
  assert (Hx : has m4 (Ptr in_a 0) 150 (nthZ unit_impulse)).
  { intros i Hi. cbn [pb po]. rewrite S4, Z.add_0_l. unfold ma. destruct (Z.eq_dec i 0) as [->|]; [rewrite upd_same; reflexivity|].
    rewrite upd_other by lia. rewrite Z3 by (auto || lia). f_equal. unfold unit_impulse, nthZ. replace (Z.to_nat i) with (S (Z.to_nat (i - 1))) by lia. cbn [nth]. symmetry. apply (nthZ_repeat 149 (i - 1)). }
  destruct (once_runs plat addr garbage ndebug rt idu idd 150 p use_sse Ne HA ltac:(lia) eq_refl 0 _ m4 unit_impulse I4 Lx Hx) as (m5 & st5 & E5 & _ & _ & RR).
  specialize (RR (fresh_empty plat idu idd p use_sse Ne)). unfold bind at 1. rewrite E5. unfold ran in RR. cbv zeta in RR.
  assert (DN : forall b, b = out_a \/ b = out2_a -> forall i, 0 <= i < 150 -> m4 b i = Some f0).
  { intros b Hb i Hi. rewrite S4. unfold ma. rewrite upd_other by (left; destruct Hb as [->| ->]; discriminate). apply Z3; [tauto | lia]. }
  destruct rt; cbn [printed_array printed responds].
  - destruct RR as (y & S & Ly & Hy & K). change (150 / 2) with 75 in *. assert (L : len (y ++ repeat f0 75) = 150) by (unfold len in *; rewrite app_length, repeat_length; lia).
    exists (y ++ repeat f0 75), m5. split; [apply (contents_ok 1); [exact L|]|exists y; auto]. intros i Hi. cbn [pb po]. rewrite Z.add_0_l. change (User 1) with out_a.
    unfold nthZ. destruct (Z.lt_ge_cases i 75) as [B|B].
    + rewrite app_nth1 by (unfold len in Ly; lia). specialize (Hy i ltac:(lia)). cbn [pb po] in Hy. now rewrite Z.add_0_l in Hy.
    + rewrite K, DN by (auto || lia). rewrite app_nth2 by (unfold len in Ly; lia). f_equal. symmetry. set (q := (Z.to_nat i - length y)%nat).
      replace q with (Z.to_nat (Z.of_nat q)) by lia. apply nthZ_repeat.
  - destruct RR as (y & S & Ly & Hy). assert (L : len (firstn 150 y) = 150) by (unfold len in *; rewrite firstn_length; lia).
    exists (firstn 150 y), m5. split; [apply (contents_ok 1); [exact L|]|exists y; auto]. intros i Hi. change (User 1) with out_a. rewrite Hy by lia. f_equal. unfold nthZ.
    rewrite <- (firstn_skipn 150 y) at 1. rewrite app_nth1; [reflexivity|]. unfold len in L. lia.
  - destruct RR as (u & y & S1 & S2 & Lu & Ly & Hy). exists y, m5. split; [apply (contents_ok 2); [exact Ly | exact Hy]|]. exists y. split; [exists u; auto | auto].
  - destruct RR as (u & y & S1 & S2 & Lu & Ly & Hy). exists y, m5. split; [apply (contents_ok 2); [exact Ly | exact Hy]|]. exists y. split; [exists u; auto | auto].
Qed.
End Impulse.

(** ** Block sizes for which the size of the arrays overflows *)
Section Huge.
Context {A : arith} (plat : platform).
Context (addr : blk -> Z) (garbage : Z -> Z -> Z -> Z -> Z -> A) (ndebug : bool).
Lemma performance_huge rt (v : Z -> A) idu idd samples n p (use_sse : bool) (m : mem A) : idu <> idd -> fir_prec p ->
  (use_sse = true -> sse_available plat = true) -> 2 ^ 31 <= n < 2 ^ 32 ->
  perform_performance plat addr garbage ndebug rt v idu idd samples n p use_sse m = Err OobWrite.
Proof.
  intros Ne HP HS Hn.
  assert (V : valid FILTER_FIR 2 p) by (split; [unfold ratio_no; auto | intros _; exact HP]).
  destruct (reach_new_progress plat (fun _ => None) m idu UP 2 p use_sse FILTER_FIR (reach_init plat m) eq_refl (proj1 V) (proj2 V)) as (m1 & E1 & F1 & H1). cbn zeta in *.
  destruct (reach_new_progress plat _ m1 idd DOWN 2 p use_sse FILTER_FIR H1) as (m2 & E2 & F2 & H2); [|exact (proj1 V)|exact (proj2 V)|].
  { unfold set_obj. destruct (Z.eqb_spec idd idu); [congruence | reflexivity]. }
  cbn zeta in *.
  assert (VV : vector plat FILTER_FIR use_sse = use_sse).
  { unfold vector. unfold sse_available in HS. destruct use_sse; [now rewrite HS | apply andb_false_r]. }
  assert (RQ : forall id md, lift (A := A) (sse_enabled (built plat id md 2 p use_sse FILTER_FIR)) m2 = Ok (use_sse, m2)).
  { intros id md. unfold lift. rewrite built_sse_enabled by (exact V || lia). now rewrite VV. }
  assert (RE : require (A := A) (Bool.eqb use_sse use_sse) m2 = Ok (tt, m2)) by (unfold require; now rewrite Bool.eqb_reflx).
  assert (U2 : u32 (n * 2) = 2 * n - 2 ^ 32) by (unfold u32; Z.div_mod_to_equations; lia).
  unfold perform_performance, with_resamplers. rewrite U2. unfold bind at 1. rewrite E1. unfold bind at 1. rewrite E2. cbn [fst].
  unfold bind at 1. rewrite RQ. unfold bind at 1. rewrite RE. unfold bind at 1. rewrite RQ. unfold bind at 1. rewrite RE.
  unfold bind at 1, alloc at 1. unfold bind at 1, alloc at 1. unfold bind at 1, alloc at 1.
  match goal with |- bind (bind _ _) _ ?t = _ => set (m3 := t) end.
  assert (FO : fill in_a n v m3 = Err OobWrite).
  { apply (fill_over 0 n _ m3 (2 * n - 2 ^ 32)); [lia | |].
    - intros i Hi. unfold m3. cbn [pb po blk_eqb in_a out_a out2_a Z.eqb]. replace ((0 <=? 0 + i) && (0 + i <? 2 * n - 2 ^ 32)) with true by lia. discriminate.
    - unfold m3. cbn [blk_eqb in_a out_a out2_a Z.eqb]. now replace (2 * n - 2 ^ 32 <? 2 * n - 2 ^ 32) with false by lia; rewrite ?andb_false_r. }
  unfold bind at 1, bind at 1. rewrite FO. reflexivity.
Qed.
End Huge.
