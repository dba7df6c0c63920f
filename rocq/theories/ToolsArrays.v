(** * Runs of testsimple.cc, testdownmulti.cc, testdistort.cc *)
From Coq Require Import String ZArith Reals List Lia Bool ZifyNat ZifyBool.
From Verif Require Import Arith Mem FirModel IirModel Tables ResamplerModel Wp Stage Cascade
  ResamplerProof ResamplerOk Spec SpecOk Client Feed StreamFacts DelayFacts ConfigFacts CallFacts IirCalls OverRead
  AccuracyModel AccuracyProof ExampleProof Cases MultiModel MultiProof ToolsModel ToolsProof.
Import ListNotations.
Open Scope list_scope.
Open Scope Z_scope.
Open Scope m_scope.

Section Arrays.
Context {A : arith} (plat : platform).
Implicit Types m : mem A.

Lemma fill_ok k n (v : Z -> A) m : 0 <= n -> mapped m (Ptr (User k) 0) n ->
  exists m', fill (User k) n v m = Ok (tt, m') /\ has m' (Ptr (User k) 0) n (nthZ (tab n v)) /\
    forall b i, b <> User k -> m' b i = m b i.
Proof.
  intros N0 HM.
  assert (R : runs (fill (User k) n v) m (fun _ m' => has m' (Ptr (User k) 0) n (nthZ (tab n v)) /\ forall b i, b <> User k -> m' b i = m b i)).
  { apply runs_for with (Inv := fun i _ m' => (forall j, 0 <= j < i -> m' (User k) j = Some (v j)) /\ mapped m' (Ptr (User k) 0) n /\ forall b i, b <> User k -> m' b i = m b i).
    - split; [intros j Hj; lia|]. split; [exact HM | reflexivity].
    - intros i u m' Hi (H1 & H2 & H3). apply runs_store; cbn [pb po].
      + specialize (H2 i ltac:(lia)). cbn [pb po] in H2. now rewrite Z.add_0_l in H2.
      + split; [|split].
        * intros j Hj. destruct (Z.eq_dec j i) as [->|]; [apply upd_same|]. rewrite upd_other by lia. apply H1. lia.
        * intros j Hj. cbn [pb po]. destruct (Z.eq_dec (0 + j) i) as [->|]; [rewrite upd_same; discriminate|]. rewrite upd_other by lia. apply (H2 j Hj).
        * intros b j Hb. unfold upd. destruct (blk_eqb_spec b (User k)); [contradiction | now apply H3].
    - intros u m' (H1 & _ & H3). split; [|exact H3]. intros j Hj. cbn [pb po]. rewrite Z.add_0_l, H1 by lia.
      f_equal. pose proof (smp_tab (A := A) n v j Hj) as E. rewrite <- E. unfold smp, nthZ. destruct (Z.ltb_spec j 0); [lia | reflexivity]. }
  destruct (runs_inv _ _ _ R) as ([] & m' & E & H). exists m'. split; [exact E | exact H].
Qed.

Lemma len_tab n (v : Z -> A) : 0 <= n -> len (tab n v) = n.
Proof. apply (size_tab (A := A)). Qed.

Lemma contents_ok k n (x : list A) m : len x = n -> has m (Ptr (User k) 0) n (nthZ x) -> contents (User k) n m = Ok (x, m).
Proof.
  intros L H.
  assert (R : runs (contents (User k) n) m (fun l m' => l = x /\ m' = m)).
  { apply runs_for with (Inv := fun i l m' => l = firstn (Z.to_nat i) x /\ m' = m).
    - split; reflexivity.
    - intros i l m' Hi [-> ->]. apply runs_bind. eapply runs_load; [cbn [pb po]; specialize (H i ltac:(lia)); cbn [pb po] in H; rewrite Z.add_0_l in H; exact H|].
      apply runs_ret. split; [|reflexivity]. unfold nthZ. replace (Z.to_nat (i + 1)) with (S (Z.to_nat i)) by lia.
      clear - Hi L. assert (Hn : (Z.to_nat i < length x)%nat) by (unfold len in L; lia). revert Hn. generalize (Z.to_nat i). clear.
      induction x as [|a x IH]; intros [|j] Hj; cbn [length firstn nth app] in *; try lia; [reflexivity|]. f_equal. apply IH. lia.
    - intros l m' [-> ->]. split; [|reflexivity]. apply firstn_all2. unfold len in L. lia. }
  destruct (runs_inv _ _ _ R) as (l & m' & E & -> & ->). exact E.
Qed.

(** the two arrays are apart, and apart from the stack arrays *)
Record far_io (addr : blk -> Z) (a b : blk) (n n_out : Z) : Prop := {
  fi_ok : addr_ok addr;
  fi_io : asep addr (Ptr a 0) n (Ptr b 0) n_out;
  fi_s : forall t, t = Tmp \/ t = Tmp2 -> asep addr (Ptr a 0) n (Ptr t 0) 4096 /\ asep addr (Ptr b 0) n_out (Ptr t 0) 4096 }.

(** one call for a whole array *)
Lemma whole_call addr ndebug g st m id o ka kb (x : list A) n_out : ka <> kb ->
  reach plat st m -> st id = Some o -> far_io addr (User ka) (User kb) (len x) n_out ->
  size_ok (r_filter (o_res o)) (r_mode (o_res o)) (r_ratio (o_res o)) (len x) -> r_over plat (o_res o) = 0 -> n_out = r_out (o_res o) (len x) ->
  has m (Ptr (User ka) 0) (len x) (nthZ x) -> mapped m (Ptr (User kb) 0) n_out ->
  exists m' o' y, process_block addr ndebug g (o_res o) (Ptr (User ka) 0) (len x) (Ptr (User kb) 0) m = Ok (tt, m') /\
    len y = n_out /\ has m' (Ptr (User kb) 0) n_out (nthZ y) /\ (forall k i, k <> kb -> m' (User k) i = m (User k) i) /\
    o_res o' = o_res o /\ o_in o' = o_in o ++ x /\ o_out o' = o_out o ++ y /\ reach plat (set_obj st id (Some o')) m'.
Proof.
  intros NE H Eo [A1 A2 A3] SO OV -> Hx My.
  set (q := Call (A := A) addr ndebug g (Ptr (User ka) 0) (len x) (Ptr (User kb) 0)).
  assert (K : call_ok plat (o_res o) m q x).
  { constructor; cbn [q c_addr c_n c_input c_output]; rewrite ?OV, ?Z.add_0_r.
    - exact A1.
    - reflexivity.
    - exact SO.
    - now exists ka.
    - now exists kb.
    - exact Hx.
    - intros i Hi. lia.
    - exact My.
    - left. left. cbn. congruence.
    - intros _. left. exact A2.
    - exact A3. }
  destruct (reach_call_progress plat st m id o q x H Eo K) as (m' & z & E & Lz & Hz & F & H').
  exists m', (obj_call o q x z), z. unfold run_call in E. cbn [q c_addr c_ndebug c_garbage c_input c_n c_output] in E, Hz, F.
  split; [exact E|]. split; [exact Lz|]. split; [now rewrite Lz in Hz|]. split.
  { intros k i Hk. apply F; [now exists k|]. intros [Q _]. cbn [pb] in Q. congruence. }
  split; [reflexivity|]. split; [apply o_in_call|]. split; [reflexivity | exact H'].
Qed.

Theorem once_ok addr garbage ndebug id md ratio prec sse f n n_out (v : Z -> A) st m :
  0 <= n < 2 ^ 32 -> far_io addr in_a out_a n n_out -> valid f ratio prec -> size_ok f md ratio n ->
  over_read (vector plat f sse) f md ratio = 0 -> n_out = out_size md ratio n -> reach plat st m -> st id = None ->
  exists m' st' o y, once plat addr garbage ndebug id md ratio prec sse f n n_out v m = Ok ((tab n v, y), m') /\
    len y = n_out /\ o_res o = built plat id md ratio prec sse f /\ o_in o = tab n v /\ o_out o = y /\
    reach plat st' m' /\ st' id = Some o /\ forall i, i <> id -> st' i = st i.
Proof.
  intros N0 FA HV SO OV NO H Eo. destruct HV as [Vr VT]. assert (R1 : ratio = 1 \/ ratio = 2 \/ ratio = 4 \/ ratio = 8) by exact Vr.
  assert (UR : u32 ratio = ratio) by (unfold u32; apply Z.mod_small; lia). assert (UN : u32 n = n) by (unfold u32; apply Z.mod_small; lia).
  unfold once. rewrite UR, UN. unfold bind at 1, alloc at 1. unfold bind at 1, alloc at 1.
  set (m0 := fun b i => if blk_eqb b out_a then (if (0 <=? i) && (i <? n_out) then Some f0 else None) else
    if blk_eqb b in_a then (if (0 <=? i) && (i <? n) then Some f0 else None) else m b i : option A).
  assert (Z1 : forall b i, ~ is_user b -> m0 b i = m b i).
  { intros b i NU. unfold m0. destruct (blk_eqb_spec b out_a) as [->|]; [exfalso; apply NU; eexists; reflexivity|]. destruct (blk_eqb_spec b in_a) as [->|]; [exfalso; apply NU; eexists; reflexivity | reflexivity]. }
  assert (MI : mapped m0 (Ptr in_a 0) n).
  { intros i Hi. cbn [pb po]. unfold m0. cbn [blk_eqb in_a out_a Z.eqb]. replace ((0 <=? 0 + i) && (0 + i <? n)) with true by lia. discriminate. }
  assert (MO : mapped m0 (Ptr out_a 0) n_out).
  { intros i Hi. cbn [pb po]. unfold m0. rewrite blk_eqb_refl. replace ((0 <=? 0 + i) && (0 + i <? n_out)) with true by lia. discriminate. }
  destruct (fill_ok 0 n v m0 ltac:(lia) MI) as (m1 & E1 & H1 & F1). unfold bind at 1. change (User 0) with in_a in E1. rewrite E1.
  assert (X1 : reach plat st m1).
  { apply (reach_client plat _ m m1 H). intros b i NU _. rewrite F1; [now apply Z1|]. intros ->. apply NU. now exists 0. }
  destruct (reach_new_progress plat st m1 id md ratio prec sse f X1 Eo Vr VT) as (m2 & E2 & F2 & H2). cbn zeta in *.
  unfold bind at 1. rewrite E2. cbn [fst].
  set (r := built plat id md ratio prec sse f) in *.
  assert (Lx : len (tab n v) = n) by (apply len_tab; lia).
  destruct (whole_call addr ndebug (garbage 0) (set_obj st id (Some (Obj r [] []))) m2 id (Obj r [] []) 0 1 (tab n v) n_out) as (m3 & o & y & E3 & Ly & Hy & F3 & B1 & B2 & B3 & H3).
  - discriminate.
  - exact H2.
  - unfold set_obj. now rewrite Z.eqb_refl.
  - rewrite Lx. exact FA.
  - rewrite Lx. exact SO.
  - exact OV.
  - rewrite Lx. exact NO.
  - rewrite Lx. intros i Hi. rewrite F2 by now exists 0. now apply H1.
  - intros i Hi. rewrite F2 by now exists 1. cbn [pb po]. rewrite F1 by discriminate. now apply MO.
  - rewrite Lx in E3. cbn [o_res] in E3. change (User 0) with in_a in E3. change (User 1) with out_a in E3.
    unfold bind at 1. rewrite E3. unfold bind at 1.
    replace (contents in_a n m3) with (Ok (tab n v, m3)); [|symmetry; apply contents_ok; [exact Lx|]; intros i Hi; cbn [pb po]; rewrite F3 by lia; rewrite F2 by (now exists 0); now apply H1].
    unfold bind at 1. replace (contents out_a n_out m3) with (Ok (y, m3)); [|symmetry; apply contents_ok; [exact Ly | exact Hy]].
    eexists. exists (set_obj (set_obj st id (Some (Obj r [] []))) id (Some o)), o, y. split; [reflexivity|]. split; [exact Ly|]. split; [exact B1|]. split; [exact B2|]. split; [exact B3|].
    split; [|split; [unfold set_obj; now rewrite Z.eqb_refl | intros i Hi; unfold set_obj; destruct (Z.eqb_spec i id); [contradiction | reflexivity]]].
    eapply reach_client; [exact H3|]. intros b i NU _.
    destruct (blk_eqb_spec b in_a) as [->|]; [exfalso; apply NU; now exists 0|]. destruct (blk_eqb_spec b out_a) as [->|]; [exfalso; apply NU; now exists 1 | reflexivity].
Qed.

(** what came out, for an object of which nothing is known but its settings *)
Lemma once_result st m id o md ratio prec sse f x y : reach plat st m -> st id = Some o -> o_res o = built plat id md ratio prec sse f -> o_in o = x -> o_out o = y ->
  resample_any (A := A) f md prec (vector plat f sse) ratio x y.
Proof. intros H E R <- <-. pose proof (reach_resample_any plat st m id o H E) as Q. cbn zeta in Q. rewrite R in Q. exact Q. Qed.

Theorem simple_ok addr garbage ndebug to_float m : far_io addr in_a out_a 256 512 ->
  exists y m', simple_main plat addr garbage ndebug to_float m = Ok ((tab 256 (simple_value to_float), y), m') /\ len y = 512 /\
    resample_any (A := A) FILTER_FIR UP PREC_96DB (vector plat FILTER_FIR true) 2 (tab 256 (simple_value to_float)) y.
Proof.
  intros HF. destruct (once_ok addr garbage ndebug 0 UP 2 PREC_96DB true FILTER_FIR 256 512 (simple_value to_float) (fun _ => None) m)
    as (m' & st' & o & y & E & L & R & I & O & H & S & _); try assumption; try reflexivity; try apply reach_init; [lia| |].
  - apply configb_ok. reflexivity.
  - exists y, m'. split; [exact E|]. split; [exact L|]. eapply once_result; eassumption.
Qed.

(** testdownmulti.cc *)
Section DownMulti.
Context (addr : Z -> blk -> Z) (garbage : Z -> Z -> Z -> Z -> Z -> A) (nassert ndebug : bool) (to_float : R -> A).
Context (ds prec : Z) (fir : bool).
Notation filter := (if fir then FILTER_FIR else FILTER_IIR).
Context (HF : forall k, far_io (addr k) in_a out_a (8192 * ds) 8192) (HV : valid filter ds prec).

Definition amps_result (k : Z) (y : list A) : Prop :=
  len y = 8192 /\
  resample_any (A := A) filter DOWN prec false ds (tab (8192 * ds) (amps_value to_float ds (100 * (IZR k + 1)))) y.

Lemma sse_off f : vector plat f false = false.
Proof. apply andb_false_r. Qed.

Lemma check_amps_ok k st m : reach plat st m -> st k = None ->
  exists y m' st', check_amps plat (addr k) (garbage k) ndebug to_float k ds (100 * (IZR k + 1)) prec fir m = Ok (y, m') /\
    amps_result k y /\ reach plat st' m' /\ forall i, i <> k -> st' i = st i.
Proof.
  intros H Ek. pose proof HV as [Vr _]. assert (R1 : ds = 1 \/ ds = 2 \/ ds = 4 \/ ds = 8) by exact Vr.
  destruct (once_ok (addr k) (garbage k) ndebug k DOWN ds prec false filter (8192 * ds) 8192 (amps_value to_float ds (100 * (IZR k + 1))) st m)
    as (m' & st' & o & y & E & L & R & I & O & H' & S & F); try assumption; try apply HF; [lia| | | |].
  - unfold size_ok. destruct R1 as [->|[->|[->| ->]]]; try exact Logic.I; destruct fir; try split; try lia; reflexivity.
  - rewrite sse_off. now destruct fir.
  - unfold out_size. symmetry. apply Z.div_mul. lia.
  - exists y, m', st'. split; [|split; [|split; [exact H' | exact F]]].
    + unfold check_amps, bind. change FFT_SIZE with 8192. rewrite E. reflexivity.
    + split; [exact L|]. rewrite <- (sse_off filter). eapply once_result; eassumption.
Qed.

Lemma downmulti_loop n : forall k0 st m (ys : list (list A)), reach plat st m -> (forall i, k0 <= i -> st i = None) ->
  exists zs m', for_up n k0 (fun k ys => y <- check_amps plat (addr k) (garbage k) ndebug to_float k ds (100 * (IZR k + 1)) prec fir ;; ret (ys ++ [y])) ys m = Ok (ys ++ zs, m') /\
    length zs = n /\ forall k, (k < n)%nat -> amps_result (k0 + Z.of_nat k) (nth k zs []).
Proof.
  induction n as [|n IH]; intros k0 st m ys H HN; cbn [for_up].
  - exists [], m. rewrite app_nil_r. split; [reflexivity|]. split; [reflexivity | lia].
  - destruct (check_amps_ok k0 st m H (HN k0 ltac:(lia))) as (y & m1 & st1 & E & P & H1 & F).
    destruct (IH (k0 + 1) st1 m1 (ys ++ [y]) H1 ltac:(intros i Hi; rewrite F by lia; apply HN; lia)) as (zs & m' & E' & L & P').
    exists (y :: zs), m'. split; [|split].
    + unfold bind at 1. unfold bind at 1. rewrite E. cbn [ret]. rewrite E', <- app_assoc. reflexivity.
    + cbn [length]. now rewrite L.
    + intros [|k] Hk; cbn [nth]; [now rewrite Z.add_0_r|]. replace (k0 + Z.of_nat (S k)) with (k0 + 1 + Z.of_nat k) by lia. apply P'. lia.
Qed.
End DownMulti.

Theorem downmulti_ok addr garbage nassert ndebug to_float atoi a1 a2 a3 m :
  let ds := atoi a1 in let prec := find_precision_for_bits (u32 (atoi a2)) in let fir := String.eqb a3 "fir" in
  (forall k, far_io (addr k) in_a out_a (8192 * ds) 8192) -> valid (if fir then FILTER_FIR else FILTER_IIR) ds prec ->
  (nassert = true \/ a3 = "fir" \/ a3 = "iir")%string ->
  exists ys m', downmulti_main plat addr garbage nassert ndebug to_float atoi [a1; a2; a3] m = Ok ((0, ys), m') /\
    length ys = Z.to_nat ((22050 * ds - 1) / 100) /\
    forall k, (k < length ys)%nat -> amps_result to_float ds prec fir (Z.of_nat k) (nth k ys []).
Proof.
  intros ds prec fir HF HV HS.
  destruct (downmulti_loop addr garbage ndebug to_float ds prec fir HF HV (Z.to_nat ((22050 * ds - 1) / 100)) 0 (fun _ => None) m [] (reach_init plat m) ltac:(reflexivity))
    as (ys & m' & E & L & P).
  exists ys, m'. split; [|split; [exact L | intros k Hk; apply P; lia]].
  unfold downmulti_main. cbv zeta. fold ds prec fir. unfold bind at 1.
  replace (MultiModel.assert_ nassert (fir || String.eqb a3 "iir") m) with (Ok (tt, m)).
  - unfold bind at 1. rewrite E. reflexivity.
  - unfold MultiModel.assert_, require. destruct nassert; [reflexivity|]. unfold fir. destruct HS as [HS|[->| ->]]; [discriminate| |]; reflexivity.
Qed.

(** testdistort.cc *)
Definition distort_filter (iir : bool) := if iir then FILTER_IIR else FILTER_FIR.
Theorem distort_none addr garbage ndebug sweep shape iir m :
  exists m', distort_main (A := A) plat addr garbage ndebug sweep shape 0 iir m = Ok (tab DISTORT_SIZE sweep, m').
Proof.
  unfold distort_main. cbv zeta. unfold bind at 1, alloc at 1. 
  match goal with |- context [(bind (fill _ _ _) _) ?mm] => set (m0 := mm) end.
  destruct (fill_ok 0 DISTORT_SIZE sweep m0 ltac:(unfold DISTORT_SIZE; lia)) as (m1 & E1 & H1 & _).
  { intros i Hi. cbn [pb po]. unfold m0. change (User 0) with in_a. rewrite blk_eqb_refl. replace ((0 <=? 0 + i) && (0 + i <? DISTORT_SIZE)) with true by lia. discriminate. }
  unfold bind at 1. change (User 0) with in_a in E1. rewrite E1. cbn [Z.eqb]. unfold bind at 1.
  replace (contents in_a DISTORT_SIZE m1) with (Ok (tab DISTORT_SIZE sweep, m1)); [eexists; reflexivity|].
  symmetry. apply contents_ok; [|exact H1]. apply len_tab. unfold DISTORT_SIZE. lia.
Qed.

Theorem distort_ok addr garbage ndebug sweep shape over iir m : over = 1 \/ over = 2 \/ over = 4 \/ over = 8 ->
  far_io addr in_a out_a 240000 (240000 * over) -> far_io addr out_a out2_a (240000 * over) 240000 ->
  exists m' u y, distort_main (A := A) plat addr garbage ndebug sweep shape over iir m = Ok (y, m') /\
    len u = 240000 * over /\ len y = 240000 /\
    resample_any (A := A) (distort_filter iir) UP PREC_96DB (vector plat (distort_filter iir) (negb iir)) over (tab 240000 sweep) u /\
    resample_any (A := A) (distort_filter iir) DOWN PREC_96DB (vector plat (distort_filter iir) (negb iir)) over (map shape u) y.
Proof.
  intros R1 F1 F2. unfold distort_main. cbv zeta. change DISTORT_SIZE with 240000. fold (distort_filter iir).
  set (N := 240000) in *. assert (HN : 0 < N < 1000000) by (unfold N; lia). clearbody N. set (f := distort_filter iir). set (sse := negb iir).
  assert (HV : valid f over PREC_96DB).
  { unfold f. destruct iir; destruct R1 as [->|[->|[->| ->]]]; apply configb_ok; reflexivity. }
  destruct HV as [Vr VT].
  assert (OV : over_read (vector plat f sse) f DOWN over = 0).
  { unfold f, sse. destruct iir; [|reflexivity]. cbn [negb distort_filter]. rewrite sse_off. reflexivity. }
  assert (UR : u32 over = over) by (unfold u32; apply Z.mod_small; lia).
  assert (UN : u32 (N * over) = N * over) by (unfold u32; apply Z.mod_small; lia).
  assert (DV : N * over / over = N) by (apply Z.div_mul; lia).
  fold f sse. rewrite UR, UN, DV.
  unfold bind at 1, alloc at 1.
  match goal with |- context [(bind (fill _ _ _) _) ?mm] => set (m0 := mm) end.
  destruct (fill_ok 0 N sweep m0 ltac:(lia)) as (m1 & E1 & H1 & G1).
  { intros i Hi. cbn [pb po]. unfold m0. change (User 0) with in_a. rewrite blk_eqb_refl. replace ((0 <=? 0 + i) && (0 + i <? N)) with true by lia. discriminate. }
  unfold bind at 1. change (User 0) with in_a in E1. rewrite E1. destruct (Z.eqb_spec over 0); [lia|].
  assert (X1 : reach plat (fun _ => None) m1) by apply reach_init.
  destruct (reach_new_progress plat _ m1 0 UP over PREC_96DB sse f X1 eq_refl Vr VT) as (m2 & E2 & G2 & X2). cbn zeta in *.
  unfold bind at 1. rewrite E2. cbn [fst]. unfold bind at 1, alloc at 1.
  set (m3 := fun b i => if blk_eqb b out_a then (if (0 <=? i) && (i <? N * over) then Some f0 else None) else m2 b i : option A).
  assert (G3 : forall b i, b <> out_a -> m3 b i = m2 b i) by (intros b i Hb; unfold m3; destruct (blk_eqb_spec b out_a); [contradiction | reflexivity]).
  assert (Lx : len (tab N sweep) = N) by (apply len_tab; lia).
  set (ru := built plat 0 UP over PREC_96DB sse f) in *.
  assert (X3 : reach plat (set_obj (fun _ => None) 0 (Some (Obj ru [] []))) m3).
  { apply (reach_client plat _ m2 m3 X2). intros b i NU _. apply G3. intros ->. apply NU. now exists 1. }
  destruct (whole_call addr ndebug (garbage 0) _ m3 0 (Obj ru [] []) 0 1 (tab N sweep) (N * over) ltac:(discriminate) X3) as (m4 & ou & u & E4 & Lu & Hu & G4 & B1 & B2 & B3 & X4).
  - reflexivity.
  - rewrite Lx. exact F1.
  - rewrite Lx. unfold size_ok. cbn [o_res ru built r_filter r_mode r_ratio]. destruct R1 as [->|[->|[->| ->]]]; try exact Logic.I; destruct f; try lia; exact Logic.I.
  - unfold r_over, over_read. cbn [o_res ru built r_filter r_mode r_ratio r_use_sse]. now destruct f.
  - rewrite Lx. reflexivity.
  - rewrite Lx. intros i Hi. rewrite G3 by discriminate. rewrite G2 by now exists 0. now apply H1.
  - intros i Hi. cbn [pb po]. unfold m3. change (User 1) with out_a. rewrite blk_eqb_refl. replace ((0 <=? 0 + i) && (0 + i <? N * over)) with true by lia. discriminate.
  - rewrite Lx in E4. cbn [o_res] in E4. change (User 0) with in_a in *. change (User 1) with out_a in *.
    unfold bind at 1. rewrite E4. unfold bind at 1, free at 1.
    set (m5 := fun b i => if blk_eqb b in_a then None else m4 b i : option A).
    assert (G5 : forall b i, b <> in_a -> m5 b i = m4 b i) by (intros b i Hb; unfold m5; destruct (blk_eqb_spec b in_a); [contradiction | reflexivity]).
    assert (H5 : has m5 (Ptr (User 1) 0) (N * over) (nthZ u)) by (intros i Hi; rewrite G5 by discriminate; now apply Hu).
    destruct (runs_inv _ _ _ (map_loop shape 1 (N * over) u m5 Lu H5)) as ([] & m6 & E6 & H6 & G6).
    change (User 1) with out_a in *. unfold bind at 1. rewrite E6.
    assert (X6 : reach plat (set_obj (set_obj (fun _ => None) 0 (Some (Obj ru [] []))) 0 (Some ou)) m6).
    { apply (reach_client plat _ m4 m6 X4). intros b i NU _. rewrite G6 by (intros ->; apply NU; now exists 1). apply G5. intros ->. apply NU. now exists 0. }
    destruct (reach_new_progress plat _ m6 1 DOWN over PREC_96DB sse f X6 eq_refl Vr VT) as (m7 & E7 & G7 & X7). cbn zeta in *.
    unfold bind at 1. rewrite E7. cbn [fst]. unfold bind at 1, alloc at 1.
    set (m8 := fun b i => if blk_eqb b out2_a then (if (0 <=? i) && (i <? N) then Some f0 else None) else m7 b i : option A).
    assert (G8 : forall b i, b <> out2_a -> m8 b i = m7 b i) by (intros b i Hb; unfold m8; destruct (blk_eqb_spec b out2_a); [contradiction | reflexivity]).
    set (rd := built plat 1 DOWN over PREC_96DB sse f) in *.
    match type of X7 with reach _ ?s _ => set (st7 := s) in * end.
    assert (X8 : reach plat st7 m8).
    { apply (reach_client plat _ m7 m8 X7). intros b i NU _. apply G8. intros ->. apply NU. now exists 2. }
    assert (Lm : len (map shape u) = N * over) by (unfold len; rewrite map_length; exact Lu).
    destruct (whole_call addr ndebug (garbage 1) st7 m8 1 (Obj rd [] []) 1 2 (map shape u) N ltac:(discriminate) X8) as (m9 & od & y & E9 & Ly & Hy & G9 & D1 & D2 & D3 & X9).
    + reflexivity.
    + rewrite Lm. exact F2.
    + rewrite Lm. unfold size_ok. cbn [o_res rd built r_filter r_mode r_ratio]. destruct R1 as [->|[->|[->| ->]]]; try exact Logic.I; destruct f; try split; try lia; reflexivity.
    + exact OV.
    + rewrite Lm. symmetry. exact DV.
    + rewrite Lm. intros i Hi. rewrite G8 by discriminate. rewrite G7 by now exists 1. now apply H6.
    + intros i Hi. cbn [pb po]. unfold m8. change (User 2) with out2_a. rewrite blk_eqb_refl. replace ((0 <=? 0 + i) && (0 + i <? N)) with true by lia. discriminate.
    + rewrite Lm in E9. cbn [o_res] in E9. change (User 2) with out2_a in *.
      unfold bind at 1. change (User 1) with out_a in E9. rewrite E9. unfold bind at 1, free at 1.
      set (m10 := fun b i => if blk_eqb b out_a then None else m9 b i : option A).
      unfold bind at 1. replace (contents out2_a N m10) with (Ok (y, m10)); [|symmetry; apply contents_ok; [exact Ly|]].
      * eexists. exists u, y. split; [reflexivity|]. split; [exact Lu|]. split; [exact Ly|]. split.
        -- eapply (once_result _ m9 0 ou UP); [exact X9 | reflexivity | exact B1 | exact B2 | exact B3].
        -- eapply (once_result _ m9 1 od DOWN); [exact X9 | reflexivity | exact D1 | exact D2 | exact D3].
      * intros i Hi. cbn [pb po]. unfold m10. cbn [blk_eqb out_a Z.eqb]. now apply Hy.
Qed.
End Arrays.
