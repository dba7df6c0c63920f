(** * Runs of testmultidelay.cc and testaddr.cc: no error, and what is measured *)
From Coq Require Import ZArith Reals List Lia Lra Bool String ZifyNat ZifyBool.
From Flocq Require Import Core BinarySingleNaN.
From Verif Require Import Arith ArithR ArithF Mem FirModel IirModel Tables ResamplerModel Wp Stage Cascade
  ResamplerProof ResamplerOk Spec SpecOk Client Feed StreamFacts DelayFacts ConfigFacts AccuracyModel AccuracyProof MultiModel.
Import ListNotations.
Open Scope Z_scope.
Open Scope m_scope.

Lemma nthZ_smp {A : arith} (x : list A) k : 0 <= k -> nthZ x k = smp x k.
Proof. intros H. unfold nthZ, smp. destruct (Z.ltb_spec k 0); [lia | reflexivity]. Qed.

Section Calls.
Context {A : arith} (plat : platform) (addr : blk -> Z) (ndebug : bool) (HA : addr_ok addr).
Implicit Types m : mem A.

Lemma asep_shorter p n n' q k k' : asep addr p n q k -> 0 <= n' <= n -> 0 <= k' <= k -> asep addr p n' q k'.
Proof. unfold asep. lia. Qed.

(** a call from the beginning of one array to the beginning of another *)
Lemma call_any st m id md ratio p sse f o g ks kd b dn :
  reach plat st m -> st id = Some o -> o_res o = built plat id md ratio p sse f -> size_ok f md ratio (len b) ->
  let ov := over_read (vector plat f sse) f md ratio in
  let sb := User ks in let db := User kd in
  ks <> kd -> has m (Ptr sb 0) (len b) (nthZ b) -> mapped m (Ptr sb (len b)) ov ->
  mapped m (Ptr db 0) dn -> 0 <= out_size md ratio (len b) <= dn ->
  (0 < len b -> asep addr (Ptr sb 0) (len b) (Ptr db 0) (out_size md ratio (len b))) ->
  (forall t, t = Tmp \/ t = Tmp2 -> asep addr (Ptr sb 0) (len b + ov) (Ptr t 0) 4096 /\ asep addr (Ptr db 0) (out_size md ratio (len b)) (Ptr t 0) 4096) ->
  exists m' z o', process_block addr ndebug g (o_res o) (Ptr sb 0) (len b) (Ptr db 0) m = Ok (tt, m') /\ len z = out_size md ratio (len b) /\
    has m' (Ptr db 0) (len z) (nthZ z) /\
    (forall b' i, is_user b' -> b' <> db -> m' b' i = m b' i) /\ mapped m' (Ptr db 0) dn /\
    o_res o' = o_res o /\ o_in o' = o_in o ++ b /\ o_out o' = o_out o ++ z /\
    reach plat (set_obj st id (Some o')) m'.
Proof.
  intros H E Er Hs ov sb db Hne Hh Hov Hd Hdn HS HT.
  set (q := Call (A := A) addr ndebug g (Ptr sb 0) (len b) (Ptr db 0)).
  assert (Nb : sb <> db) by (unfold sb, db; congruence).
  assert (K : call_ok plat (o_res o) m q b).
  { rewrite Er. constructor; cbn [q c_addr c_n c_input c_output]; unfold r_out, r_over; cbn [built r_filter r_mode r_ratio r_use_sse]; fold ov.
    - exact HA.
    - reflexivity.
    - exact Hs.
    - now exists ks.
    - now exists kd.
    - exact Hh.
    - unfold padd. cbn [pb po]. exact Hov.
    - intros i Hi. apply Hd. lia.
    - left. left. exact Nb.
    - intros L. left. now apply HS.
    - exact HT. }
  destruct (reach_call_progress plat st m id o q b H E K) as (m' & z & Eq & Lz & Hz & F & H').
  rewrite Er in Lz. unfold r_out in Lz. cbn [built r_mode r_ratio] in Lz.
  unfold run_call in Eq. cbn [q c_addr c_ndebug c_garbage c_input c_n c_output] in Eq, Hz, F.
  exists m', z, (obj_call o q b z). split; [exact Eq|]. split; [exact Lz|]. split; [exact Hz|].
  split; [|split; [|split; [reflexivity|split; [apply o_in_call|split; [reflexivity | exact H']]]]].
  - intros c i Uc Ncd. apply F; [exact Uc|]. intros [Q _]. cbn [pb] in Q. contradiction.
  - intros i Hi. cbn [pb po]. destruct (Z_lt_dec (0 + i) (len z)) as [L|L].
    + specialize (Hz i ltac:(lia)). cbn [pb po] in Hz. rewrite Hz. discriminate.
    + rewrite F; [apply (Hd i Hi) | now exists kd | intros [_ Q]; cbn [po] in Q; lia].
Qed.
End Calls.

(** ** testmultidelay.cc *)
Section Run.
Context {A : arith} (plat : platform) (to_float : R -> A) (to_double : A -> xdouble).
Context (addr : blk -> Z) (garbage : Z -> Z -> Z -> Z -> A) (nassert ndebug : bool).
Implicit Types m : mem A.

(** different arrays have different addresses *)
Record far : Prop := {
  fa_ok : addr_ok addr;
  fa_io : asep addr (Ptr in_a 0) 1024 (Ptr out_a 0) 8192;
  fa_it : asep addr (Ptr in_a 0) 1024 (Ptr out2_a 0) 8192;
  fa_to : asep addr (Ptr out2_a 0) 8192 (Ptr out_a 0) 8192;
  fa_s : forall t, t = Tmp \/ t = Tmp2 ->
    asep addr (Ptr in_a 0) 1024 (Ptr t 0) 4096 /\ asep addr (Ptr out_a 0) 8192 (Ptr t 0) 4096 /\ asep addr (Ptr out2_a 0) 8192 (Ptr t 0) 4096 }.

(** the input *)
Definition signal : list A := tab 1024 (fun i => to_float (sin (IZR i * freq / rate * 2 * PI))).
Lemma len_signal : len signal = 1024.
Proof. exact (size_tab (A := A) 1024 (fun i => to_float (sin (IZR i * freq / rate * 2 * PI))) ltac:(lia)). Qed.

(** what the comparison does with the output *)
Definition expected_at (new_rate delay : R) (i : Z) : R :=
  let pos := (IZR i - delay)%R in if Rle_dec 0 pos then sin (pos * freq / new_rate * 2 * PI) else 0%R.
Fixpoint measure (new_rate delay : R) (y : list A) (n : nat) : xdouble :=
  match n with
  | O => Fin 0
  | S k => let i := Z.of_nat k in let e := measure new_rate delay y k in
           if Rlt_dec delay (IZR i - delay) then xmax e (xrsub (expected_at new_rate delay i) (to_double (nthZ y i))) else e
  end.

Lemma find_error_ok verbose (y : list A) new_rate delay m : has m (Ptr out_a 0) (len y) (nthZ y) ->
  find_error to_double verbose (len y) new_rate delay m = Ok (measure new_rate delay y (Z.to_nat (len y)), m).
Proof.
  intros Hh. pose proof (len_nonneg y) as L0.
  assert (R : runs (find_error to_double verbose (len y) new_rate delay) m (fun e m' => m' = m /\ e = measure new_rate delay y (Z.to_nat (len y)))).
  { unfold find_error.
    apply runs_for with (Inv := fun i e m' => m' = m /\ e = measure new_rate delay y (Z.to_nat i)).
    - split; reflexivity.
    - intros i e m' Hi [-> ->]. cbv zeta. apply runs_bind.
      replace (Z.to_nat (i + 1)) with (S (Z.to_nat i)) by lia. cbn [measure]. rewrite Z2Nat.id by lia.
      assert (Hi' : m out_a i = Some (nthZ y i)) by (apply (Hh i); lia).
      assert (V : forall e' : xdouble, runs (A := A) (bind (if verbose then bind (load (Ptr out_a i)) (fun _ => ret tt) else ret tt) (fun _ => ret e')) m (fun e'' m' => m' = m /\ e'' = e')).
      { intros e'. apply runs_bind. destruct verbose; [|apply runs_ret, runs_ret; auto]. apply runs_bind. eapply runs_load; [exact Hi'|]. apply runs_ret, runs_ret. auto. }
      fold (expected_at new_rate delay i).
      destruct (Rlt_dec delay (IZR i - delay)).
      + apply runs_bind. eapply runs_load; [exact Hi'|]. apply runs_ret. apply V.
      + apply runs_ret. apply V.
    - intros e m' [-> ->]. split; [reflexivity|]. f_equal. lia. }
  destruct (runs_inv _ _ _ R) as (e & m' & E & -> & ->). exact E.
Qed.

Lemma fill_in m : mapped m (Ptr in_a 0) 1024 ->
  exists m', for_up (Z.to_nat SAMPLES) 0 (fun i _ => store (Ptr in_a i) (to_float (sin (IZR i * freq / rate * 2 * PI)))) tt m = Ok (tt, m') /\
    has m' (Ptr in_a 0) 1024 (nthZ signal) /\ forall b i, b <> in_a -> m' b i = m b i.
Proof.
  intros Hm.
  assert (R : runs (for_up (Z.to_nat SAMPLES) 0 (fun i _ => store (Ptr in_a i) (to_float (sin (IZR i * freq / rate * 2 * PI)))) tt) m
    (fun _ m' => has m' (Ptr in_a 0) 1024 (nthZ signal) /\ forall b i, b <> in_a -> m' b i = m b i)).
  { apply runs_for with (Inv := fun i _ m' => mapped m' (Ptr in_a 0) 1024 /\ has m' (Ptr in_a 0) i (nthZ signal) /\ forall b i, b <> in_a -> m' b i = m b i).
    - split; [exact Hm|]. split; [intros k Hk; lia | reflexivity].
    - intros i u m' Hi (H1 & H2 & H3). change (Z.of_nat (Z.to_nat SAMPLES)) with 1024 in Hi.
      apply runs_store; cbn [pb po]; [apply (H1 i); lia|]. split; [|split].
      + intros k Hk. cbn [pb po]. unfold upd. destruct (blk_eqb in_a in_a && (0 + k =? i)); [discriminate | now apply H1].
      + intros k Hk. cbn [pb po]. destruct (Z.eq_dec k i) as [->|N].
        * rewrite Z.add_0_l, upd_same. f_equal. rewrite nthZ_smp by lia. symmetry. exact (smp_tab (A := A) 1024 (fun i => to_float (sin (IZR i * freq / rate * 2 * PI))) i ltac:(lia)).
        * rewrite upd_other by lia. apply H2. lia.
      + intros b k Nb. unfold upd. destruct (blk_eqb_spec b in_a); [contradiction | cbn; now apply H3].
    - intros u m' (H1 & H2 & H3). split; [exact H2 | exact H3]. }
  destruct (runs_inv _ _ _ R) as ([] & m' & E & H). exists m'. auto.
Qed.

Context (idu idd : Z) (t : test).
Notation U := (built plat idu UP (t_ratio t) (t_prec t) (t_sse t) (t_filter t)).
Notation D := (built plat idd DOWN (t_ratio t) (t_prec t) (t_sse t) (t_filter t)).

(** the flags are as the asserts want them *)
Definition sensible : Prop := (t_up t || t_down t || t_over t) = true /\ (t_fir t || t_iir t || t_iir_sse t) = true.
(** the vector code of the IIR downsampler reads two floats behind its input: the test must not use it on arrays without them *)
Definition room_behind : Prop := vector plat (t_filter t) (t_sse t) = true -> t_filter t = FILTER_IIR -> 2 <= t_ratio t ->
  t_up t = true \/ t_down t = false /\ t_ratio t <= 4.

Definition passed_through (ou od : obj (A := A)) (x y : list A) : Prop :=
  if t_up t then o_in ou = x /\ o_out ou = y
  else if t_down t then o_in od = x /\ o_out od = y
  else o_in ou = x /\ o_in od = o_out ou /\ o_out od = y.
Definition out_samples : Z := if t_up t then 1024 * t_ratio t else if t_down t then 1024 / t_ratio t else 1024.
Definition new_rate : R := if t_up t then (rate * IZR (t_ratio t))%R else if t_down t then (rate / IZR (t_ratio t))%R else rate.
Definition total_delay (du dd : R) : R := if t_up t then du else if t_down t then dd else (du / IZR (t_ratio t) + dd)%R.

Lemma delay_value_is r d m : delay_is r d -> delay_value (A := A) r m = Ok (d, m).
Proof. intros (x & E & _ & B). unfold delay_value, bind, lift. rewrite E. unfold ret. now rewrite <- B. Qed.

Context (HA : far) (Ne : idu <> idd) (HV : valid (t_filter t) (t_ratio t) (t_prec t)).

Lemma some_delay id md : exists d, delay_is (built plat id md (t_ratio t) (t_prec t) (t_sse t) (t_filter t)) d /\ (0 <= d)%R.
Proof.
  destruct HV as [Hr HT]. destruct (Z.eq_dec (t_ratio t) 1) as [E1|N1].
  - exists 0%R. split; [|lra]. rewrite E1. exists (b64_dy 0 0). rewrite delay_ratio1. repeat split.
  - assert (2 <= t_ratio t) by (unfold ratio_no in Hr; lia). destruct (t_filter t) eqn:F.
    + destruct (iir_delay_pos plat id md (t_ratio t) (t_prec t) (t_sse t) (conj Hr HT) H) as (d & Hd & P). exists d. split; [exact Hd | lra].
    + eexists. split; [apply fir_delay_is; split; [exact Hr | exact HT]|]. apply Rmult_le_pos; [|lra]. apply IZR_le.
      specialize (HT H). cbn [has_tables] in HT. unfold fir_prec in HT. unfold ratio_no in Hr. clear - Hr HT N1.
      destruct Hr as [E|[E|[E|E]]]; rewrite E; [|destruct HT as [P|[P|[P|[P|[P|P]]]]]; rewrite P; destruct md; vm_compute; discriminate ..].
      destruct md; cbn; lia.
Qed.

Lemma ratio_range : t_ratio t = 1 \/ t_ratio t = 2 \/ t_ratio t = 4 \/ t_ratio t = 8.
Proof. destruct HV as [Hr _]. exact Hr. Qed.

Lemma sizes md n : 0 < n < 10000 -> (md = DOWN -> n mod 8 = 0) -> size_ok (t_filter t) md (t_ratio t) n.
Proof.
  intros Hn Hd. unfold size_ok. destruct ratio_range as [E|[E|[E|E]]]; rewrite E; try exact I; destruct (t_filter t), md; try exact I; try specialize (Hd eq_refl); try lia.
Qed.

Lemma over_cases v md : over_read v (t_filter t) md (t_ratio t) = 0 \/
  over_read v (t_filter t) md (t_ratio t) = 2 /\ v = true /\ t_filter t = FILTER_IIR /\ 2 <= t_ratio t /\ md = DOWN.
Proof. unfold over_read. destruct (t_filter t), md, v; cbn [andb]; auto. destruct (Z.ltb_spec 1 (t_ratio t)); auto. right. repeat split. lia. Qed.

Lemma resample_ok st m : reach plat st m ->
  st idu = Some (Obj U [] []) -> st idd = Some (Obj D [] []) ->
  has m (Ptr in_a 0) 1024 (nthZ signal) -> mapped m (Ptr out_a 0) 8192 -> room_behind ->
  exists m' st' ou od y du dd, delay_is U du /\ delay_is D dd /\ (0 <= total_delay du dd)%R /\
    resample_once addr garbage ndebug t U D m = Ok ((out_samples, new_rate, total_delay du dd), m') /\
    reach plat st' m' /\ st' idu = Some ou /\ st' idd = Some od /\ o_res ou = U /\ o_res od = D /\ passed_through ou od signal y /\
    len y = out_samples /\ has m' (Ptr out_a 0) (len y) (nthZ y) /\ (forall id, id <> idu -> id <> idd -> st' id = st id).
Proof.
  intros H Eu Ed Hi Ho HR.
  destruct (some_delay idu UP) as (du & Hdu & Pu). destruct (some_delay idd DOWN) as (dd & Hdd & Pd).
  pose proof ratio_range as Rr. assert (R1 : 1 <= t_ratio t <= 8) by lia.
  pose proof len_signal as LS. destruct HA as [A1 A2 A3 A4 A5].
  assert (Hi' : has m (Ptr in_a 0) (len signal) (nthZ signal)) by (rewrite LS; exact Hi).
  assert (PR : (0 <= du / IZR (t_ratio t))%R).
  { apply Rmult_le_pos; [exact Pu|]. apply Rlt_le, Rinv_0_lt_compat, IZR_lt. lia. }
  assert (SDU : forall id, id <> idu -> id <> idd -> forall o, set_obj st idu o id = st id) by (intros id N1 N2 o; unfold set_obj; destruct (Z.eqb_spec id idu); congruence).
  unfold resample_once, out_samples, new_rate, total_delay, passed_through in *. unfold in_a, out_a, out2_a in *.
  destruct (t_up t) eqn:TU; [|destruct (t_down t) eqn:TD].
  - (* up *)
    assert (OV : over_read (vector plat (t_filter t) (t_sse t)) (t_filter t) UP (t_ratio t) = 0) by (destruct (over_cases (vector plat (t_filter t) (t_sse t)) UP) as [O|(_ & _ & _ & _ & O)]; [exact O | discriminate]).
    destruct (call_any plat addr ndebug A1 st m idu UP (t_ratio t) (t_prec t) (t_sse t) (t_filter t) _ (garbage 0) 0 1 signal 8192 H Eu eq_refl)
      as (m1 & z & o1 & E1 & L1 & Z1 & F1 & M1 & R' & I1 & O1 & H1); cbn zeta; rewrite ?OV, ?LS, ?Z.add_0_r; cbn [out_size].
    + apply sizes; [lia | discriminate].
    + lia.
    + exact Hi.
    + intros i Hh. lia.
    + exact Ho.
    + lia.
    + intros _. eapply asep_shorter; [exact A2 | lia | lia].
    + intros s Hs. destruct (A5 s Hs) as (B1 & B2 & _). split; [exact B1|]. eapply asep_shorter; [exact B2 | lia | lia].
    + cbn [o_res o_in o_out o_log concat map app] in *. rewrite LS in E1. cbn [out_size] in L1. rewrite LS in L1.
      exists m1, (set_obj st idu (Some o1)), o1, (Obj D [] []), z, du, dd. split; [exact Hdu|]. split; [exact Hdd|]. split; [exact Pu|].
      split; [unfold bind; change SAMPLES with 1024; rewrite E1, (delay_value_is _ du) by exact Hdu; reflexivity|]. split; [exact H1|].
      unfold set_obj. rewrite Z.eqb_refl. destruct (Z.eqb_spec idd idu); [congruence|]. cbn [o_in o_log map concat app] in I1.
      repeat split; try assumption. intros id N1 N2. destruct (Z.eqb_spec id idu); congruence.
  - (* down *)
    assert (OV : over_read (vector plat (t_filter t) (t_sse t)) (t_filter t) DOWN (t_ratio t) = 0).
    { destruct (over_cases (vector plat (t_filter t) (t_sse t)) DOWN) as [O|(_ & V & F & R2 & _)]; [exact O|]. destruct (HR V F R2) as [Q|[Q _]]; congruence. }
    assert (DR : 0 <= 1024 / t_ratio t <= 1024) by (destruct Rr as [E|[E|[E|E]]]; rewrite E; vm_compute; split; discriminate).
    destruct (call_any plat addr ndebug A1 st m idd DOWN (t_ratio t) (t_prec t) (t_sse t) (t_filter t) _ (garbage 0) 0 1 signal 8192 H Ed eq_refl)
      as (m1 & z & o1 & E1 & L1 & Z1 & F1 & M1 & R' & I1 & O1 & H1); cbn zeta; rewrite ?OV, ?LS, ?Z.add_0_r; cbn [out_size].
    + apply sizes; [lia | reflexivity].
    + lia.
    + exact Hi.
    + intros i Hh. lia.
    + exact Ho.
    + lia.
    + intros _. eapply asep_shorter; [exact A2 | lia | lia].
    + intros s Hs. destruct (A5 s Hs) as (B1 & B2 & _). split; [exact B1|]. eapply asep_shorter; [exact B2 | lia | lia].
    + cbn [o_res o_in o_out o_log concat map app] in *. rewrite LS in E1. cbn [out_size] in L1. rewrite LS in L1.
      exists m1, (set_obj st idd (Some o1)), (Obj U [] []), o1, z, du, dd. split; [exact Hdu|]. split; [exact Hdd|]. split; [exact Pd|].
      split.
      { destruct (Z.eqb_spec (t_ratio t) 0); [lia|]. unfold bind. change (ret tt m) with (@Ok (unit * mem A) (tt, m)). cbv iota beta.
        change SAMPLES with 1024. rewrite E1, (delay_value_is _ dd) by exact Hdd. unfold ret. rewrite Z.quot_div_nonneg by lia. reflexivity. }
      split; [exact H1|].
      unfold set_obj. rewrite Z.eqb_refl. destruct (Z.eqb_spec idu idd); [congruence|]. cbn [o_in o_log map concat app] in I1.
      repeat split; try assumption. intros id N1 N2. destruct (Z.eqb_spec id idd); congruence.
  - (* over *)
    set (m0 := fun b i => if blk_eqb b (User 2) then (if (0 <=? i) && (i <? SAMPLES * MAX_RATIO) then Some f0 else None) else m b i).
    assert (Al : alloc (User 2) (SAMPLES * MAX_RATIO) (fun _ => f0) m = Ok (tt, m0)) by reflexivity.
    assert (H0 : reach plat st m0).
    { apply (reach_client plat st m m0 H). intros b i NU _. unfold m0. destruct (blk_eqb_spec b (User 2)) as [->|]; [|reflexivity]. exfalso. apply NU. eexists. reflexivity. }
    assert (OVU : over_read (vector plat (t_filter t) (t_sse t)) (t_filter t) UP (t_ratio t) = 0) by (destruct (over_cases (vector plat (t_filter t) (t_sse t)) UP) as [O|(_ & _ & _ & _ & O)]; [exact O | discriminate]).
    destruct (call_any plat addr ndebug A1 st m0 idu UP (t_ratio t) (t_prec t) (t_sse t) (t_filter t) _ (garbage 0) 0 2 signal 8192 H0 Eu eq_refl)
      as (m1 & z1 & o1 & E1 & L1 & Z1 & F1 & M1 & R1' & I1 & O1 & H1); cbn zeta; rewrite ?OVU, ?LS, ?Z.add_0_r; cbn [out_size].
    { apply sizes; [lia | discriminate]. } { lia. } { exact Hi. } { intros i Hh. lia. }
    { intros i Hh. cbn [pb po]. unfold m0. rewrite blk_eqb_refl. change (SAMPLES * MAX_RATIO) with 8192. destruct (Z.leb_spec 0 (0 + i)), (Z.ltb_spec (0 + i) 8192); try lia. discriminate. }
    { lia. }
    { intros _. eapply asep_shorter; [exact A3 | lia | lia]. }
    { intros s Hs. destruct (A5 s Hs) as (B1 & _ & B2). split; [exact B1|]. eapply asep_shorter; [exact B2 | lia | lia]. }
    cbn [o_res o_in o_out o_log concat map app] in *. rewrite LS in E1. cbn [out_size] in L1. rewrite LS in L1.
    assert (OVD : 0 <= over_read (vector plat (t_filter t) (t_sse t)) (t_filter t) DOWN (t_ratio t) /\
       1024 * t_ratio t + over_read (vector plat (t_filter t) (t_sse t)) (t_filter t) DOWN (t_ratio t) <= 8192).
    { destruct (over_cases (vector plat (t_filter t) (t_sse t)) DOWN) as [O|(O & V & F & R2 & _)]; rewrite O; [lia|]. destruct (HR V F R2) as [Q|[_ Q]]; [congruence | lia]. }
    set (ov := over_read (vector plat (t_filter t) (t_sse t)) (t_filter t) DOWN (t_ratio t)) in *.
    assert (DV : 1024 * t_ratio t / t_ratio t = 1024) by (apply Z.div_mul; lia).
    destruct (call_any plat addr ndebug A1 (set_obj st idu (Some o1)) m1 idd DOWN (t_ratio t) (t_prec t) (t_sse t) (t_filter t) (Obj D [] []) (garbage 1) 2 1 z1 8192 H1)
      as (m2 & z2 & o2 & E2 & L2 & Z2 & F2 & M2 & R2' & I2 & O2 & H2); cbn zeta; fold ov; rewrite ?L1; cbn [out_size]; rewrite ?DV.
    { unfold set_obj. destruct (Z.eqb_spec idd idu); [congruence | exact Ed]. }
    { reflexivity. }
    { apply sizes; [lia|]. intros _. rewrite Z.mul_comm, (Z.mul_mod _ 1024) by lia. change (1024 mod 8) with 0. rewrite Z.mul_0_r. reflexivity. }
    { lia. }
    { intros i Hh. apply Z1. lia. }
    { intros i Hh. cbn [pb po]. apply (M1 (1024 * t_ratio t + i)). lia. }
    { intros i Hh. cbn [pb po]. rewrite F1; [|eexists; reflexivity|discriminate]. apply (Ho i Hh). }
    { lia. }
    { intros _. eapply asep_shorter; [exact A4 | lia | lia]. }
    { intros s Hs. destruct (A5 s Hs) as (_ & B1 & B2). split; (eapply asep_shorter; [eassumption | lia | lia]). }
    cbn [o_res o_in o_out o_log concat map app] in *. rewrite L1 in E2. rewrite L1 in L2. cbn [out_size] in L2. rewrite DV in L2.
    set (m3 := fun b i => if blk_eqb b (User 2) then None else m2 b i).
    exists m3, (set_obj (set_obj st idu (Some o1)) idd (Some o2)), o1, o2, z2, du, dd. split; [exact Hdu|]. split; [exact Hdd|]. split; [lra|].
    split.
    { unfold bind. rewrite (delay_value_is _ du) by exact Hdu. rewrite (delay_value_is _ dd) by exact Hdd. rewrite Al.
      change SAMPLES with 1024. rewrite E1. assert (U2 : u32 (1024 * t_ratio t) = 1024 * t_ratio t) by (unfold u32; apply Z.mod_small; lia). rewrite U2, E2. reflexivity. }
    split.
    { apply (reach_client plat _ m2 m3 H2). intros b i NU _. unfold m3. destruct (blk_eqb_spec b (User 2)) as [->|]; [|reflexivity]. exfalso. apply NU. eexists. reflexivity. }
    unfold set_obj. rewrite Z.eqb_refl. destruct (Z.eqb_spec idu idd); [congruence|]. rewrite Z.eqb_refl. cbn [o_in o_log map concat app] in I1, I2.
    split; [reflexivity|]. split; [reflexivity|]. split; [congruence|]. split; [congruence|]. split; [repeat split; [exact I1 | rewrite I2, O1; reflexivity | exact O2]|]. split; [exact L2|]. split.
    + intros i Hh. cbn [pb po]. unfold m3. cbn [blk_eqb Z.eqb Pos.eqb]. apply (Z2 i Hh).
    + intros id N1 N2. destruct (Z.eqb_spec id idd), (Z.eqb_spec id idu); congruence.
Qed.

Theorem run_ok st m verbose : reach plat st m -> st idu = None -> st idd = None -> (nassert = true \/ sensible) -> room_behind ->
  exists m' st' ou od y du dd, delay_is U du /\ delay_is D dd /\ (0 <= total_delay du dd)%R /\
    run plat to_float to_double addr garbage nassert ndebug idu idd t verbose m =
      Ok (Report new_rate (total_delay du dd) (measure new_rate (total_delay du dd) y (Z.to_nat out_samples)), m') /\
    reach plat st' m' /\ st' idu = Some ou /\ st' idd = Some od /\ o_res ou = U /\ o_res od = D /\ passed_through ou od signal y /\ len y = out_samples /\
    (forall id, id <> idu -> id <> idd -> st' id = st id).
Proof.
  intros H Nu Nd HS HR. pose proof ratio_range as Rr. destruct HV as [Vr VT].
  assert (UR : u32 (t_ratio t) = t_ratio t) by (unfold u32; apply Z.mod_small; lia).
  assert (AS : forall b, (nassert = true \/ b = true) -> assert_ (A := A) nassert b = ret tt).
  { intros b Hb. unfold assert_, require. destruct nassert; [reflexivity|]. destruct b; [reflexivity|]. destruct Hb; discriminate. }
  destruct (reach_new_progress plat st m idu UP (t_ratio t) (t_prec t) (t_sse t) (t_filter t) H Nu Vr VT) as (m1 & E1 & F1 & H1). cbn zeta in *.
  destruct (reach_new_progress plat _ m1 idd DOWN (t_ratio t) (t_prec t) (t_sse t) (t_filter t) H1) as (m2 & E2 & F2 & H2); [|exact Vr|exact VT|].
  { unfold set_obj. destruct (Z.eqb_spec idd idu); [congruence | exact Nd]. }
  cbn zeta in *.
  set (m3 := fun b i => if blk_eqb b out_a then (if (0 <=? i) && (i <? 8192) then Some f0 else None) else
    if blk_eqb b in_a then (if (0 <=? i) && (i <? 1024) then Some f0 else None) else m2 b i).
  destruct (fill_in m3) as (m4 & E4 & Hin & F4).
  { intros i Hi. cbn [pb po]. unfold m3. cbn [blk_eqb in_a out_a Z.eqb]. destruct (Z.leb_spec 0 (0 + i)), (Z.ltb_spec (0 + i) 1024); try lia. discriminate. }
  set (st2 := set_obj (set_obj st idu (Some (Obj U [] []))) idd (Some (Obj D [] []))) in *.
  assert (H4 : reach plat st2 m4).
  { apply (reach_client plat st2 m2 m4 H2). intros b i NU _. rewrite F4 by (intros ->; apply NU; eexists; reflexivity).
    unfold m3. destruct (blk_eqb_spec b out_a) as [->|]; [exfalso; apply NU; eexists; reflexivity|]. destruct (blk_eqb_spec b in_a) as [->|]; [exfalso; apply NU; eexists; reflexivity | reflexivity]. }
  destruct (resample_ok st2 m4 H4) as (m5 & st5 & ou & od & y & du & dd & Hdu & Hdd & P & E5 & H5 & Su & Sd & Ru & Rd & PT & Ly & Hy & Fr); try assumption.
  { unfold st2, set_obj. destruct (Z.eqb_spec idu idd); [congruence|]. now rewrite Z.eqb_refl. }
  { unfold st2, set_obj. now rewrite Z.eqb_refl. }
  { intros i Hi. cbn [pb po]. rewrite F4 by discriminate. unfold m3. unfold out_a. rewrite blk_eqb_refl. destruct (Z.leb_spec 0 (0 + i)), (Z.ltb_spec (0 + i) 8192); try lia. discriminate. }
  set (m6 := fun b i => if blk_eqb b in_a then None else if blk_eqb b out_a then None else m5 b i).
  exists m6, st5, ou, od, y, du, dd. split; [exact Hdu|]. split; [exact Hdd|]. split; [exact P|]. split; [|split; [|repeat split; try assumption]].
  - unfold run, bind. rewrite UR. rewrite !AS; [|destruct HS as [HS|[HS1 HS2]]; auto; right; unfold MAX_RATIO; lia ..]. unfold ret at 1 2.
    rewrite E1, E2. unfold ret at 1. unfold alloc at 1 2. cbv iota beta.
    match goal with |- context [for_up _ _ _ _ ?x] => change x with m3 end. rewrite E4. cbn [fst snd]. rewrite E5.
    rewrite <- Ly. rewrite (find_error_ok verbose y) by exact Hy. reflexivity.
  - apply (reach_client plat _ m5 m6 H5). intros b i NU _. unfold m6. destruct (blk_eqb_spec b in_a) as [->|]; [exfalso; apply NU; eexists; reflexivity|].
    destruct (blk_eqb_spec b out_a) as [->|]; [exfalso; apply NU; eexists; reflexivity | reflexivity].
  - intros id N1 N2. rewrite Fr by assumption. unfold st2, set_obj. destruct (Z.eqb_spec id idd), (Z.eqb_spec id idu); congruence.
Qed.
End Run.

(** what a report says: there is a program that did what the test describes, and the report is about its output *)
Section Reports.
Context {A : arith} (plat : platform) (to_float : R -> A) (to_double : A -> xdouble).
Implicit Types m : mem A.

Definition report_of (t : test) (r : report) : Prop :=
  exists st m idu idd ou od y du dd, reach plat st m /\ st idu = Some ou /\ st idd = Some od /\
    o_res ou = built plat idu UP (t_ratio t) (t_prec t) (t_sse t) (t_filter t) /\
    o_res od = built plat idd DOWN (t_ratio t) (t_prec t) (t_sse t) (t_filter t) /\
    delay_is (o_res ou) du /\ delay_is (o_res od) dd /\ (0 <= total_delay t du dd)%R /\
    passed_through t ou od (signal to_float) y /\ len y = out_samples t /\
    r = Report (new_rate t) (total_delay t du dd) (measure to_double (new_rate t) (total_delay t du dd) y (Z.to_nat (out_samples t))).

(** a test that can be run *)
Definition runnable (nassert : bool) (t : test) : Prop :=
  valid (t_filter t) (t_ratio t) (t_prec t) /\ (nassert = true \/ sensible t) /\ room_behind plat t.

Context (garbage : Z -> Z -> Z -> Z -> Z -> A) (nassert ndebug : bool).

Lemma run_report addr idu idd t st m verbose g : far addr -> idu <> idd -> runnable nassert t ->
  reach plat st m -> st idu = None -> st idd = None ->
  exists r m' st', run plat to_float to_double addr g nassert ndebug idu idd t verbose m = Ok (r, m') /\ reach plat st' m' /\ report_of t r /\
    (forall id, id <> idu -> id <> idd -> st' id = st id).
Proof.
  intros HA Ne (HV & HS & HR) H Nu Nd.
  destruct (run_ok plat to_float to_double addr g nassert ndebug idu idd t HA Ne HV st m verbose H Nu Nd HS HR)
    as (m' & st' & ou & od & y & du & dd & Hdu & Hdd & P & E & H' & Su & Sd & Ru & Rd & PT & Ly & Fr).
  eexists _, m', st'. split; [exact E|]. split; [exact H'|]. split; [|exact Fr].
  exists st', m', idu, idd, ou, od, y, du, dd. rewrite Ru, Rd. auto 12.
Qed.

Lemma run_tests_ok (addr : Z -> blk -> Z) l : (forall id, far (addr id)) -> Forall (runnable nassert) l ->
  forall id st m, reach plat st m -> (forall i, id <= i -> st i = None) ->
  exists rs m' st', run_tests plat to_float to_double addr garbage nassert ndebug id l m = Ok (rs, m') /\ reach plat st' m' /\ Forall2 report_of l rs.
Proof.
  intros HA. induction 1 as [|t l Ht Hl IH]; intros id st m H HN.
  - exists [], m, st. split; [reflexivity|]. split; [exact H | constructor].
  - destruct (run_report (addr id) id (id + 1) t st m false (garbage id) (HA id) ltac:(lia) Ht H) as (r & m1 & st1 & E1 & H1 & R1 & F1); [apply HN; lia | apply HN; lia|].
    destruct (IH (id + 2) st1 m1 H1) as (rs & m2 & st2 & E2 & H2 & R2).
    { intros i Hi. rewrite F1 by lia. apply HN. lia. }
    exists (r :: rs), m2, st2. split; [|split; [exact H2 | constructor; assumption]].
    cbn [run_tests]. unfold bind. rewrite E1, E2. reflexivity.
Qed.
End Reports.

(** ** testaddr.cc *)
Section Addr.
Context {A : arith} (plat : platform).
Context (addr : Z -> blk -> Z) (garbage : Z -> Z -> Z -> Z -> Z -> A) (ndebug : bool).
Implicit Types m : mem A.

(** the vectors of n and n * 8 floats, wherever they are *)
Record far_n (ad : blk -> Z) (n : Z) : Prop := {
  fn_ok : addr_ok ad;
  fn_io : asep ad (Ptr in_a 0) n (Ptr out_a 0) (n * 8);
  fn_s : forall t, t = Tmp \/ t = Tmp2 -> asep ad (Ptr in_a 0) n (Ptr t 0) 4096 /\ asep ad (Ptr out_a 0) (n * 8) (Ptr t 0) 4096 }.

Lemma zeros_has m b n : 0 <= n -> mapped m (Ptr b 0) n -> exists x : list A, len x = n /\ has m (Ptr b 0) n (nthZ x).
Proof.
  intros H0 Hm.
  exists (tab (A := A) n (fun i => match m b i with Some v => v | None => f0 end)). split; [exact (size_tab (A := A) n _ H0)|].
  intros i Hi. specialize (Hm i Hi). cbn [pb po] in *. rewrite Z.add_0_l in *. rewrite nthZ_smp by lia. rewrite smp_tab by lia.
  destruct (m b i); [reflexivity | contradiction].
Qed.

Lemma addr_body_ok id n over p st m : 0 <= n -> n * 8 < 2 ^ 31 - 4 -> ratio_no over -> far_n (addr id) n ->
  reach plat st m -> st id = None -> st (id + 1) = None -> mapped m (Ptr in_a 0) n -> mapped m (Ptr out_a 0) (n * over) ->
  exists m' st', addr_body plat addr garbage ndebug id n over p m = Ok (tt, m') /\ reach plat st' m' /\
    mapped m' (Ptr in_a 0) n /\ mapped m' (Ptr out_a 0) (n * over) /\ (forall i, i <> id -> i <> id + 1 -> st' i = st i).
Proof.
  intros H0 Hn Vr [A1 A2 A3] H Nu Nd Mi Mo.
  assert (VT : fir_prec (find_precision_for_bits p)).
  { unfold find_precision_for_bits, fir_prec. repeat match goal with |- context [if ?c then _ else _] => destruct c end; auto 7. }
  assert (R1 : 1 <= over <= 8) by (unfold ratio_no in Vr; lia).
  destruct (reach_new_progress plat st m id UP over (find_precision_for_bits p) true FILTER_FIR H Nu Vr (fun _ => VT)) as (m1 & E1 & F1 & H1). cbn zeta in *.
  destruct (reach_new_progress plat _ m1 (id + 1) DOWN over (find_precision_for_bits p) true FILTER_FIR H1) as (m2 & E2 & F2 & H2); [|exact Vr|exact (fun _ => VT)|].
  { unfold set_obj. destruct (Z.eqb_spec (id + 1) id); [lia | exact Nd]. }
  cbn zeta in *. set (U := built plat id UP over _ true FILTER_FIR) in *. set (D := built plat (id + 1) DOWN over _ true FILTER_FIR) in *.
  assert (UI : is_user in_a /\ is_user out_a) by (split; eexists; reflexivity). destruct UI as [UI UO].
  assert (Mi2 : mapped m2 (Ptr in_a 0) n) by (intros i Hi; cbn [pb po]; rewrite F2, F1 by exact UI; apply (Mi i Hi)).
  assert (Mo2 : mapped m2 (Ptr out_a 0) (n * over)) by (intros i Hi; cbn [pb po]; rewrite F2, F1 by exact UO; apply (Mo i Hi)).
  destruct (zeros_has m2 in_a n H0 Mi2) as (x & Lx & Hx).
  set (st2 := set_obj (set_obj st id (Some (Obj U [] []))) (id + 1) (Some (Obj D [] []))) in *.
  assert (NO : 0 <= n * over <= n * 8) by nia.
  destruct (call_any plat (addr id) ndebug A1 st2 m2 id UP over (find_precision_for_bits p) true FILTER_FIR (Obj U [] []) (garbage id 0) 0 1 x (n * over) H2)
    as (m3 & z & o1 & E3 & L3 & Z3 & F3 & M3 & R3 & I3 & O3 & H3); cbn zeta; cbn [over_read out_size]; rewrite ?Lx, ?Z.add_0_r.
  { unfold st2, set_obj. destruct (Z.eqb_spec id (id + 1)); [lia|]. now rewrite Z.eqb_refl. }
  { reflexivity. }
  { unfold size_ok. destruct Vr as [E|[E|[E|E]]]; rewrite E; try exact I. lia. }
  { lia. } { exact Hx. } { intros i Hi. lia. } { exact Mo2. } { lia. }
  { intros _. eapply asep_shorter; [exact A2 | lia | lia]. }
  { intros t Ht. destruct (A3 t Ht) as [B1 B2]. split; [exact B1 | eapply asep_shorter; [exact B2 | lia | lia]]. }
  cbn [o_res out_size] in *. rewrite Lx in *.
  assert (DV : n * over / over = n) by (apply Z.div_mul; lia).
  destruct (call_any plat (addr id) ndebug A1 (set_obj st2 id (Some o1)) m3 (id + 1) DOWN over (find_precision_for_bits p) true FILTER_FIR (Obj D [] []) (garbage id 1) 1 0 z n H3)
    as (m4 & z4 & o2 & E4 & L4 & Z4 & F4 & M4 & R4 & I4 & O4 & H4); cbn zeta; cbn [over_read out_size]; rewrite ?L3, ?Z.add_0_r, ?DV.
  { unfold st2, set_obj. destruct (Z.eqb_spec (id + 1) id); [lia|]. now rewrite Z.eqb_refl. }
  { reflexivity. }
  { unfold size_ok. destruct Vr as [E|[E|[E|E]]]; rewrite E; try exact I; apply Z.mod_mul; lia. }
  { lia. } { intros i Hi. apply (Z3 i). lia. } { intros i Hi. lia. }
  { intros i Hi. cbn [pb po]. rewrite F3; [apply (Mi2 i Hi) | exact UI | discriminate]. } { lia. }
  { intros _. unfold asep in *. cbn [pb po] in *. unfold paddr in *. cbn [pb po] in *. change (User 0) with in_a. change (User 1) with out_a. lia. }
  { intros t Ht. destruct (A3 t Ht) as [B1 B2]. split; [eapply asep_shorter; [exact B2 | lia | lia] | exact B1]. }
  cbn [o_res out_size] in *. rewrite L3 in *.
  eexists m4, _. split; [|split; [exact H4|split; [exact M4|split]]].
  - unfold addr_body, bind. rewrite E1, E2. cbn [fst]. fold U D. unfold in_a, out_a. rewrite E3.
    assert (U2 : u32 (n * over) = n * over) by (unfold u32; apply Z.mod_small; lia). rewrite U2. exact E4.
  - intros i Hi. cbn [pb po]. rewrite F4; [apply (M3 i Hi) | exact UO | discriminate].
  - intros i N1 N2. unfold st2, set_obj. destruct (Z.eqb_spec i (id + 1)), (Z.eqb_spec i id); congruence.
Qed.

Lemma addr_bits_ok n over ps : 0 <= n -> n * 8 < 2 ^ 31 - 4 -> ratio_no over -> (forall id, far_n (addr id) n) ->
  forall id st m, reach plat st m -> (forall i, id <= i -> st i = None) -> mapped m (Ptr in_a 0) n -> mapped m (Ptr out_a 0) (n * over) ->
  exists m' st', addr_bits plat addr garbage ndebug id n over ps m = Ok (tt, m') /\ reach plat st' m' /\
    (forall i, id + 2 * Z.of_nat (List.length ps) <= i -> st' i = None).
Proof.
  intros H0 Hn Vr HA. induction ps as [|p ps IH]; intros id st m H HN Mi Mo.
  - exists m, st. split; [reflexivity|]. split; [exact H|]. intros i Hi. apply HN. cbn in Hi. lia.
  - destruct (addr_body_ok id n over p st m H0 Hn Vr (HA id) H) as (m1 & st1 & E1 & H1 & Mi1 & Mo1 & F1); try (apply HN; lia); try assumption.
    destruct (IH (id + 2) st1 m1 H1) as (m2 & st2 & E2 & H2 & N2); try assumption.
    { intros i Hi. rewrite F1 by lia. apply HN. lia. }
    exists m2, st2. split; [cbn [addr_bits]; unfold bind; rewrite E1; exact E2|]. split; [exact H2|]. intros i Hi. apply N2. cbn [List.length] in Hi. lia.
Qed.

Lemma addr_over_ok n over : 0 <= n -> n * 8 < 2 ^ 31 - 4 -> ratio_no over -> (forall id, far_n (addr id) n) ->
  forall id st m, reach plat st m -> (forall i, id <= i -> st i = None) ->
  exists m' st', addr_over plat addr garbage ndebug id n over m = Ok (id + 12, m') /\ reach plat st' m' /\ (forall i, id + 12 <= i -> st' i = None).
Proof.
  intros H0 Hn Vr HA id st m H HN. assert (R1 : 1 <= over <= 8) by (unfold ratio_no in Vr; lia).
  assert (U2 : u32 (n * over) = n * over) by (unfold u32; apply Z.mod_small; nia).
  set (m1 := fun b i => if blk_eqb b out_a then (if (0 <=? i) && (i <? n * over) then Some f0 else None) else
    if blk_eqb b in_a then (if (0 <=? i) && (i <? n) then Some f0 else None) else m b i).
  assert (H1 : reach plat st m1).
  { apply (reach_client plat st m m1 H). intros b i NU _. unfold m1.
    destruct (blk_eqb_spec b out_a) as [->|]; [exfalso; apply NU; eexists; reflexivity|]. destruct (blk_eqb_spec b in_a) as [->|]; [exfalso; apply NU; eexists; reflexivity | reflexivity]. }
  destruct (addr_bits_ok n over bits_list H0 Hn Vr HA id st m1 H1 HN) as (m2 & st2 & E2 & H2 & N2).
  { intros i Hi. cbn [pb po]. unfold m1. cbn [blk_eqb in_a out_a Z.eqb]. destruct (Z.leb_spec 0 (0 + i)), (Z.ltb_spec (0 + i) n); try lia. discriminate. }
  { intros i Hi. cbn [pb po]. unfold m1, out_a. rewrite blk_eqb_refl. destruct (Z.leb_spec 0 (0 + i)), (Z.ltb_spec (0 + i) (n * over)); try lia. discriminate. }
  set (m3 := fun b i => if blk_eqb b in_a then None else if blk_eqb b out_a then None else m2 b i).
  exists m3, st2. split; [|split; [|exact N2]].
  - unfold addr_over, bind. rewrite U2. unfold alloc at 1 2. cbv iota beta.
    match goal with |- context [addr_bits _ _ _ _ _ _ _ _ ?x] => change x with m1 end. rewrite E2. reflexivity.
  - apply (reach_client plat _ m2 m3 H2). intros b i NU _. unfold m3. destruct (blk_eqb_spec b in_a) as [->|]; [exfalso; apply NU; eexists; reflexivity|].
    destruct (blk_eqb_spec b out_a) as [->|]; [exfalso; apply NU; eexists; reflexivity | reflexivity].
Qed.

Lemma addr_main_ok count : 0 <= count -> count * 8 < 2 ^ 31 - 4 -> (forall id n, 0 <= n < count -> far_n (addr id) n) ->
  forall m, exists m', addr_main plat addr garbage ndebug count m = Ok (0, m').
Proof.
  intros H0 Hc HA m.
  assert (R : runs (for_up (Z.to_nat count) 0 (fun n id => addr_overs plat addr garbage ndebug id n [1; 2; 4; 8]) 0) m
    (fun id m' => exists st, reach plat st m' /\ forall i, id <= i -> st i = None)).
  { apply runs_for with (Inv := fun _ id m' => exists st, reach plat st m' /\ forall i, id <= i -> st i = None).
    - exists (fun _ => None). split; [apply reach_init | reflexivity].
    - intros n id m' Hn (st & H & HN).
      assert (HA' : forall id, far_n (addr id) n) by (intros; apply HA; lia).
      destruct (addr_over_ok n 1 ltac:(lia) ltac:(lia) ltac:(unfold ratio_no; auto) HA' id st m' H HN) as (m1 & st1 & E1 & H1 & N1).
      destruct (addr_over_ok n 2 ltac:(lia) ltac:(lia) ltac:(unfold ratio_no; auto) HA' _ st1 m1 H1 N1) as (m2 & st2 & E2 & H2 & N2).
      destruct (addr_over_ok n 4 ltac:(lia) ltac:(lia) ltac:(unfold ratio_no; auto) HA' _ st2 m2 H2 N2) as (m3 & st3 & E3 & H3 & N3).
      destruct (addr_over_ok n 8 ltac:(lia) ltac:(lia) ltac:(unfold ratio_no; auto) HA' _ st3 m3 H3 N3) as (m4 & st4 & E4 & H4 & N4).
      unfold runs. cbn [addr_overs]. unfold bind. rewrite E1, E2, E3, E4. cbn [ret]. exists st4. split; assumption.
    - intros id m' Hx. exact Hx. }
  destruct (runs_inv _ _ _ R) as (id & m' & E & _). exists m'. unfold addr_main, bind. rewrite E. reflexivity.
Qed.
End Addr.
