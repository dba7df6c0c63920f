(** * The output of an object is a function of the calls made on it

    Two programs, each in any state.  If an object with the same parameters has
    received the same calls since its construction or last reset in both, then
    it has produced the same samples, bit for bit, whatever else the programs
    did.  Proof: run both programs at once over pairs of samples. *)
From Coq Require Import ZArith List Lia Bool ZifyNat ZifyBool.
From Verif Require Import Arith Mem FirModel IirModel Tables ResamplerModel Wp FirKernel FirUpProof
  FirUpStage FirDownProof FirDownStage IirProof IirStage IirSseStage Stage Cascade
  ResamplerProof ResamplerOk Spec SpecOk Client Param.
Import ListNotations.
Open Scope Z_scope.

(** ** Sets of samples closed under the operations are closed under resampling

    D: samples, K: coefficients *)
Section Closed.
Context {A : arith} (D K : A -> Prop).

Record closed : Prop := {
  cl_0 : D f0;
  cl_K0 : K f0;
  cl_K1 : K f1;
  cl_add : forall a b, D a -> D b -> D (fadd a b);
  cl_sub : forall a b, D a -> D b -> D (fsub a b);
  cl_mul : forall a c, D a -> K c -> D (fmul a c);
  cl_half1 : forall a, D a -> D (fmul fhalf a);
  cl_half2 : forall a, D a -> D (fmul a fhalf) }.

Context (C : closed).

Lemma smp_all (P : A -> Prop) x k : P f0 -> Forall P x -> P (smp x k).
Proof.
  intros P0 H. unfold smp. destruct (k <? 0); [exact P0|].
  destruct (nth_in_or_default (Z.to_nat k) x f0) as [I| ->]; [|exact P0].
  rewrite Forall_forall in H. auto.
Qed.
Lemma smp_closed x k : Forall D x -> D (smp x k).
Proof. apply smp_all, C. Qed.
Lemma smp_closed_all x : (forall k, 0 <= k < size x -> D (smp x k)) -> Forall D x.
Proof.
  intros H. apply Forall_forall. intros v Hv. apply In_nth with (d := f0) in Hv. destruct Hv as (n & Hn & <-).
  specialize (H (Z.of_nat n)). unfold smp, size in H. destruct (Z.ltb_spec (Z.of_nat n) 0); [lia|].
  rewrite Nat2Z.id in H. apply H. lia.
Qed.
Lemma mac_closed n (w t : Z -> A) : (forall k, D (w k)) -> (forall k, K (t k)) -> D (mac n w t).
Proof. intros H1 H2. induction n; cbn [mac]; [apply C|]. apply C; [assumption | apply C; auto]. Qed.
Lemma vmac_closed n (w t : Z -> A) j : (forall k, D (w k)) -> (forall k, K (t k)) -> D (vmac n w t j).
Proof.
  intros H1 H2.
  assert (T : forall i, D (vterm n w t i)).
  { intros i. unfold vterm, tap0. apply C; [auto|]. destruct (_ && _); [auto | apply C]. }
  assert (L : forall s g, D (vlane n w t s g)).
  { intros s g. induction g; cbn [vlane]; [apply T | apply C; [assumption | apply T]]. }
  unfold vmac. repeat apply C; apply L.
Qed.
Lemma sum_of_closed vec n (w t : Z -> A) v : (forall k, D (w k)) -> (forall k, K (t k)) -> sum_of vec n w t v -> D v.
Proof. intros H1 H2 [->|(_ & j & _ & ->)]; [apply mac_closed | apply vmac_closed]; assumption. Qed.

Lemma coeffs_closed f md prec s : (forall d j, K (lit d j)) -> Forall K (coeffs f md prec s).
Proof.
  intros L. assert (H : forall t k, Forall K (map (fun d => lit d k) t)).
  { intros t k. apply Forall_forall. intros v Hv. apply in_map_iff in Hv. destruct Hv as (d & <- & _). apply L. }
  unfold coeffs. destruct f.
  - destruct (iir_table s prec) as [[t gd]|]; [apply H | constructor].
  - destruct (fir_table s prec) as [t|]; [apply H | constructor].
Qed.

Lemma allpass_from_closed c x1 y1 x : K c -> D x1 -> D y1 -> Forall D x -> Forall D (allpass_from c x1 y1 x).
Proof.
  intros Hc H1 H2 H. revert x1 y1 H1 H2. induction H as [|x0 x Hx _ IH]; intros x1 y1 H1 H2; cbn [allpass_from]; constructor.
  - apply C; [apply C; [apply C|]|]; assumption.
  - apply IH; [assumption|]. apply C; [apply C; [apply C|]|]; assumption.
Qed.
Lemma chain_closed cs x : Forall K cs -> Forall D x -> Forall D (chain cs x).
Proof.
  intros Hc. revert x. induction Hc as [|c cs Hc _ IH]; intros x Hx; [exact Hx|].
  change (Forall D (chain cs (allpass c x))). apply IH. apply allpass_from_closed; try assumption; apply C.
Qed.
Lemma evens_all {X} (P : X -> Prop) l : Forall P l -> Forall P (evens l) /\ Forall P (odds l).
Proof.
  revert l. fix IH 1. intros [|a [|b l]] H; cbn [evens odds].
  - auto.
  - auto.
  - inversion H as [|? ? Ha H']. inversion H' as [|? ? Hb H'']. destruct (IH l H''). auto.
Qed.
Lemma even_up_closed cs : Forall K cs -> Forall K (even_up cs).
Proof.
  intros H. unfold even_up. destruct (Nat.odd _); [|exact H]. apply Forall_app. split; [exact H|].
  constructor; [apply C | constructor].
Qed.
Lemma weave_closed x y : Forall D x -> Forall D y -> Forall D (weave x y).
Proof.
  intros H. revert y. induction H as [|a x Ha _ IH]; intros y Hy; cbn [weave]; [constructor|].
  destruct Hy as [|b y Hb Hy]; [constructor|]. constructor; [exact Ha|]. constructor; [exact Hb | auto].
Qed.
Lemma zip_closed f x y : (forall a b, D a -> D b -> D (f a b)) -> Forall D x -> Forall D y -> Forall D (zip f x y).
Proof.
  intros Hf H. revert y. induction H as [|a x Ha _ IH]; intros y Hy; cbn [zip]; [constructor|].
  destruct Hy as [|b y Hb Hy]; [constructor|]. constructor; auto.
Qed.

Lemma stage_any_closed f md prec vec s x y : Forall K (coeffs f md prec s) ->
  Forall D x -> stage_any f md prec vec s x y -> Forall D y.
Proof.
  intros Hc Hx. unfold stage_any, stage. destruct f.
  - intros ->. pose proof (even_up_closed _ Hc) as Hu.
    destruct (evens_all K _ Hc), (evens_all K _ Hu), (evens_all D _ Hx).
    destruct md, vec; unfold iir_up2_sse, iir_down2_sse, iir_up2, iir_down2.
    1, 2: apply weave_closed; now apply chain_closed.
    + apply zip_closed; [|now apply chain_closed | now apply chain_closed]. intros; apply (cl_half2 C); now apply C.
    + apply zip_closed; [|now apply chain_closed | now apply chain_closed]. intros; apply (cl_half1 C); now apply C.
  - assert (Hk : forall k, K (smp (coeffs FILTER_FIR md prec s) k)) by (intros; apply smp_all; [apply C | exact Hc]).
    destruct md; intros [L H]; apply smp_closed_all; intros k Hk'.
    + pose proof (Z.div_mod k 2 ltac:(lia)). pose proof (Z.mod_pos_bound k 2 ltac:(lia)).
      destruct (H (k / 2) ltac:(lia)) as [Hev Hod].
      destruct (Z.eq_dec (k mod 2) 0).
      * replace k with (2 * (k / 2)) by lia. eapply sum_of_closed; [| |exact Hev]; intros; [now apply smp_closed | apply Hk].
      * replace k with (2 * (k / 2) + 1) by lia. rewrite Hod. now apply smp_closed.
    + destruct (H k Hk') as (v & H1 & ->). apply C.
      * eapply sum_of_closed; [| |exact H1]; intros; [now apply smp_closed | apply Hk].
      * apply (cl_half1 C). now apply smp_closed.
Qed.

Theorem resample_any_closed f md prec vec ratio x y : (forall s, stage_no s -> Forall K (coeffs f md prec s)) ->
  Forall D x -> resample_any f md prec vec ratio x y -> Forall D y.
Proof.
  intros Hc Hx. pose proof (fun s Hs x y => stage_any_closed f md prec vec s x y (Hc s Hs)) as F.
  assert (S2 : stage_no 2) by (left; reflexivity). assert (S4 : stage_no 4) by (right; left; reflexivity).
  assert (S8 : stage_no 8) by (right; right; reflexivity).
  unfold resample_any. destruct md.
  - destruct (ratio =? 1); [now intros ->|]. destruct (ratio =? 2); [exact (F 2 S2 _ _ Hx)|]. destruct (ratio =? 4).
    + intros (a & H1 & H2). exact (F 4 S4 _ _ (F 2 S2 _ _ Hx H1) H2).
    + intros (a & b & H1 & H2 & H3). exact (F 8 S8 _ _ (F 4 S4 _ _ (F 2 S2 _ _ Hx H1) H2) H3).
  - destruct (ratio =? 1); [now intros ->|]. destruct (ratio =? 2); [exact (F 2 S2 _ _ Hx)|]. destruct (ratio =? 4).
    + intros (a & H1 & H2). exact (F 2 S2 _ _ (F 4 S4 _ _ Hx H1) H2).
    + intros (a & b & H1 & H2 & H3). exact (F 2 S2 _ _ (F 4 S4 _ _ (F 8 S8 _ _ Hx H1) H2) H3).
Qed.
End Closed.

(** ** Pairs of samples *)
Section Pairs.
Context {A : arith}.

Definition PA : arith := {|
  T := A * A;
  f0 := (f0, f0);
  f1 := (f1, f1);
  fhalf := (fhalf, fhalf);
  fadd := fun a b => (fadd (fst a) (fst b), fadd (snd a) (snd b));
  fsub := fun a b => (fsub (fst a) (fst b), fsub (snd a) (snd b));
  fmul := fun a b => (fmul (fst a) (fst b), fmul (snd a) (snd b));
  fdy := fun m e => (fdy m e, fdy m e) |}.

Definition same (p : PA) : Prop := fst p = snd p.
Definition Rfst (p : PA) (a : A) : Prop := fst p = a.
Definition Rsnd (p : PA) (a : A) : Prop := snd p = a.

Lemma same_closed : closed same same.
Proof.
  constructor; unfold same; try reflexivity.
  1-3: intros [a1 a2] [b1 b2]; cbn; intros -> ->; reflexivity.
  1-2: intros [a1 a2]; cbn; intros ->; reflexivity.
Qed.
Lemma same_lit d j : same (lit d j).
Proof. unfold lit. destruct (lit_float d j). reflexivity. Qed.
Lemma Rfst_rel : arith_rel Rfst.
Proof. constructor; unfold Rfst; try reflexivity; intros; subst; reflexivity. Qed.
Lemma Rsnd_rel : arith_rel Rsnd.
Proof. constructor; unfold Rsnd; try reflexivity; intros; subst; reflexivity. Qed.

Definition dup (l : list A) : list PA := map (fun a => (a, a) : PA) l.
Lemma len_dup l : len (dup l) = len l.
Proof. unfold len, dup. now rewrite map_length. Qed.
Lemma dup_app l b : dup (l ++ b) = dup l ++ dup b.
Proof. apply map_app. Qed.
Lemma nthZ_dup l k : nthZ (dup l) k = (nthZ l k, nthZ l k) :> PA.
Proof. unfold nthZ, dup. change (f0 (a := PA)) with ((fun a => (a, a) : PA) (f0 (a := A))). now rewrite map_nth. Qed.
Lemma dup_same l : Forall same (dup l).
Proof. unfold dup. induction l; constructor; [reflexivity | assumption]. Qed.

Lemma stage_coefs_pair f md prec s k :
  stage_coefs (A := PA) f md prec s k = (stage_coefs (A := A) f md prec s k, stage_coefs (A := A) f md prec s k).
Proof.
  assert (L : forall d j, lit (A := PA) d j = (lit (A := A) d j, lit (A := A) d j)).
  { intros d j. unfold lit. destruct (lit_float d j). reflexivity. }
  assert (N : forall (t : list dec) j i, nth_f (map (fun d => lit (A := PA) d j) t) i =
    (nth_f (map (fun d => lit (A := A) d j) t) i, nth_f (map (fun d => lit (A := A) d j) t) i)).
  { intros t j i. unfold nth_f. generalize (Z.to_nat i). induction t as [|d t IH]; intros [|n]; cbn [map nth]; auto. }
  unfold stage_coefs. destruct f.
  - destruct (iir_table s prec) as [[t gd]|]; [apply N | reflexivity].
  - destruct (fir_table s prec) as [t|]; [apply N | reflexivity].
Qed.

(** the two memories at once *)
Definition prod (m1 m2 : mem A) : mem PA := fun b i =>
  match m1 b i, m2 b i with Some v, Some w => Some (v, w) | _, _ => None end.

Lemma prod_some m1 m2 b i v w : m1 b i = Some v -> m2 b i = Some w -> prod m1 m2 b i = Some (v, w).
Proof. intros H1 H2. unfold prod. now rewrite H1, H2. Qed.
Lemma prod_mapped m1 m2 b i : m1 b i <> None -> m2 b i <> None -> prod m1 m2 b i <> None.
Proof. intros H1 H2. unfold prod. destruct (m1 b i), (m2 b i); congruence. Qed.

(** a freshly constructed or reset stage in both memories *)
Lemma sig_nil (B : arith) k : sig (A := B) [] k = f0.
Proof. unfold sig. destruct (k <? 0); [reflexivity|]. unfold nthZ. now destruct (Z.to_nat k). Qed.

Lemma impl_inv_prod i (c : Z -> A) (cc : Z -> PA) m1 m2 : impl_wf i ->
  (forall k, cc k = (c k, c k)) ->
  impl_inv i c m1 [] -> impl_inv i c m2 [] -> impl_inv i cc (prod m1 m2) [].
Proof.
  intros Wf Hc.
  assert (Tp : forall o, 2 <= f_order o -> taps_ok o c m1 -> taps_ok o c m2 -> taps_ok o cc (prod m1 m2)).
  { intros o _ [T1 T2] [T3 T4]. split; intros k Hk.
    - rewrite Hc. apply prod_some; [apply T1 | apply T3]; exact Hk.
    - assert (E : sse_tap cc (f_order o) k = (sse_tap c (f_order o) k, sse_tap c (f_order o) k)).
      { unfold sse_tap. destruct (_ && _); [apply Hc | reflexivity]. }
      rewrite E. apply prod_some; [apply T2 | apply T4]; exact Hk. }
  assert (Mp : forall p n, mapped m1 p n -> mapped m2 p n -> mapped (prod m1 m2) p n).
  { intros p n H1 H2 k Hk. apply prod_mapped; [apply H1 | apply H2]; exact Hk. }
  assert (CZ : forall B : arith, causal0 (sig (A := B) [])) by (intros B; apply sig_causal0).
  assert (CO : forall B : arith, causal0 (osig (A := B) [])).
  { intros B k Hk. unfold osig. apply sig_nil. }
  assert (CE : forall B : arith, causal0 (esig (A := B) [])).
  { intros B k Hk. unfold esig. apply sig_nil. }
  assert (Gr : forall b s (a0 a1 : A) (p0 p1 : PA), p0 = (a0, a0) -> p1 = (a1, a1) ->
    grp m1 b s a0 a1 -> grp m2 b s a0 a1 -> grp (prod m1 m2) b s p0 p1).
  { intros b s a0 a1 p0 p1 -> -> (H1 & H2 & H3 & H4) (K1 & K2 & K3 & K4).
    split; [now apply prod_some|]. split; [now apply prod_some|]. split; now apply prod_mapped. }
  assert (Xc : forall o k, xcoef o cc k = (xcoef o c k, xcoef o c k)).
  { intros o k. unfold xcoef. destruct (_ <? _); [apply Hc | reflexivity]. }
  destruct i; cbn [impl_inv impl_wf] in *.
  - intros (T1 & M1 & H1) (T2 & M2 & H2). split; [apply Tp; [lia | assumption | assumption]|]. split; [now apply Mp|].
    intros k Hk. unfold win. rewrite sig_nil. specialize (H1 k Hk). specialize (H2 k Hk).
    unfold win in H1, H2. rewrite sig_nil in H1, H2. now apply prod_some.
  - intros (T1 & M1 & M1' & H1 & H1') (T2 & M2 & M2' & H2 & H2').
    split; [apply Tp; [lia | assumption | assumption]|]. split; [now apply Mp|]. split; [now apply Mp|].
    split; intros k Hk; unfold winE, winO, esig, osig; rewrite sig_nil.
    + specialize (H1 k Hk). specialize (H2 k Hk).
      unfold winE, esig in H1, H2. rewrite sig_nil in H1, H2. now apply prod_some.
    + specialize (H1' k Hk). specialize (H2' k Hk).
      unfold winO, osig in H1', H2'. rewrite sig_nil in H1', H2'. now apply prod_some.
  - intros (C1 & S1) (C2 & S2). split; intros k Hk.
    + rewrite Hc. apply prod_some; [apply C1 | apply C2]; exact Hk.
    + specialize (S1 k Hk). specialize (S2 k Hk). cbn beta in *.
      rewrite W_neg in S1, S2 by (auto; change (len (A := A) []) with 0; lia).
      rewrite W_neg by (auto; change (len (A := PA) []) with 0; lia). now apply prod_some.
  - intros (C1 & S1) (C2 & S2). split; intros k Hk.
    + rewrite Hc. apply prod_some; [apply C1 | apply C2]; exact Hk.
    + specialize (S1 k Hk). specialize (S2 k Hk). cbn beta in *.
      rewrite W_neg in S1, S2 by (auto; change (len (A := A) []) with 0; cbn; lia).
      rewrite W_neg by (auto; change (len (A := PA) []) with 0; cbn; lia). now apply prod_some.
  - intros (C1 & S1) (C2 & S2). split; intros s Hs.
    + eapply Gr; [apply Xc | apply Xc | apply C1 | apply C2]; exact Hs.
    + specialize (S1 s Hs). specialize (S2 s Hs). cbn beta in *.
      rewrite !W_neg in S1, S2 by (auto; change (len (A := A) []) with 0; lia).
      rewrite !W_neg by (auto; change (len (A := PA) []) with 0; lia). eapply Gr; eauto; reflexivity.
  - intros (C1 & S1) (C2 & S2). split; intros s Hs.
    + eapply Gr; [apply Xc | apply Xc | apply C1 | apply C2]; exact Hs.
    + specialize (S1 s Hs). specialize (S2 s Hs). cbn beta in *.
      rewrite !W_neg in S1, S2 by (auto; change (len (A := A) []) with 0; cbn; lia).
      rewrite !W_neg by (auto; change (len (A := PA) []) with 0; cbn; lia). eapply Gr; eauto; reflexivity.
Qed.
End Pairs.

(** ** Runs of one object *)
Section Trace.
Context {A : arith} (plat : platform).
Implicit Types m : mem A.

(** the calls of one object r, and what else happened to its arrays: nothing *)
Inductive trace (r : resampler) : list (entry (A := A)) -> list A -> mem A -> Prop :=
| trace_nil m : res_S r (res_coefs r) m [] [] -> trace r [] [] m
| trace_call log out m q b z m' : trace r log out m -> call_ok plat r m q b ->
    run_call r q m = Ok (tt, m') -> len z = r_out r (len b) -> has m' (c_output q) (len z) (nthZ z) ->
    trace r (log ++ [entry_of q b]) (out ++ z) m'
| trace_frame log out m m' : trace r log out m -> (forall b i, own (r_id r) b -> m' b i = m b i) ->
    trace r log out m'.

Lemma reach_trace st m : reach plat st m -> forall id o, st id = Some o -> trace (o_res o) (o_log o) (o_out o) m.
Proof.
  induction 1 as [m | st m id md ratio prec use_sse f r m' H IH Hid Hr HT Hc
    | st m id o q b z m' H IH Hid K Hrun Lz Hz | st m id o addr m' H IH Hid AO Hrun | st m id m' H IH F | st m m' H IH F];
    intros id' o' Ho.
  - discriminate.
  - unfold set_obj in Ho. destruct (Z.eqb_spec id' id) as [->|Hne].
    + assert (o' = Obj r [] []) by congruence. subst o'. apply trace_nil.
      apply (reach_inv plat _ _ (reach_new plat st m id md ratio prec use_sse f r m' H Hid Hr HT Hc) id (Obj r [] [])).
      unfold set_obj. now rewrite Z.eqb_refl.
    + apply trace_frame with m; [eapply IH; eassumption|].
      pose proof (obj_ok_id plat _ _ _ (reach_inv plat _ _ H _ _ Ho)) as ->.
      pose proof (construct_ok plat id md ratio prec use_sse f m Hr HT) as R. unfold runs in R. rewrite Hc in R.
      destruct R as (_ & _ & _ & F). intros b i Hb. apply F. intros Hb'. apply Hne, (own_disj _ _ b Hb Hb').
  - unfold set_obj in Ho. destruct (Z.eqb_spec id' id) as [->|Hne].
    + assert (o' = obj_call o q b z) by congruence. subst o'. cbn [obj_call o_res o_log o_out].
      eapply trace_call; try eassumption. eapply IH; eassumption.
    + apply trace_frame with m; [eapply IH; eassumption|].
      pose proof (obj_ok_id plat _ _ _ (reach_inv plat _ _ H _ _ Ho)) as ->.
      pose proof (call_runs plat id o m q b (reach_inv plat _ _ H _ _ Hid) K) as R. unfold runs in R. rewrite Hrun in R.
      destruct R as (y0 & _ & _ & _ & F). intros b' i Hb. destruct (own_not_user _ _ Hb) as [Nu Ns]. apply F.
      * intros Hb'. apply Hne, (own_disj _ _ b' Hb Hb').
      * exact Ns.
      * intros [-> _]. apply Nu, K.
  - pose proof (reach_inv plat _ _ H _ _ Hid) as Hok. pose proof (obj_ok_id _ _ _ _ Hok) as E.
    destruct Hok as (_ & _ & _ & H4 & H5).
    pose proof (reset_ok addr (o_res o) (res_coefs (o_res o)) m _ _ AO H4 H5) as R.
    unfold runs in R. rewrite Hrun in R. destruct R as (S & F). rewrite E in F.
    unfold set_obj in Ho. destruct (Z.eqb_spec id' id) as [->|Hne].
    + assert (o' = Obj (o_res o) [] []) by congruence. subst o'. now apply trace_nil.
    + apply trace_frame with m; [eapply IH; eassumption|].
      pose proof (obj_ok_id plat _ _ _ (reach_inv plat _ _ H _ _ Ho)) as ->.
      intros b' i Hb. apply F. intros Hb'. apply Hne, (own_disj _ _ b' Hb Hb').
  - unfold set_obj in Ho. destruct (Z.eqb_spec id' id) as [->|Hne]; [discriminate|].
    apply trace_frame with m; [eapply IH; eassumption|].
    pose proof (obj_ok_id plat _ _ _ (reach_inv plat _ _ H _ _ Ho)) as ->.
    intros b' i Hb. apply F. intros Hb'. apply Hne, (own_disj _ _ b' Hb Hb').
  - apply trace_frame with m; [eapply IH; eassumption|].
    intros b i Hb. apply F; apply (own_not_user _ _ Hb).
Qed.

Lemma trace_nil_inv r out m : good r -> trace r [] out m -> out = [] /\ res_S r (res_coefs r) m [] [].
Proof.
  intros G H. remember [] as log eqn:E. revert E.
  induction H as [m S | log out m q b z m' _ _ K Hrun Lz Hz | log out m m' _ IH F]; intros E.
  - auto.
  - destruct log; discriminate.
  - destruct (IH E) as [-> S]. split; [reflexivity|]. eapply res_S_owned; eassumption.
Qed.

Lemma trace_snoc_inv r log e out m : trace r (log ++ [e]) out m ->
  exists out0 m0 q b z m1, trace r log out0 m0 /\ call_ok plat r m0 q b /\ run_call r q m0 = Ok (tt, m1) /\
    len z = r_out r (len b) /\ has m1 (c_output q) (len z) (nthZ z) /\
    e = entry_of q b /\ out = out0 ++ z /\ (forall b i, own (r_id r) b -> m b i = m1 b i).
Proof.
  intros H. remember (log ++ [e]) as log1 eqn:E. revert log e E.
  induction H as [m S | log1 out m q b z m' H _ K Hrun Lz Hz | log1 out m m' _ IH F]; intros log e E.
  - destruct log; discriminate.
  - apply app_inj_tail in E. destruct E as [-> <-]. exists out, m, q, b, z, m'. repeat (split; [assumption|]).
    split; [reflexivity|]. split; reflexivity.
  - destruct (IH _ _ E) as (out0 & m0 & q & b & z & m1 & H1 & H2 & H3 & H4 & H5 & H6 & H7 & H8).
    exists out0, m0, q, b, z, m1. repeat (split; [assumption|]). intros b' i Hb. rewrite F by exact Hb. auto.
Qed.
End Trace.

Section Twin.
Context {A : arith} (plat : platform).
Implicit Types m : mem A.

(** two calls that look the same to the object *)
Definition same_entry (e1 e2 : entry (A := A)) : Prop :=
  e_input e1 = e_input e2 /\ e_output e1 = e_output e2 /\ e_block e1 = e_block e2 /\
  forall p, aligned16 (e_addr e1) p = aligned16 (e_addr e2) p.

Definition ownb (id : Z) (b : blk) : bool :=
  match tag_of b with Some t => t / 16 =? id | None => false end.
Lemma ownb_spec id b : ownb id b = true <-> own id b.
Proof.
  unfold ownb, own. destruct (tag_of b) as [t|].
  - rewrite Z.eqb_eq. split.
    + intros E. exists (t - 16 * id). pose proof (Z.div_mod t 16). pose proof (Z.mod_pos_bound t 16).
      split; [lia | f_equal; lia].
    + intros (s & Hs & E). assert (t = 16 * id + s) by congruence. subst t. symmetry.
      apply Z.div_unique with s; lia.
  - split; [discriminate|]. intros (s & _ & E). discriminate.
Qed.

Variables (r : resampler) (id0 : Z).
Hypotheses (B : r = built plat id0 (r_mode r) (r_ratio r) (r_prec r) (r_use_sse r) (r_filter r))
  (Hr : ratio_no (r_ratio r)) (HT : 2 <= r_ratio r -> has_tables (r_filter r) (r_prec r)) (G : good r).

Definition twin (l out1 out2 : list A) m1 m2 : Prop :=
  exists (P : mem PA) (ys : list PA),
    (forall b i, own (r_id r) b -> cellR Rfst (P b i) (m1 b i) /\ cellR Rsnd (P b i) (m2 b i)) /\
    res_S r (res_coefs r) P (dup l) ys /\ map fst ys = out1 /\ map snd ys = out2.

Lemma twin_eq l out1 out2 m1 m2 : twin l out1 out2 m1 m2 -> out1 = out2.
Proof.
  intros (P & ys & _ & S & <- & <-). apply map_ext_Forall.
  apply (resample_any_closed same same same_closed (r_filter r) (r_mode r) (r_prec r)
    (vector plat (r_filter r) (r_use_sse r)) (r_ratio r) (dup l)); [intros s _; apply coeffs_closed, same_lit | apply dup_same |].
  apply (built_resample_any plat id0); [exact Hr | exact HT |]. rewrite <- B.
  eapply res_S_R, S.
Qed.

Lemma cell_prod m1 m2 b i : cellR (B := A) Rfst (prod m1 m2 b i) (m1 b i) /\ cellR (B := A) Rsnd (prod m1 m2 b i) (m2 b i).
Proof.
  unfold prod. destruct (m1 b i) as [v|], (m2 b i) as [w|]; cbn; split; try exact I.
  - now exists v.
  - now exists w.
Qed.

Lemma impl_S_prod i c (cc : Z -> PA) m1 m2 : impl_wf i -> (forall k, cc k = (c k, c k)) ->
  forall l1 y1 l2 y2, l1 = [] -> l2 = [] -> impl_S i c m1 l1 y1 -> impl_S i c m2 l2 y2 -> impl_S i cc (prod m1 m2) [] [].
Proof.
  intros W Hc l1 y1 l2 y2 -> -> [I1 R1] [I2 R2]. split; [|apply impl_rel_nil]. eapply impl_inv_prod; eassumption.
Qed.

Lemma len_nil {X} (l : list X) : length l = 0%nat -> l = [].
Proof. destruct l; [reflexivity | discriminate]. Qed.

Lemma oS_nil oi s c m l y : stage_good r s oi -> oS (A := A) oi c m l y -> l = [] -> y = [].
Proof.
  intros (i & -> & _ & _ & _) [_ Q] ->. apply impl_rel_len in Q. apply len_nil. unfold len in Q. cbn [length] in Q.
  destruct (impl_mode i); lia.
Qed.

Lemma res_S_nil_stages m : res_S r (res_coefs r) m [] [] ->
  (2 <= r_ratio r -> oS (impl_x2 r) (res_coefs r 2) m [] []) /\ (4 <= r_ratio r -> oS (impl_x4 r) (res_coefs r 4) m [] []) /\
  (8 <= r_ratio r -> oS (impl_x8 r) (res_coefs r 8) m [] []).
Proof.
  destruct G as (_ & G2 & G4 & G8). unfold res_S.
  destruct (Z.eqb_spec (r_ratio r) 1); [intros _; repeat split; lia|].
  destruct (Z.eqb_spec (r_ratio r) 2); [intros H; repeat split; intros; try lia; assumption|].
  assert (G2' := G2 ltac:(destruct Hr; lia)). assert (G4' := G4 ltac:(destruct Hr as [?|[?|[?|?]]]; lia)).
  destruct (r_mode r), (Z.eqb_spec (r_ratio r) 4).
  - intros (z & H1 & H2). pose proof (oS_nil _ _ _ _ _ _ G2' H1 eq_refl). subst z. repeat split; intros; try lia; assumption.
  - assert (G8' := G8 ltac:(destruct Hr as [?|[?|[?|?]]]; lia)).
    intros (z & (w & H0 & H1) & H2). pose proof (oS_nil _ _ _ _ _ _ G2' H0 eq_refl). subst w.
    pose proof (oS_nil _ _ _ _ _ _ G4' H1 eq_refl). subst z. repeat split; intros; assumption.
  - intros (z & H1 & H2). pose proof (oS_nil _ _ _ _ _ _ G4' H1 eq_refl). subst z. repeat split; intros; try lia; assumption.
  - assert (G8' := G8 ltac:(destruct Hr as [?|[?|[?|?]]]; lia)).
    intros (z & (w & H0 & H1) & H2). pose proof (oS_nil _ _ _ _ _ _ G8' H0 eq_refl). subst w.
    pose proof (oS_nil _ _ _ _ _ _ G4' H1 eq_refl). subst z. repeat split; intros; assumption.
Qed.

Lemma twin_start m1 m2 : res_S r (res_coefs r) m1 [] [] -> res_S r (res_coefs r) m2 [] [] -> twin [] [] [] m1 m2.
Proof.
  intros S1 S2. exists (prod m1 m2), []. split; [intros; apply cell_prod|]. split; [|split; reflexivity].
  destruct (res_S_nil_stages _ S1) as (A2 & A4 & A8). destruct (res_S_nil_stages _ S2) as (B2 & B4 & B8).
  destruct G as (_ & G2 & G4 & G8).
  assert (K : forall s oi, stage_good r s oi -> oS oi (res_coefs r s) m1 [] [] -> oS oi (res_coefs r s) m2 [] [] ->
    oS (A := PA) oi (res_coefs r s) (prod m1 m2) [] []).
  { intros s oi (i & -> & _ & _ & W) Q1 Q2. cbn [oS] in *. eapply impl_S_prod; try eassumption; try reflexivity.
    intros k. apply stage_coefs_pair. }
  apply stages_res_S; auto.
Qed.

Lemma twin_call l out1 out2 m1 m2 q1 q2 b z1 z2 m1' m2' :
  twin l out1 out2 m1 m2 -> call_ok plat r m1 q1 b -> call_ok plat r m2 q2 b ->
  run_call r q1 m1 = Ok (tt, m1') -> run_call r q2 m2 = Ok (tt, m2') ->
  c_input q1 = c_input q2 -> c_output q1 = c_output q2 -> (forall p, aligned16 (c_addr q1) p = aligned16 (c_addr q2) p) ->
  len z1 = r_out r (len b) -> len z2 = r_out r (len b) ->
  has m1' (c_output q1) (len z1) (nthZ z1) -> has m2' (c_output q2) (len z2) (nthZ z2) ->
  twin (l ++ b) (out1 ++ z1) (out2 ++ z2) m1' m2'.
Proof.
  intros (P & ys & CP & S & E1 & E2) K1 K2 R1 R2 Ei Eo Al L1 L2 Z1 Z2.
  set (P2 := fun b i => if ownb (r_id r) b then P b i else prod m1 m2 b i).
  assert (M1 : memR Rfst P2 m1).
  { intros b' i. unfold P2. destruct (ownb (r_id r) b') eqn:O; [apply CP, ownb_spec, O | apply cell_prod]. }
  assert (M2 : memR Rsnd P2 m2).
  { intros b' i. unfold P2. destruct (ownb (r_id r) b') eqn:O; [apply CP, ownb_spec, O | apply cell_prod]. }
  assert (U : forall b' i, is_user b' -> P2 b' i = prod m1 m2 b' i).
  { intros b' i [k ->]. reflexivity. }
  set (g := fun n k j => (c_garbage q1 n k j, c_garbage q2 n k j) : PA).
  assert (Es : res_slack r = r_over plat r).
  { rewrite B at 1. apply built_slack; assumption. }
  assert (Ez : res_okn r (len b)).
  { rewrite B. apply built_size_ok; [assumption | assumption | apply K1]. }
  assert (Eip : in_place_ok (vector plat (r_filter r) (r_use_sse r)) (r_filter r) (r_mode r) (r_ratio r) -> res_ip r).
  { intros D. rewrite B. apply built_ip; assumption. }
  pose proof (process_block_ok (A := PA) (c_addr q1) (c_ndebug q1) g r (res_coefs r)
      (co_addr _ _ _ _ _ K1) G P2 (dup l) ys (dup b) (c_input q1) (c_output q1)) as Run.
  rewrite len_dup, Es in Run.
  assert (S' : res_S r (res_coefs r) P2 (dup l) ys).
  { eapply res_S_owned; [exact G | | exact S]. intros b' i Hb. unfold P2. apply ownb_spec in Hb. now rewrite Hb. }
  specialize (Run S' I Ez). apply runs_inv in Run.
  - destruct Run as ([] & P' & RP & _ & y & Ly & SP & Hy & _).
    pose proof (MR_process_block Rfst Rfst_rel (c_addr q1) (c_addr q1) (c_ndebug q1) (c_ndebug q1)
      (fun _ => eq_refl) g (c_garbage q1) r (c_input q1) (len b) (c_output q1) ltac:(reflexivity) P2 m1 M1) as Q1.
    pose proof (MR_process_block Rsnd Rsnd_rel (c_addr q1) (c_addr q2) (c_ndebug q1) (c_ndebug q2)
      Al g (c_garbage q2) r (c_input q1) (len b) (c_output q1) ltac:(reflexivity) P2 m2 M2) as Q2.
    rewrite RP in Q1, Q2. unfold run_call in R1, R2. rewrite (co_n _ _ _ _ _ K1) in R1. rewrite (co_n _ _ _ _ _ K2) in R2.
    rewrite <- Ei, <- Eo in R2. rewrite R1 in Q1. rewrite R2 in Q2. destruct Q1 as [_ Q1]. destruct Q2 as [_ Q2].
    exists P', (ys ++ y). split; [intros b' i _; split; [apply Q1 | apply Q2]|]. split; [rewrite dup_app; exact SP|].
    change (res_outn r (len b)) with (r_out r (len b)) in Ly.
    split; (etransitivity; [apply map_app|]); [rewrite <- E1 | rewrite <- E2]; f_equal.
    + apply nthZ_ext; [unfold len in *; rewrite map_length; lia|]. intros k Hk.
      assert (Hk' : 0 <= k < len y) by (unfold len in *; rewrite map_length in Hk; exact Hk).
      specialize (Q1 (pb (c_output q1)) (po (c_output q1) + k)). rewrite (Hy k Hk') in Q1. destruct Q1 as (w & Qw & Rw).
      rewrite (Z1 k ltac:(lia)) in Qw. replace (nthZ z1 k) with w by congruence. unfold Rfst in Rw. rewrite <- Rw.
      unfold nthZ. change (f0 (a := A)) with (fst (f0 (a := PA (A := A)))). apply (map_nth (fst (A := A) (B := A))).
    + apply nthZ_ext; [unfold len in *; rewrite map_length; lia|]. intros k Hk.
      assert (Hk' : 0 <= k < len y) by (unfold len in *; rewrite map_length in Hk; exact Hk).
      specialize (Q2 (pb (c_output q1)) (po (c_output q1) + k)). rewrite (Hy k Hk') in Q2. destruct Q2 as (w & Qw & Rw).
      rewrite Eo, (Z2 k ltac:(lia)) in Qw. replace (nthZ z2 k) with w by congruence. unfold Rsnd in Rw. rewrite <- Rw.
      unfold nthZ. change (f0 (a := A)) with (snd (f0 (a := PA (A := A)))). apply (map_nth (snd (A := A) (B := A))).
  - split; [apply K1|]. intros _. split; apply (co_stack _ _ _ _ _ K1); auto.
  - split; [apply K1|]. intros _. split; apply (co_stack _ _ _ _ _ K1); auto.
  - intros k Hk. rewrite U by apply K1. rewrite nthZ_dup. apply prod_some; [apply K1; exact Hk|].
    rewrite Ei. apply K2. exact Hk.
  - intros k Hk. cbn [padd pb po]. rewrite U by apply K1. apply prod_mapped; [apply (co_slack _ _ _ _ _ K1 k Hk)|].
    rewrite Ei. apply (co_slack _ _ _ _ _ K2 k Hk).
  - intros k Hk. rewrite U by apply K1. apply prod_mapped; [apply (co_out _ _ _ _ _ K1 k Hk)|].
    rewrite Eo. apply (co_out _ _ _ _ _ K2 k Hk).
  - destruct (co_disj _ _ _ _ _ K1) as [D|[D1 D2]]; [left; exact D | right; split; [apply Eip, D1 | exact D2]].
  - intros L. destruct (co_sep _ _ _ _ _ K1 L) as [D|[D1 D2]]; [left; exact D | right; split; [apply Eip, D1 | exact D2]].
Qed.

Lemma trace_twin log1 out1 m1 : trace plat r log1 out1 m1 -> forall log2 out2 m2, trace plat r log2 out2 m2 ->
  Forall2 same_entry log1 log2 -> twin (concat (map e_block log1)) out1 out2 m1 m2.
Proof.
  induction 1 as [m1 S1 | log1 out1 m1 q1 b z1 m1' H1 IH K1 R1 L1 Z1 | log1 out1 m1 m1' _ IH F]; intros log2 out2 m2 H2 E.
  - inversion E; subst log2. destruct (trace_nil_inv _ _ _ _ G H2) as [-> S2].
    now apply twin_start.
  - apply Forall2_app_inv_l in E. destruct E as (log2' & t & E & Et & ->). inversion Et as [|? e2 ? ? Ee Et' Eq1 Eq2]; subst.
    inversion Et'; subst. apply trace_snoc_inv in H2.
    destruct H2 as (out0 & m0 & q2 & b2 & z2 & m2' & H2 & K2 & R2 & L2 & Z2 & -> & -> & F2).
    destruct Ee as (Ei & Eo & Eb & Al). cbn [entry_of e_input e_output e_block e_addr] in Ei, Eo, Eb, Al. subst b2.
    rewrite map_app, concat_app. cbn [map concat entry_of e_block]. rewrite app_nil_r.
    pose proof (twin_call _ _ _ _ _ _ _ _ _ _ _ _ (IH _ _ _ H2 E) K1 K2 R1 R2 Ei Eo Al L1 L2 Z1 Z2) as (P & ys & CP & Q).
    exists P, ys. split; [|exact Q]. intros b' i Hb. rewrite F2 by exact Hb. auto.
  - destruct (IH _ _ _ H2 E) as (P & ys & CP & Q). exists P, ys. split; [|exact Q].
    intros b i Hb. rewrite F by exact Hb. auto.
Qed.
End Twin.

Theorem reach_det {A : arith} plat st1 (m1 : mem A) st2 m2 id1 id2 o1 o2 :
  reach plat st1 m1 -> reach plat st2 m2 -> st1 id1 = Some o1 -> st2 id2 = Some o2 ->
  o_res o1 = o_res o2 -> Forall2 same_entry (o_log o1) (o_log o2) -> o_out o1 = o_out o2.
Proof.
  intros H1 H2 E1 E2 Er El. destruct (reach_inv plat _ _ H1 _ _ E1) as (Q1 & Q2 & Q3 & Q4 & _).
  eapply (twin_eq plat (o_res o1) id1 Q1 Q2 Q3). eapply (trace_twin plat (o_res o1) id1 Q1 Q2 Q3 Q4).
  - exact (reach_trace plat _ _ H1 _ _ E1).
  - rewrite Er. exact (reach_trace plat _ _ H2 _ _ E2).
  - exact El.
Qed.

(** ** Programs that construct one object and call it, nothing else *)
Section Alone.
Context {A : arith} (plat : platform).
Implicit Types m : mem A.

Inductive alone (id : Z) : obj (A := A) -> mem A -> Prop :=
| alone_new m md ratio prec use_sse f r m' :
    construct plat id md ratio prec use_sse f m = Ok ((r, true), m') ->
    alone id (Obj r [] []) m'
| alone_call o m q b z m' : alone id o m ->
    call_ok plat (o_res o) m q b -> run_call (o_res o) q m = Ok (tt, m') ->
    len z = r_out (o_res o) (len b) -> has m' (c_output q) (len z) (nthZ z) ->
    alone id (obj_call o q b z) m'
| alone_client o m m' : alone id o m ->
    (forall b i, ~ is_user b -> ~ scratch b -> m' b i = m b i) ->
    alone id o m'.

Lemma trace_alone id r log out m : r_id r = id ->
  r = built plat id (r_mode r) (r_ratio r) (r_prec r) (r_use_sse r) (r_filter r) ->
  ratio_no (r_ratio r) -> (2 <= r_ratio r -> has_tables (r_filter r) (r_prec r)) ->
  trace plat r log out m ->
  exists st m' o, reach plat st m' /\ (forall j, j <> id -> st j = None) /\ st id = Some o /\
    o_res o = r /\ o_log o = log /\ alone id o m'.
Proof.
  intros Eid B Hr HT H. induction H as [m S | log out m q b z m' H IH K Hrun Lz Hz | log out m m' H IH F].
  - destruct (reach_new_progress (A := A) plat (fun _ => None) (fun _ _ => None) id (r_mode r) (r_ratio r) (r_prec r)
      (r_use_sse r) (r_filter r) (reach_init plat _) eq_refl Hr HT) as (m' & Hc & _ & R).
    rewrite <- B in R, Hc. eexists _, m', _. split; [exact R|]. split; [|split].
    + intros j Hj. unfold set_obj. destruct (Z.eqb_spec j id); [contradiction | reflexivity].
    + unfold set_obj. now rewrite Z.eqb_refl.
    + split; [reflexivity|]. split; [reflexivity|]. eapply alone_new, Hc.
  - destruct IH as (st & m1 & o & R & Ot & E & Er & El & Al).
    set (m2 := fun b i => match b with User _ => m b i | _ => m1 b i end).
    assert (Cl : forall b i, ~ is_user b -> ~ scratch b -> m2 b i = m1 b i).
    { intros b' i Nu _. unfold m2. destruct b'; try reflexivity. exfalso. apply Nu. now eexists. }
    assert (Us : forall b i, is_user b -> m2 b i = m b i) by (intros b' i [k ->]; reflexivity).
    assert (K2 : call_ok plat (o_res o) m2 q b).
    { rewrite Er. destruct K. constructor; try assumption; intros k Hk; cbn [padd pb po]; rewrite Us by assumption; auto. }
    pose proof (reach_client plat _ _ _ R Cl) as R2.
    destruct (reach_call_progress plat st m2 id o q b R2 E K2) as (m3 & z3 & Hrun3 & L3 & H3 & _ & R3).
    eexists _, m3, _. split; [exact R3|]. split; [|split].
    + intros j Hj. unfold set_obj. destruct (Z.eqb_spec j id); [contradiction | auto].
    + unfold set_obj. now rewrite Z.eqb_refl.
    + split; [exact Er|]. split; [cbn; now rewrite El|].
      eapply alone_call with (m := m2); try eassumption. eapply alone_client; eassumption.
  - exact IH.
Qed.

Lemma same_entry_refl (e : entry (A := A)) : same_entry e e.
Proof. repeat split. Qed.

Theorem reach_alone st m id o : reach plat st m -> st id = Some o -> exists m', alone id o m'.
Proof.
  intros H E. pose proof (reach_inv plat _ _ H _ _ E) as Hok. pose proof (obj_ok_id _ _ _ _ Hok) as Eid.
  destruct Hok as (B & Hr & HT & G & S).
  destruct (trace_alone id _ _ _ _ Eid B Hr HT (reach_trace plat _ _ H _ _ E)) as (st' & m' & o' & R & _ & E' & Er & El & Al).
  assert (Eo : o_out o' = o_out o).
  { eapply (reach_det plat st' m' st m id id); try eassumption. rewrite El.
    clear. induction (o_log o); constructor; auto using same_entry_refl. }
  exists m'. destruct o, o'. cbn in *. subst. exact Al.
Qed.

(** earlier outputs do not depend on later calls *)
Lemma trace_prefix r l1 l2 out m : trace plat r (l1 ++ l2) out m ->
  exists out1 out2 m1, out = out1 ++ out2 /\ trace plat r l1 out1 m1.
Proof.
  revert out m. induction l2 as [|e l2 IH] using rev_ind; intros out m H.
  - rewrite app_nil_r in H. exists out, [], m. now rewrite app_nil_r.
  - rewrite app_assoc in H. apply trace_snoc_inv in H.
    destruct H as (out0 & m0 & q & b & z & m1 & H & _ & _ & _ & _ & _ & -> & _).
    destruct (IH _ _ H) as (o1 & o2 & m2 & -> & T). exists o1, (o2 ++ z), m2. now rewrite app_assoc.
Qed.

Theorem reach_prefix st1 m1 st2 m2 id o1 o2 l1 l2 t1 t2 :
  reach plat st1 m1 -> reach plat st2 m2 -> st1 id = Some o1 -> st2 id = Some o2 ->
  o_res o1 = o_res o2 -> o_log o1 = l1 ++ t1 -> o_log o2 = l2 ++ t2 -> Forall2 same_entry l1 l2 ->
  exists y z1 z2, o_out o1 = y ++ z1 /\ o_out o2 = y ++ z2 /\
    size y = out_size (r_mode (o_res o1)) (r_ratio (o_res o1)) (size (concat (map e_block l1))).
Proof.
  intros H1 H2 E1 E2 Er L1 L2 F. pose proof (reach_inv plat _ _ H1 _ _ E1) as Hok. pose proof (obj_ok_id _ _ _ _ Hok) as Eid.
  destruct Hok as (B & Hr & HT & G & S).
  pose proof (reach_trace plat _ _ H1 _ _ E1) as T1. pose proof (reach_trace plat _ _ H2 _ _ E2) as T2.
  rewrite L1 in T1. rewrite L2, <- Er in T2. apply trace_prefix in T1, T2.
  destruct T1 as (y1 & z1 & n1 & O1 & T1). destruct T2 as (y2 & z2 & n2 & O2 & T2).
  pose proof (trace_twin plat _ id B Hr HT G _ _ _ T1 _ _ _ T2 F) as Tw.
  pose proof (twin_eq plat _ id B Hr HT _ _ _ _ _ Tw) as <-.
  exists y1, z1, z2. split; [exact O1|]. split; [exact O2|].
  destruct (trace_alone id _ _ _ _ Eid B Hr HT T1) as (st' & m' & o' & R & _ & E' & Er' & El & _).
  pose proof (reach_trace plat _ _ R _ _ E') as T'. rewrite Er', El in T'.
  assert (FR : Forall2 same_entry l1 l1) by (clear; induction l1; constructor; auto using same_entry_refl).
  pose proof (trace_twin plat _ id B Hr HT G _ _ _ T' _ _ _ T1 FR) as Tw'.
  pose proof (twin_eq plat _ id B Hr HT _ _ _ _ _ Tw') as Eo. rewrite <- Eo.
  pose proof (reach_resample_any plat _ _ _ _ R E') as RA. cbn zeta in RA. rewrite Er' in RA.
  unfold o_in in RA. rewrite El in RA.
  (* lengths *)
  destruct Tw' as (P & ys & _ & SP & E1' & _). apply res_S_R in SP.
  clear - RA Hr. eapply resample_any_size; eassumption.
Qed.
End Alone.
