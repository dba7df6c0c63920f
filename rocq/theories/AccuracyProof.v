(** * Runs of the accuracy test: no error, and what the largest difference is *)
From Coq Require Import ZArith Reals List Lia Lra Bool ZifyNat ZifyBool.
From Flocq Require Import Core BinarySingleNaN.
From Verif Require Import Arith ArithR ArithF Mem FirModel IirModel Tables ResamplerModel Wp Stage Cascade
  ResamplerProof ResamplerOk Spec SpecOk Client Feed StreamFacts DelayFacts ConfigFacts Tones AccuracyModel.
Import ListNotations.
Open Scope Z_scope.
Open Scope m_scope.

(** ** Commands that may run out of fuel, but only if t is false *)
Section Goes.
Context {A : arith}.
Implicit Types m : mem A.
Definition goes {X} (t : Prop) (c : M A X) m (Q : X -> mem A -> Prop) : Prop :=
  match c m with Ok (x, m') => Q x m' | Err OutOfFuel => ~ t | Err _ => False end.

Lemma goes_ret {X} t (x : X) m (Q : X -> mem A -> Prop) : Q x m -> goes t (ret x) m Q.
Proof. exact (fun h => h). Qed.
Lemma goes_bind {X Y} t (c : M A X) (k : X -> M A Y) m (Q : Y -> mem A -> Prop) :
  goes t c m (fun x m' => goes t (k x) m' Q) -> goes t (bind c k) m Q.
Proof. unfold goes, bind. destruct (c m) as [[x m']|[]]; auto. Qed.
Lemma goes_mono {X} t (c : M A X) m (P Q : X -> mem A -> Prop) :
  goes t c m P -> (forall x m', P x m' -> Q x m') -> goes t c m Q.
Proof. unfold goes. destruct (c m) as [[x m']|[]]; auto. Qed.
Lemma goes_eq {X} t (c : M A X) m x m' (Q : X -> mem A -> Prop) : c m = Ok (x, m') -> Q x m' -> goes t c m Q.
Proof. unfold goes. intros ->. auto. Qed.
Lemma goes_load t p m v (Q : A -> mem A -> Prop) : m (pb p) (po p) = Some v -> Q v m -> goes t (load p) m Q.
Proof. unfold goes, load. intros ->. auto. Qed.
Lemma goes_store t p v m (Q : unit -> mem A -> Prop) :
  m (pb p) (po p) <> None -> Q tt (upd m (pb p) (po p) v) -> goes t (store p v) m Q.
Proof. unfold goes, store. destruct (m (pb p) (po p)); auto; congruence. Qed.
Lemma goes_for {X} t (Inv : Z -> X -> mem A -> Prop) n i (body : Z -> X -> M A X) x m (Q : X -> mem A -> Prop) :
  Inv i x m ->
  (forall k y m', i <= k < i + Z.of_nat n -> Inv k y m' -> goes t (body k y) m' (Inv (k + 1))) ->
  (forall y m', Inv (i + Z.of_nat n) y m' -> Q y m') ->
  goes t (for_up n i body x) m Q.
Proof.
  revert i x m. induction n as [|n IH]; intros i x m Hi Hb HQ; cbn [for_up].
  - apply goes_ret, HQ. now rewrite Z.add_0_r.
  - apply goes_bind. apply (goes_mono _ _ _ (Inv (i + 1))).
    + apply Hb; [lia | exact Hi].
    + intros y m' Hy. apply IH; [exact Hy | |].
      * intros k z m'' Hk. apply Hb. lia.
      * intros z m'' Hz. apply HQ. now replace (i + Z.of_nat (S n)) with (i + 1 + Z.of_nat n) by lia.
Qed.
(** the invariant knows how many iterations are left *)
Lemma goes_while {X} t (Inv : nat -> X -> mem A -> Prop) n cond (body : X -> M A X) x m (Q : X -> mem A -> Prop) :
  Inv n x m ->
  (forall y m', Inv O y m' -> cond y = true -> ~ t) ->
  (forall k y m', Inv (S k) y m' -> cond y = true -> goes t (body y) m' (Inv k)) ->
  (forall k y m', Inv k y m' -> cond y = false -> Q y m') ->
  goes t (while n cond body x) m Q.
Proof.
  intros H H0 HS HQ. revert x m H. induction n as [|n IH]; intros x m H; cbn [while]; destruct (cond x) eqn:C.
  - unfold goes, fail. eapply H0; eassumption.
  - apply goes_ret. eapply HQ; eassumption.
  - apply goes_bind. eapply goes_mono; [eapply HS; eassumption|]. intros y m' Hy. now apply IH.
  - apply goes_ret. eapply HQ; eassumption.
Qed.
(** reading *)
Lemma goes_ok {X} (t : Prop) (c : M A X) m (Q : X -> mem A -> Prop) : goes t c m Q -> t -> exists x m', c m = Ok (x, m') /\ Q x m'.
Proof. unfold goes. destruct (c m) as [[x m']|[]]; try tauto. eauto. Qed.
Lemma goes_partial {X} (t : Prop) (c : M A X) m (Q : X -> mem A -> Prop) : goes t c m Q ->
  match c m with Ok (x, m') => Q x m' | Err e => e = OutOfFuel end.
Proof. unfold goes. destruct (c m) as [[x m']|[]]; tauto. Qed.
End Goes.

(** ** Phases *)
Definition phase_is (t : Prop) (w : R) (n : Z) (p : R) : Prop :=
  (exists z, p = w * IZR n - 2 * PI * IZR z)%R /\ (t -> 0 <= p <= 2 * PI)%R.
Lemma phase_sin t w n p c : phase_is t w n p -> sin (p - c) = sin (w * IZR n - c).
Proof.
  intros [[z ->] _]. replace (w * IZR n - 2 * PI * IZR z - c)%R with (w * IZR n - c + 2 * IZR (- z) * PI)%R by (rewrite opp_IZR; ring).
  apply sin_2kpi.
Qed.
Lemma phase_sin0 t w n p : phase_is t w n p -> sin p = sin (w * IZR n).
Proof. intros H. pose proof (phase_sin t w n p 0 H) as E. now rewrite !Rminus_0_r in E. Qed.
Lemma phase_0 t w : phase_is t w 0 0.
Proof. split; [exists 0; lra|]. intros _. pose proof PI_RGT_0. lra. Qed.

Lemma wrap_goes {A : arith} (t : Prop) w n p (m : mem A) : phase_is t w n p -> (t -> (0 <= w <= 4 * PI)%R) ->
  goes t (wrap (A := A) (p + w)) m (fun q m' => phase_is t w (n + 1) q /\ m' = m).
Proof.
  intros [[z E] B] HW. pose proof PI_RGT_0 as P. unfold wrap.
  apply goes_while with (Inv := fun k q m' => m' = m /\ (exists z, q = w * IZR (n + 1) - 2 * PI * IZR z)%R /\
    (t -> 0 <= q <= 2 * PI * (1 + INR k))%R).
  - split; [reflexivity|]. split; [exists z; rewrite E, plus_IZR; ring|]. intros T. specialize (B T). specialize (HW T). cbn [INR]. lra.
  - intros q m' (_ & _ & H) C T. specialize (H T). cbn [INR] in H. destruct (Rlt_dec (2 * PI) q); [lra | discriminate].
  - intros k q m' (-> & [z' Eq] & H) C. destruct (Rlt_dec (2 * PI) q); [|discriminate]. apply goes_ret. split; [reflexivity|].
    split; [exists (z' + 1); rewrite Eq, (plus_IZR z'); ring|]. intros T. specialize (H T). rewrite S_INR in H. lra.
  - intros k q m' (-> & [z' Eq] & H) C. destruct (Rlt_dec (2 * PI) q); [discriminate|]. split; [|reflexivity].
    split; [now exists z'|]. intros T. specialize (H T). lra.
Qed.

(** ** The test *)
Section Run.
Context {A : arith} (plat : platform) (to_float : R -> A) {Seen : Type} (look : Z -> A -> R -> Seen -> Seen).
Context (rnd : Z -> Z) (garbage : Z -> Z -> Z -> Z -> Z -> A) (ndebug : bool) (fuel : nat).
Context (rt : resample_type) (addr : blk -> Z) (idu idd : Z) (p : Z) (use_sse : bool) (block_size : Z).
Implicit Types m : mem A.

Notation U := (built plat idu UP 2 p use_sse FILTER_FIR).
Notation D := (built plat idd DOWN 2 p use_sse FILTER_FIR).

(** x went in and y came out *)
Definition streams (st : state (A := A)) (x y : list A) : Prop :=
  exists ou od, st idu = Some ou /\ st idd = Some od /\ o_res ou = U /\ o_res od = D /\
    match rt with
    | RES_UPSAMPLE => o_in ou = x /\ o_out ou = y
    | RES_DOWNSAMPLE => o_in od = x /\ o_out od = y
    | RES_OVERSAMPLE => o_in ou = x /\ o_in od = o_out ou /\ o_out od = y
    | RES_SUBSAMPLE => o_in od = x /\ o_in ou = o_out od /\ o_out ou = y
    end.

Definition downs_first : bool := match rt with RES_DOWNSAMPLE | RES_SUBSAMPLE => true | _ => false end.
Definition outn (n : Z) : Z := match rt with RES_UPSAMPLE => n * 2 | RES_DOWNSAMPLE => n / 2 | _ => n end.
Definition check_a : blk := match rt with RES_UPSAMPLE | RES_DOWNSAMPLE => out_a | _ => out2_a end.

(** the three arrays exist *)
Definition arrays m : Prop := forall b, b = in_a \/ b = out_a \/ b = out2_a -> mapped m (Ptr b 0) (block_size * 2).
(** different arrays have different addresses *)
Record addresses : Prop := {
  as_ok : addr_ok addr;
  as_1 : asep addr (Ptr in_a 0) (block_size * 2) (Ptr out_a 0) (block_size * 2);
  as_2 : asep addr (Ptr out_a 0) (block_size * 2) (Ptr out2_a 0) (block_size * 2);
  as_t : forall b t, b = in_a \/ b = out_a \/ b = out2_a -> t = Tmp \/ t = Tmp2 -> asep addr (Ptr b 0) (block_size * 2) (Ptr t 0) 4096 }.

Context (Ne : idu <> idd) (HP : fir_prec p) (HA : addresses) (HB : 0 <= block_size < 2 ^ 29).

Lemma valid2 : valid FILTER_FIR 2 p.
Proof. split; [unfold ratio_no; auto | intros _; exact HP]. Qed.

(** one call *)
Lemma call2 st m id md o g sb so db b :
  reach plat st m -> st id = Some o -> o_res o = built plat id md 2 p use_sse FILTER_FIR ->
  (md = DOWN -> len b mod 2 = 0) -> len b < 2 ^ 31 - 4 ->
  (sb = in_a /\ db = out_a \/ sb = out_a /\ db = out2_a) -> 0 <= so -> so + len b <= block_size * 2 -> out_size md 2 (len b) <= block_size * 2 ->
  has m (Ptr sb so) (len b) (nthZ b) -> arrays m ->
  exists m' z o', process_block addr ndebug g (o_res o) (Ptr sb so) (len b) (Ptr db 0) m = Ok (tt, m') /\ len z = out_size md 2 (len b) /\
    has m' (Ptr db 0) (len z) (nthZ z) /\ arrays m' /\
    (forall b' i, is_user b' -> b' <> db -> m' b' i = m b' i) /\
    o_res o' = o_res o /\ o_in o' = o_in o ++ b /\ o_out o' = o_out o ++ z /\
    reach plat (set_obj st id (Some o')) m'.
Proof.
  intros H E Er Hev Hlt Hb Hso Hin Hout Hh Ha.
  set (q := Call (A := A) addr ndebug g (Ptr sb so) (len b) (Ptr db 0)).
  assert (Us : is_user sb) by (destruct Hb as [[-> ->]|[-> ->]]; eexists; reflexivity).
  assert (Ud : is_user db) by (destruct Hb as [[-> ->]|[-> ->]]; eexists; reflexivity).
  assert (Nb : sb <> db) by (destruct Hb as [[-> ->]|[-> ->]]; discriminate).
  assert (Ib : sb = in_a \/ sb = out_a \/ sb = out2_a) by tauto.
  assert (Id : db = in_a \/ db = out_a \/ db = out2_a) by tauto.
  pose proof (len_nonneg b) as L0.
  assert (AS : forall c k, asep addr (Ptr sb 0) (block_size * 2) (Ptr c 0) k -> asep addr (Ptr sb so) (len b) (Ptr c 0) k).
  { intros c k. unfold asep, paddr. cbn [pb po]. lia. }
  assert (K : call_ok plat (o_res o) m q b).
  { rewrite Er. constructor; cbn [q c_addr c_n c_input c_output]; unfold r_out, r_over; cbn [built r_filter r_mode r_ratio over_read]; rewrite ?Z.add_0_r.
    - exact (as_ok HA).
    - reflexivity.
    - unfold size_ok. destruct md; [lia | now apply Hev].
    - exact Us.
    - exact Ud.
    - exact Hh.
    - intros i Hi. lia.
    - intros i Hi. apply (Ha db Id). lia.
    - left. left. exact Nb.
    - intros _. left. destruct Hb as [[-> ->]|[-> ->]]; (eapply asep_sub0; [apply AS|reflexivity|exact Hout]); [apply (as_1 HA) | apply (as_2 HA)].
    - intros t Ht. split; [apply AS; now apply (as_t HA)|]. eapply asep_sub0; [apply (as_t HA db t Id Ht) | exact Hout | lia]. }
  destruct (reach_call_progress plat st m id o q b H E K) as (m' & z & Eq & Lz & Hz & F & H').
  rewrite Er in Lz. unfold r_out in Lz. cbn [built r_mode r_ratio] in Lz.
  unfold run_call in Eq. cbn [q c_addr c_ndebug c_garbage c_input c_n c_output] in Eq, Hz, F.
  exists m', z, (obj_call o q b z). split; [exact Eq|]. split; [exact Lz|]. split; [exact Hz|]. split; [|split; [|split; [reflexivity|split; [apply o_in_call|split; [reflexivity | exact H']]]]].
  - intros c Hc i Hi. assert (Uc : is_user c) by (destruct Hc as [->|[->| ->]]; eexists; reflexivity). cbn [pb po].
    destruct (blk_eqb_spec c db) as [->|Ncd].
    + destruct (Z_lt_dec (0 + i) (len z)) as [L|L].
      * specialize (Hz i ltac:(lia)). cbn [pb po] in Hz. rewrite Hz. discriminate.
      * rewrite F; [apply (Ha db Id); lia | exact Ud | intros [_ Q]; cbn [po] in Q; lia].
    + rewrite F; [apply (Ha c Hc); lia | exact Uc | intros [Q _]; cbn [pb] in Q; contradiction].
  - intros c i Uc Ncd. apply F; [exact Uc|]. intros [Q _]. cbn [pb] in Q. contradiction.
Qed.

Lemma outn_le n : 0 <= n <= block_size -> 0 <= outn n <= block_size * 2.
Proof. intros H. unfold outn. destruct rt; lia. Qed.

(** the calls of one iteration *)
Lemma block_ok st m x y pos mis b :
  reach plat st m -> streams st x y -> arrays m -> 0 <= mis -> mis + len b <= block_size + 0 -> (downs_first = true -> len b mod 2 = 0) ->
  has m (Ptr in_a mis) (len b) (nthZ b) ->
  exists m' st' z, resample_block garbage ndebug rt addr pos U D mis (len b) m = Ok (tt, m') /\ reach plat st' m' /\ streams st' (x ++ b) (y ++ z) /\
    (forall id, id <> idu -> id <> idd -> st' id = st id) /\
    len z = outn (len b) /\ has m' (Ptr check_a 0) (len z) (nthZ z) /\ arrays m'.
Proof.
  intros H (ou & od & Eu & Ed & Ru & Rd & S) Ha H0 Hl Hev Hh. pose proof (len_nonneg b) as L0.
  pose proof (Z.div_mod (len b) 2 ltac:(lia)) as DM.
  assert (D2 : len b mod 2 = 0 \/ downs_first = false) by (destruct downs_first; auto).
  unfold resample_block, streams, outn, check_a, downs_first in *. destruct rt.
  - (* down *)
    destruct (call2 st m idd DOWN od (garbage pos 0) in_a mis out_a b H Ed Rd (fun _ => Hev eq_refl)) as (m1 & z1 & o1 & E1 & L1 & Z1 & A1 & F1 & R1 & I1 & O1 & H1);
      try assumption; try (cbn [out_size]; lia); [left; auto|]. rewrite Rd in E1.
    exists m1, (set_obj st idd (Some o1)), z1. split; [exact E1|]. split; [exact H1|]. split; [|split; [|repeat split; assumption]].
    + exists ou, o1. unfold set_obj. rewrite Z.eqb_refl. destruct (Z.eqb_spec idu idd); [contradiction|]. destruct S as [S1 S2].
      repeat split; congruence.
    + intros id N1 N2. unfold set_obj. destruct (Z.eqb_spec id idd); congruence.
  - (* up *)
    destruct (call2 st m idu UP ou (garbage pos 0) in_a mis out_a b H Eu Ru) as (m1 & z1 & o1 & E1 & L1 & Z1 & A1 & F1 & R1 & I1 & O1 & H1);
      try assumption; try (cbn [out_size]; lia); [discriminate | left; auto|]. rewrite Ru in E1.
    exists m1, (set_obj st idu (Some o1)), z1. split; [exact E1|]. split; [exact H1|]. split; [|split; [|repeat split; assumption]].
    + exists o1, od. unfold set_obj. rewrite Z.eqb_refl. destruct (Z.eqb_spec idd idu); [congruence|]. destruct S as [S1 S2].
      repeat split; congruence.
    + intros id N1 N2. unfold set_obj. destruct (Z.eqb_spec id idu); congruence.
  - (* down, up *)
    destruct (call2 st m idd DOWN od (garbage pos 0) in_a mis out_a b H Ed Rd (fun _ => Hev eq_refl)) as (m1 & z1 & o1 & E1 & L1 & Z1 & A1 & F1 & R1 & I1 & O1 & H1);
      try assumption; try (cbn [out_size]; lia); [left; auto|]. rewrite Rd in E1. cbn [out_size] in L1.
    destruct (call2 (set_obj st idd (Some o1)) m1 idu UP ou (garbage pos 1) out_a 0 out2_a z1 H1) as (m2 & z2 & o2 & E2 & L2 & Z2 & A2 & F2 & R2 & I2 & O2 & H2);
      try assumption; try (cbn [out_size]; lia).
    { unfold set_obj. destruct (Z.eqb_spec idu idd); [contradiction | exact Eu]. }
    { discriminate. }
    { right. auto. }
    rewrite Ru in E2. rewrite L1 in E2. cbn [out_size] in L2.
    exists m2, (set_obj (set_obj st idd (Some o1)) idu (Some o2)), z2. split; [unfold bind; rewrite E1; exact E2|]. split; [exact H2|]. split; [|split; [|split; [|split; assumption]]].
    + exists o2, o1. unfold set_obj. rewrite !Z.eqb_refl. destruct (Z.eqb_spec idd idu); [congruence|]. destruct S as (S1 & S2 & S3).
      repeat split; try congruence.
    + intros id N1 N2. unfold set_obj. destruct (Z.eqb_spec id idu), (Z.eqb_spec id idd); congruence.
    + specialize (Hev eq_refl). lia.
  - (* up, down *)
    destruct (call2 st m idu UP ou (garbage pos 0) in_a mis out_a b H Eu Ru) as (m1 & z1 & o1 & E1 & L1 & Z1 & A1 & F1 & R1 & I1 & O1 & H1);
      try assumption; try (cbn [out_size]; lia); [discriminate | left; auto|]. rewrite Ru in E1. cbn [out_size] in L1.
    assert (DV : len b * 2 / 2 = len b) by (apply Z.div_mul; lia). assert (DV0 : (len b * 2) mod 2 = 0) by (apply Z.mod_mul; lia).
    destruct (call2 (set_obj st idu (Some o1)) m1 idd DOWN od (garbage pos 1) out_a 0 out2_a z1 H1) as (m2 & z2 & o2 & E2 & L2 & Z2 & A2 & F2 & R2 & I2 & O2 & H2);
      try assumption; rewrite ?L1; try (cbn [out_size]; lia).
    { unfold set_obj. destruct (Z.eqb_spec idd idu); [congruence | exact Ed]. }
    { right. auto. }
    rewrite Rd in E2. rewrite L1 in E2. cbn [out_size] in L2. rewrite L1 in L2.
    exists m2, (set_obj (set_obj st idu (Some o1)) idd (Some o2)), z2. split; [unfold bind; rewrite E1; exact E2|]. split; [exact H2|]. split; [|split; [|split; [|split; assumption]]].
    + exists o1, o2. unfold set_obj. rewrite !Z.eqb_refl. destruct (Z.eqb_spec idu idd); [congruence|]. destruct S as (S1 & S2 & S3).
      repeat split; try congruence.
    + intros id N1 N2. unfold set_obj. destruct (Z.eqb_spec id idu), (Z.eqb_spec id idd); congruence.
    + lia.
Qed.

(** what the output is compared with *)
Definition shift : R :=
  match rt with
  | RES_UPSAMPLE => IZR (fir_delay8 UP 2 p) / 8
  | RES_DOWNSAMPLE => IZR (fir_delay8 DOWN 2 p) / 8
  | RES_OVERSAMPLE => IZR (fir_delay8 UP 2 p) / 8 * (1 / 2) + IZR (fir_delay8 DOWN 2 p) / 8
  | RES_SUBSAMPLE => IZR (fir_delay8 DOWN 2 p) / 8 * 2 + IZR (fir_delay8 UP 2 p) / 8
  end%R.
Definition factor : R := match rt with RES_UPSAMPLE => 1 / 2 | RES_DOWNSAMPLE => 2 | _ => 1 end%R.
Definition vol (freq : R) : R := if downs_first then volume freq else 1%R.
(** radians per sample *)
Definition omega (freq : R) : R := (freq / 44100 * 2 * PI)%R.
Definition correct (freq : R) (k : Z) : R := (sin (factor * omega freq * IZR k - shift * (factor * omega freq)) * vol freq)%R.

Lemma delay_value_eq id md m : delay_value (A := A) (built plat id md 2 p use_sse FILTER_FIR) m = Ok ((IZR (fir_delay8 md 2 p) / 8)%R, m).
Proof. destruct (fir_delay_is plat id md 2 p use_sse valid2) as (d & E & _ & B). unfold delay_value, bind, lift. rewrite E. unfold ret. now rewrite <- B. Qed.
Lemma expect_eq freq bs m : expect rt freq U D bs m = Ok (Expected shift factor (vol freq) (outn bs) check_a, m).
Proof.
  unfold expect, shift, factor, vol, outn, check_a, downs_first. destruct rt; unfold bind; rewrite !delay_value_eq; reflexivity.
Qed.

Context (t : Prop).

Lemma fill_ok freq mis n bs ph m : phase_is t (omega freq) n ph -> (t -> (0 <= omega freq <= 4 * PI)%R) -> 0 <= mis -> 0 <= bs -> mis + bs <= block_size * 2 -> arrays m ->
  goes t (fill_input to_float freq mis bs ph) m (fun q m' => phase_is t (omega freq) (n + bs) q /\ arrays m' /\
    has m' (Ptr in_a mis) bs (fun i => to_float (sin (omega freq * IZR (n + i)))) /\ forall b i, b <> in_a -> m' b i = m b i).
Proof.
  intros HP0 HW H0 Hb Hl Ha. unfold fill_input.
  apply goes_for with (Inv := fun i q m' => phase_is t (omega freq) (n + i) q /\ arrays m' /\
    has m' (Ptr in_a mis) i (fun i => to_float (sin (omega freq * IZR (n + i)))) /\ forall b i, b <> in_a -> m' b i = m b i).
  - rewrite Z.add_0_r. split; [exact HP0|]. split; [exact Ha|]. split; [intros k Hk; lia | reflexivity].
  - intros i q m' Hi (Hq & Ha' & Hh & F). apply goes_bind.
    assert (Mi : m' in_a (i + mis) <> None) by (apply (Ha' in_a (or_introl eq_refl) (i + mis)); lia).
    apply goes_store; cbn [pb po]; [exact Mi|]. eapply goes_mono; [apply (wrap_goes t (omega freq) (n + i) q _ Hq HW)|].
    intros q' m'' [Hq' ->]. rewrite Z.add_assoc. split; [exact Hq'|]. split; [|split].
    + intros b Hb' k Hk. cbn [pb po]. unfold upd. destruct (blk_eqb b in_a && (0 + k =? i + mis)); [discriminate | now apply Ha'].
    + intros k Hk. cbn [pb po]. destruct (Z.eq_dec k i) as [->|N].
      * rewrite (Z.add_comm i mis), upd_same. f_equal. f_equal. symmetry. now rewrite (phase_sin0 _ _ _ _ Hq).
      * rewrite upd_other by lia. apply Hh. lia.
    + intros b k Nb. unfold upd. destruct (blk_eqb_spec b in_a); [contradiction | cbn; now apply F].
  - intros q m' (Hq & Ha' & Hh & F). rewrite Z.add_0_l, Z2Nat.id in * by lia. auto.
Qed.

Lemma check_ok (Good : Z -> Seen -> Prop) freq order4 k ph mx m (z : list A) n : phase_is t (factor * omega freq) k ph -> (t -> (0 <= factor * omega freq <= 4 * PI)%R) ->
  0 <= n -> len z = n -> has m (Ptr check_a 0) n (nthZ z) -> Good k mx ->
  (forall i mx, 0 <= i < n -> Good (k + i) mx -> Good (k + i + 1) (if order4 <? k + i then look (k + i) (nthZ z i) (correct freq (k + i)) mx else mx)) ->
  goes t (check_output look freq (Expected shift factor (vol freq) n check_a) order4 (k, ph, mx)) m
    (fun s m' => m' = m /\ exists ph' mx', s = (k + n, ph', mx') /\ phase_is t (factor * omega freq) (k + n) ph' /\ Good (k + n) mx').
Proof.
  intros HP0 HW Hn Lz Hh Hg HG. unfold check_output. cbn [e_bs e_shift e_factor e_volume e_check].
  apply goes_for with (Inv := fun i s m' => m' = m /\ exists ph' mx', s = (k + i, ph', mx') /\ phase_is t (factor * omega freq) (k + i) ph' /\ Good (k + i) mx').
  - split; [reflexivity|]. exists ph, mx. rewrite Z.add_0_r. auto.
  - intros i s m' Hi (-> & ph' & mx' & -> & Hp & Hg'). apply goes_bind. specialize (HG i mx' ltac:(lia) Hg').
    apply (goes_mono _ _ _ (fun mx'' m' => m' = m /\ Good (k + i + 1) mx'')).
    + destruct (Z.ltb_spec order4 (k + i)) as [L|L]; [|apply goes_ret; auto].
      apply goes_bind. eapply goes_load; [cbn [pb po]; apply (Hh i); lia|]. apply goes_ret. split; [reflexivity|].
      replace (shift * 2 * factor * freq / 44100 * PI)%R with (shift * (factor * omega freq))%R by (unfold omega, Rdiv; ring).
      rewrite (phase_sin t _ _ _ _ Hp). exact HG.
    + intros mx'' m' [-> Hg'']. apply goes_bind.
      replace (ph' + factor * freq / 44100 * 2 * PI)%R with (ph' + factor * omega freq)%R by (unfold omega, Rdiv; ring).
      eapply goes_mono; [apply (wrap_goes t (factor * omega freq) (k + i) ph' m Hp HW)|].
      intros q m' [Hq ->]. apply goes_ret. split; [reflexivity|]. exists q, mx''. rewrite Z.add_assoc. auto.
  - intros s m' H. rewrite Z.add_0_l, Z2Nat.id in H by lia. exact H.
Qed.

(** all samples of x are sines *)
Definition all_sin (x : list A) : Prop := forall k, 0 <= k < size x -> exists v, smp x k = to_float (sin v).
(** from lo on, x is the test signal *)
Definition tail_sin (freq : R) (x : list A) (lo : Z) : Prop := forall k, lo <= k < size x -> smp x k = to_float (sin (omega freq * IZR (k - lo))).

(** every sample keeps what was collected good; the first 4 * fir_len 2 p + 1 samples are not looked at *)
Definition looks (Good : Z -> Seen -> Prop) (freq : R) : Prop := forall st m x y lo k mx,
  reach plat st m -> streams st x y -> all_sin x -> 0 <= lo <= size x -> (downs_first = true -> lo mod 2 = 0) -> tail_sin freq x lo ->
  0 <= k -> outn lo + k < size y -> Good k mx ->
  Good (k + 1) (if 4 * fir_len 2 p <? k then look k (smp y (outn lo + k)) (correct freq k) mx else mx).

(** the invariant of the loop for one frequency, which started when lo samples had gone in *)
Definition inv (Good : Z -> Seen -> Prop) (st0 : state) (freq : R) (lo : Z) (s : scan) m : Prop :=
  exists st x y, reach plat st m /\ streams st x y /\ arrays m /\ (forall id, id <> idu -> id <> idd -> st id = st0 id) /\
    all_sin x /\ 0 <= lo <= size x /\ (downs_first = true -> lo mod 2 = 0) /\ tail_sin freq x lo /\
    0 <= s_k s /\ s_k s = outn (size x) - outn lo /\
    phase_is t (omega freq) (size x - lo) (s_phase s) /\ phase_is t (factor * omega freq) (s_k s) (s_ophase s) /\ Good (s_k s) (s_seen s).

Lemma streams_size st m x y : reach plat st m -> streams st x y -> size y = outn (size x) /\ (downs_first = true -> size x mod 2 = 0).
Proof.
  clear look rnd garbage.
  intros H (ou & od & Eu & Ed & Ru & Rd & S). pose proof (reach_size plat _ _ _ _ H Eu) as Su. pose proof (reach_size plat _ _ _ _ H Ed) as Sd.
  pose proof (reach_multiple plat _ _ _ _ H Ed) as Md. rewrite Ru in Su. rewrite Rd in Sd, Md. specialize (Md eq_refl).
  cbn [built r_mode r_ratio out_size] in *. unfold outn, downs_first. destruct rt.
  - destruct S as [<- <-]. auto.
  - destruct S as [<- <-]. split; [exact Su | discriminate].
  - destruct S as (<- & E & <-). rewrite E, Sd in Su. split; [|auto]. rewrite Su. pose proof (Z.div_mod (size (o_in od)) 2 ltac:(lia)). lia.
  - destruct S as (<- & E & <-). rewrite E, Su in Sd. split; [|discriminate]. rewrite Sd. apply Z.div_mul. lia.
Qed.

Lemma smp_app_l (x b : list A) k : k < size x -> smp (x ++ b) k = smp x k.
Proof. intros H. unfold smp. destruct (Z.ltb_spec k 0); [reflexivity|]. unfold size in H. apply app_nth1. lia. Qed.
Lemma smp_app_r (x b : list A) k : 0 <= k -> smp (x ++ b) (size x + k) = smp b k.
Proof.
  intros H. unfold smp, size. destruct (Z.ltb_spec (Z.of_nat (length x) + k) 0); [lia|]. destruct (Z.ltb_spec k 0); [lia|].
  rewrite app_nth2 by lia. f_equal. lia.
Qed.
Lemma size_app (x b : list A) : size (x ++ b) = size x + size b.
Proof. unfold size. rewrite app_length. lia. Qed.

Lemma outn_add a b : (downs_first = true -> a mod 2 = 0) -> (downs_first = true -> b mod 2 = 0) -> outn (a + b) = outn a + outn b.
Proof.
  unfold outn, downs_first. destruct rt; intros Ha Hb; lia.
Qed.

(** both numbers drawn are such that samples are processed *)
Definition draws (i : Z) : Prop := rnd i mod 4 < block_size /\ 2 <= rnd (i + 1) mod (block_size + 1 - rnd i mod 4).

Lemma step_ok Good st0 freq lo s m : inv Good st0 freq lo s m -> looks Good freq -> (t -> (0 <= omega freq <= 2 * PI)%R) ->
  goes t (scan_step to_float rnd garbage ndebug look rt addr block_size U D freq s) m (fun s' m' => inv Good st0 freq lo s' m' /\
    (4 <= block_size -> s_pos s' = s_pos s + 2) /\ s_pos s < s_pos s' /\ s_k s <= s_k s' /\ (draws (s_pos s) -> s_k s < s_k s')).
Proof.
  intros HI HL HW. unfold scan_step, draws. set (mis := rnd (s_pos s) mod 4).
  assert (HM : 0 <= mis < 4) by (unfold mis; apply Z.mod_pos_bound; lia).
  assert (KEEP : forall pos, inv Good st0 freq lo (Scan pos (s_k s) (s_phase s) (s_ophase s) (s_seen s)) m) by (intros pos; exact HI).
  destruct (Z.leb_spec block_size mis) as [B1|B1].
  { apply goes_ret. split; [apply KEEP|]. cbn [s_pos s_k]. lia. }
  set (bs0 := rnd (s_pos s + 1) mod (block_size + 1 - mis)). assert (HB0 : 0 <= bs0 < block_size + 1 - mis) by (unfold bs0; apply Z.mod_pos_bound; lia).
  destruct (Z.ltb_spec bs0 2) as [B2|B2].
  { apply goes_ret. split; [apply KEEP|]. cbn [s_pos s_k]. lia. }
  clear KEEP. cbn zeta.
  set (bs := match rt with RES_DOWNSAMPLE | RES_SUBSAMPLE => bs0 - Z.land bs0 1 | _ => bs0 end).
  assert (Q : 2 <= bs <= bs0 /\ (downs_first = true -> bs mod 2 = 0)).
  { assert (LA : Z.land bs0 1 = bs0 mod 2) by (change 1 with (Z.ones 1) at 1; rewrite Z.land_ones by lia; reflexivity).
    unfold bs, downs_first. destruct rt; rewrite ?LA; lia. }
  clearbody bs. destruct Q as [HBS HEV]. destruct HI as (st & x & y & H & S & Ha & HO & HX & Hlo & Hlo2 & HT & Hk & Ek & P1 & P2 & HG).
  assert (FW : t -> (0 <= factor * omega freq <= 4 * PI)%R).
  { intros T. specialize (HW T). unfold factor. pose proof PI_RGT_0. destruct rt; lra. }
  apply goes_bind. eapply goes_mono.
  { apply (fill_ok freq mis (size x - lo) bs (s_phase s) m P1); [intros T; specialize (HW T); pose proof PI_RGT_0; lra | lia | lia | lia | exact Ha]. }
  intros ph1 m1 (P1' & Ha1 & Hh1 & F1).
  set (b := tab (A := A) bs (fun i => to_float (sin (omega freq * IZR (size x - lo + i))))).
  assert (Lb : len b = bs) by (unfold b; change len with (size (A := A)); apply size_tab; lia).
  assert (Hb1 : has m1 (Ptr in_a mis) (len b) (nthZ b)).
  { rewrite Lb. eapply has_ext; [exact Hh1|]. intros i Hi. pose proof (smp_tab (A := A) bs (fun i => to_float (sin (omega freq * IZR (size x - lo + i)))) i Hi) as E.
    fold b in E. unfold smp in E. destruct (Z.ltb_spec i 0); [lia|]. symmetry. exact E. }
  assert (H1 : reach plat st m1).
  { apply (reach_client plat st m m1 H). intros b' i NU NS. apply F1. intros ->. apply NU. now exists 0. }
  destruct (block_ok st m1 x y (s_pos s) mis b H1 S Ha1 ltac:(lia) ltac:(lia) ltac:(rewrite Lb; exact HEV) Hb1) as (m2 & st2 & z & E2 & H2 & S2 & O2 & L2 & Z2 & Ha2).
  rewrite Lb in E2, L2. apply goes_bind. eapply goes_eq; [exact E2|]. apply goes_bind. eapply goes_eq; [apply expect_eq|].
  assert (EO : u32 (order_of FILTER_FIR p * 4) = 4 * fir_len 2 p).
  { rewrite <- (order_of_ok FILTER_FIR p HP). unfold fir_prec in HP. destruct HP as [->|[->|[->|[->|[->| ->]]]]]; reflexivity. }
  apply goes_bind. apply goes_eq with (x := order_of FILTER_FIR p) (m' := m2).
  { unfold lift. rewrite (built_order_of plat idu UP 2 p use_sse FILTER_FIR valid2) by lia. reflexivity. }
  rewrite EO. apply goes_bind.
  destruct (streams_size st m x y H S) as [Sy Sx2].
  assert (Sb : size b = bs) by exact Lb.
  assert (HX' : all_sin (x ++ b)).
  { intros k Hk'. rewrite size_app, Sb in Hk'. destruct (Z_lt_dec k (size x)) as [L|L]; [rewrite smp_app_l by exact L; apply HX; lia|].
    replace k with (size x + (k - size x)) by lia. rewrite smp_app_r by lia. unfold b. rewrite smp_tab by lia. eexists. reflexivity. }
  assert (HT' : tail_sin freq (x ++ b) lo).
  { intros k Hk'. rewrite size_app, Sb in Hk'. destruct (Z_lt_dec k (size x)) as [L|L]; [rewrite smp_app_l by exact L; apply HT; lia|].
    assert (Ek' : k = size x + (k - size x)) by lia. rewrite Ek' at 1. rewrite smp_app_r by lia. unfold b. rewrite smp_tab by lia. do 4 f_equal. lia. }
  assert (OA : outn (size x + bs) = outn (size x) + outn bs) by (apply outn_add; assumption).
  assert (ON : 0 < outn bs) by (unfold outn; destruct rt; lia).
  eapply goes_mono.
  { apply (check_ok Good freq (4 * fir_len 2 p) (s_k s) (s_ophase s) (s_seen s) m2 z (outn bs) P2 FW ltac:(lia) L2); [now rewrite <- L2 | exact HG|].
    intros i mx Hi Hg. pose proof (HL st2 m2 (x ++ b) (y ++ z) lo (s_k s + i) mx H2 S2 HX') as G.
    replace (smp (y ++ z) (outn lo + (s_k s + i))) with (nthZ z i) in G.
    - apply G; try assumption; rewrite ?size_app; try lia; change (size z) with (len z); lia.
    - replace (outn lo + (s_k s + i)) with (size y + i) by lia. rewrite smp_app_r by lia. unfold smp. destruct (Z.ltb_spec i 0); [lia | reflexivity]. }
  intros s' m' (-> & ph' & mx' & -> & P2' & HG'). apply goes_ret. cbn [s_pos s_k]. split; [|lia].
  exists st2, (x ++ b), (y ++ z). cbn [s_k s_phase s_ophase s_seen]. rewrite size_app, Sb, OA.
  split; [exact H2|]. split; [exact S2|]. split; [exact Ha2|]. split; [intros id N1 N2; rewrite O2 by assumption; now apply HO|].
  split; [exact HX'|]. split; [lia|]. split; [exact Hlo2|]. split; [exact HT'|]. split; [lia|]. split; [lia|].
  split; [replace (size x + bs - lo) with (size x - lo + bs) by lia; exact P1'|]. split; [exact P2' | exact HG'].
Qed.

(** of any W pairs of numbers, one makes samples processed *)
Definition fair (W : Z) : Prop := 4 <= block_size /\ forall i, 0 <= i -> exists g, 0 <= g < W /\ draws (i + 2 * g).

Lemma scan_ok Good W st0 freq lo s m : inv Good st0 freq lo s m -> 0 <= s_pos s -> looks Good freq -> (t -> (0 <= omega freq <= 2 * PI)%R) ->
  (t -> fair W /\ W * 20000 <= Z.of_nat fuel) ->
  goes t (while fuel (fun s => s_k s <? 20000) (scan_step to_float rnd garbage ndebug look rt addr block_size U D freq) s) m
    (fun s' m' => inv Good st0 freq lo s' m' /\ s_pos s <= s_pos s' /\ 20000 <= s_k s').
Proof.
  intros HI Hp HL HW HF.
  apply goes_while with (Inv := fun n s' m' => inv Good st0 freq lo s' m' /\ s_pos s <= s_pos s' /\
    (t -> s_k s' < 20000 -> exists g, 0 <= g < W /\ draws (s_pos s' + 2 * g) /\ (19999 - s_k s') * W + g + 1 <= Z.of_nat n)).
  - split; [exact HI|]. split; [lia|]. intros T Hk. destruct (HF T) as [[H4 HD] HN]. destruct (HD (s_pos s) Hp) as (g & Hg & Hd). exists g.
    split; [exact Hg|]. split; [exact Hd|]. destruct HI as (st & x & y & _ & _ & _ & _ & _ & _ & _ & _ & Hk0 & _).
    assert ((19999 - s_k s) * W <= 19999 * W) by (apply Z.mul_le_mono_nonneg_r; lia). lia.
  - intros s' m' (HI' & Hp' & HT) C T. apply Z.ltb_lt in C. destruct (HT T C) as (g & Hg & _ & Hn).
    assert (0 <= (19999 - s_k s') * W) by (apply Z.mul_nonneg_nonneg; lia). lia.
  - intros n s' m' (HI' & Hp' & HT) C. apply Z.ltb_lt in C. eapply goes_mono; [apply (step_ok Good st0 freq lo s' m' HI' HL HW)|].
    intros s'' m'' (HI'' & E2 & L2 & Lk & HD2). split; [exact HI''|]. split; [lia|].
    intros T Hk. destruct (HT T C) as (g & Hg & Hd & Hn). destruct (HF T) as [[H4 HD] HN]. specialize (E2 H4).
    destruct (Z.eq_dec g 0) as [->|Ng].
    + rewrite Z.add_0_r in Hd. specialize (HD2 Hd). destruct (HD (s_pos s'') ltac:(lia)) as (g' & Hg' & Hd'). exists g'. split; [exact Hg'|]. split; [exact Hd'|].
      assert ((19999 - s_k s'') * W + W <= (19999 - s_k s') * W) by nia. lia.
    + exists (g - 1). split; [lia|]. split; [rewrite E2; replace (s_pos s' + 2 + 2 * (g - 1)) with (s_pos s' + 2 * g) by lia; exact Hd|].
      assert ((19999 - s_k s'') * W <= (19999 - s_k s') * W) by nia. lia.
  - intros n s' m' (HI' & Hp' & _) C. apply Z.ltb_ge in C. auto.
Qed.

(** the frequencies fmin, fmin + finc, ... below fmax + 1 *)
Lemma all_ok (Good : Z -> Z -> Seen -> Prop) W nf st0 st m fmin fmax finc pos mx :
  reach plat st m -> (exists x y, streams st x y /\ all_sin x) -> (forall id, id <> idu -> id <> idd -> st id = st0 id) -> arrays m -> 0 <= pos -> Good 0 0 mx -> (forall i k mx, 0 <= i -> 20000 <= k -> Good i k mx -> Good (i + 1) 0 mx) ->
  (forall i, 0 <= i -> (fmin + IZR i * finc < fmax + 1)%R -> looks (Good i) (fmin + IZR i * finc) /\ (t -> (0 <= fmin + IZR i * finc <= 44100)%R)) ->
  (t -> fair W /\ W * 20000 <= Z.of_nat fuel /\ nf <= Z.of_nat fuel /\ forall i, nf <= i -> (fmax + 1 <= fmin + IZR i * finc)%R) ->
  goes t (scan_all to_float rnd garbage ndebug fuel look rt addr block_size U D fmax finc (fmin, pos, mx)) m
    (fun s m' => exists n f pos' mx' st', s = (f, pos', mx') /\ pos <= pos' /\ (0 <= n /\ (forall i, 0 <= i < n -> (fmin + IZR i * finc < fmax + 1)%R) /\ (fmax + 1 <= fmin + IZR n * finc)%R) /\ Good n 0 mx' /\ reach plat st' m' /\
       (exists x y, streams st' x y) /\ (forall id, id <> idu -> id <> idd -> st' id = st0 id)).
Proof.
  intros H (x0 & y0 & S0 & HS0) HO Ha Hpos HG HN1 HF HT. unfold scan_all.
  apply goes_while with (Inv := fun n s m' => exists i pos' mx' st', s = ((fmin + IZR i * finc)%R, pos', mx') /\ (0 <= i /\ forall j, 0 <= j < i -> (fmin + IZR j * finc < fmax + 1)%R) /\ pos <= pos' /\ Good i 0 mx' /\
    reach plat st' m' /\ arrays m' /\ (exists x y, streams st' x y /\ all_sin x) /\ (forall id, id <> idu -> id <> idd -> st' id = st0 id) /\ (t -> nf <= i + Z.of_nat n)).
  - exists 0, pos, mx, st. split; [f_equal; f_equal; lra|]. split; [split; [lia | intros j Hj; lia]|]. split; [lia|]. split; [exact HG|]. split; [exact H|]. split; [exact Ha|].
    split; [exists x0, y0; auto|]. split; [exact HO|]. intros T. destruct (HT T) as (_ & _ & N & _). lia.
  - intros s m' (i & pos' & mx' & st' & -> & [Hi _] & _ & _ & _ & _ & _ & _ & HN) C T. destruct (Rlt_dec _ _) as [L|]; [|discriminate].
    specialize (HN T). destruct (HT T) as (_ & _ & _ & N). specialize (N i ltac:(lia)). lra.
  - intros n s m' (i & pos' & mx' & st' & -> & [Hi Hj] & Hp' & HG' & H' & Ha' & (x & y & S' & HX) & HO' & HN) C. destruct (Rlt_dec _ _) as [L|]; [clear C|discriminate].
    destruct (HF i Hi L) as [HL HR]. set (freq := (fmin + IZR i * finc)%R) in *.
    destruct (streams_size st' m' x y H' S') as [Sy Sx2].
    assert (S0x : 0 <= size x) by (unfold size; lia).
    apply goes_bind. eapply goes_mono.
    { apply (scan_ok (Good i) W st0 freq (size x) (Scan pos' 0 0 0 mx') m'); cbn [s_pos]; [|lia|exact HL| |].
      - exists st', x, y. cbn [s_k s_phase s_ophase s_seen]. split; [exact H'|]. split; [exact S'|]. split; [exact Ha'|]. split; [exact HO'|]. split; [exact HX|].
        split; [lia|]. split; [exact Sx2|]. split; [intros k Hk; lia|]. split; [lia|]. split; [lia|]. rewrite Z.sub_diag.
        split; [apply phase_0|]. split; [apply phase_0 | exact HG'].
      - intros T. specialize (HR T). unfold omega. pose proof PI_RGT_0 as P. replace (freq / 44100 * 2 * PI)%R with (freq / 44100 * (2 * PI))%R by ring.
        assert (0 <= freq / 44100 <= 1)%R by lra. split; [apply Rmult_le_pos; lra|]. rewrite <- (Rmult_1_l (2 * PI)) at 2. apply Rmult_le_compat_r; lra.
      - intros T. destruct (HT T) as (F & N & _). auto. }
    intros s' m'' (HI & Hps & HK). cbn [s_pos] in Hps. destruct HI as (st'' & x' & y' & H'' & S'' & Ha'' & HO'' & HX' & _ & _ & _ & _ & _ & _ & _ & HG'').
    apply goes_ret. exists (i + 1), (s_pos s'), (s_seen s'), st''. split; [f_equal; f_equal; unfold freq; rewrite plus_IZR; ring|].
    split; [split; [lia|]; intros j Hj'; destruct (Z.eq_dec j i) as [->|]; [exact L | apply Hj; lia]|]. split; [lia|]. split; [exact (HN1 i _ _ Hi HK HG'')|]. split; [exact H''|]. split; [exact Ha''|]. split; [exists x', y'; auto|]. split; [exact HO''|].
    intros T. specialize (HN T). lia.
  - intros n s m' (i & pos' & mx' & st' & -> & [Hi Hj] & Hp' & HG' & H' & Ha' & (x & y & S' & HX) & HO' & HN) C.
    destruct (Rlt_dec _ _) as [L|L]; [discriminate|]. eexists i, _, pos', mx', st'. split; [reflexivity|]. split; [exact Hp'|]. split; [split; [exact Hi|]; split; [exact Hj | lra]|]. split; [exact HG'|]. split; [exact H'|]. split; [exists x, y; exact S' | exact HO'].
Qed.
End Run.


(** ** perform_test and run_accuracy *)
Section Perform.
Context {A : arith} (plat : platform) (to_float : R -> A) (to_double : A -> xdouble).
Context (rnd : Z -> Z) (garbage : Z -> Z -> Z -> Z -> Z -> A) (ndebug : bool) (fuel : nat).
Implicit Types m : mem A.

(** a scan needs freq_inc > 1; otherwise there is one frequency *)
Definition one_or (freq_inc : R) (a b : R) : R := if Rlt_dec 1 freq_inc then a else b.

Lemma arrays_alloc block_size m m1 : (alloc in_a (block_size * 2) (fun _ => f0) ;;; alloc out_a (block_size * 2) (fun _ => f0) ;;; alloc out2_a (block_size * 2) (fun _ => f0)) m = Ok (tt, m1) ->
  arrays block_size m1 /\ forall b i, ~ is_user b -> m1 b i = m b i.
Proof.
  unfold bind, alloc. intros E. injection E as <-. split.
  - intros b [->|[->| ->]] k Hk; cbn [pb po]; cbn [blk_eqb in_a out_a out2_a Z.eqb]; destruct (Z.leb_spec 0 (0 + k)), (Z.ltb_spec (0 + k) (block_size * 2)); try lia; discriminate.
  - intros b i Hb. unfold in_a, out_a, out2_a. destruct (blk_eqb_spec b (User 2)) as [->|]; [exfalso; apply Hb; now exists 2|].
    destruct (blk_eqb_spec b (User 1)) as [->|]; [exfalso; apply Hb; now exists 1|]. destruct (blk_eqb_spec b (User 0)) as [->|]; [exfalso; apply Hb; now exists 0 | reflexivity].
Qed.

Lemma scan_perform_ok {Seen} (look : Z -> A -> R -> Seen -> Seen) (t : Prop) (Good : Z -> Z -> Seen -> Prop) rt addr idu idd block_size p use_sse frequency freq_min freq_max freq_inc start pos st m W nf :
  reach plat st m -> st idu = None -> st idd = None -> idu <> idd -> fir_prec p -> addresses addr block_size -> 0 <= block_size < 2 ^ 29 ->
  (use_sse = true -> sse_available plat = true) -> 0 <= pos -> Good 0 0 start -> (forall i k mx, 0 <= i -> 20000 <= k -> Good i k mx -> Good (i + 1) 0 mx) ->
  let fmin := one_or freq_inc freq_min frequency in let fmax := one_or freq_inc freq_max (1.5 * frequency) in let finc := one_or freq_inc freq_inc frequency in
  (forall i, 0 <= i -> (fmin + IZR i * finc < fmax + 1)%R ->
    looks plat to_float look rt idu idd p use_sse (Good i) (fmin + IZR i * finc) /\ (t -> (0 <= fmin + IZR i * finc <= 44100)%R)) ->
  (t -> fair rnd block_size W /\ W * 20000 <= Z.of_nat fuel /\ nf <= Z.of_nat fuel /\ forall i, nf <= i -> (fmax + 1 <= fmin + IZR i * finc)%R) ->
  goes t (perform_scan plat to_float rnd garbage ndebug fuel look rt addr idu idd block_size p use_sse frequency freq_min freq_max freq_inc start pos) m
    (fun r m' => exists n pos' mx st', r = (pos', mx) /\ pos <= pos' /\ (0 <= n /\ (forall i, 0 <= i < n -> (fmin + IZR i * finc < fmax + 1)%R) /\ (fmax + 1 <= fmin + IZR n * finc)%R) /\ Good n 0 mx /\ reach plat st' m' /\
       forall id, id <> idu -> id <> idd -> st' id = st id).
Proof.
  intros H Eu Ed Ne HP HA HB HS Hpos HG HN1 fmin fmax finc HF HT.
  assert (V : valid FILTER_FIR 2 p) by (split; [unfold ratio_no; auto | intros _; exact HP]).
  destruct (reach_new_progress plat st m idu UP 2 p use_sse FILTER_FIR H Eu (proj1 V) (proj2 V)) as (m1 & E1 & F1 & H1). cbn zeta in *.
  destruct (reach_new_progress plat _ m1 idd DOWN 2 p use_sse FILTER_FIR H1) as (m2 & E2 & F2 & H2); [|exact (proj1 V)|exact (proj2 V)|].
  { unfold set_obj. destruct (Z.eqb_spec idd idu); [congruence | exact Ed]. }
  cbn zeta in *. unfold perform_scan. rewrite (u32_small (block_size * 2)) by lia. apply goes_bind. eapply goes_eq; [exact E1|]. apply goes_bind. eapply goes_eq; [exact E2|]. cbn [fst].
  assert (VV : vector plat FILTER_FIR use_sse = use_sse).
  { unfold vector. unfold sse_available in HS. destruct use_sse; [now rewrite HS | apply andb_false_r]. }
  assert (RQ : forall id md, lift (A := A) (sse_enabled (built plat id md 2 p use_sse FILTER_FIR)) m2 = Ok (use_sse, m2)).
  { intros id md. unfold lift. rewrite built_sse_enabled by (exact V || lia). now rewrite VV. }
  assert (RE : require (A := A) (Bool.eqb use_sse use_sse) m2 = Ok (tt, m2)) by (unfold require; now rewrite Bool.eqb_reflx).
  apply goes_bind. eapply goes_eq; [apply RQ|]. apply goes_bind. eapply goes_eq; [exact RE|].
  apply goes_bind. eapply goes_eq; [apply RQ|]. apply goes_bind. eapply goes_eq; [exact RE|].
  destruct ((alloc in_a (block_size * 2) (fun _ => f0) ;;; alloc out_a (block_size * 2) (fun _ => f0) ;;; alloc out2_a (block_size * 2) (fun _ => f0)) m2) as [[[] m3]|e] eqn:EA; [|discriminate].
  destruct (arrays_alloc block_size m2 m3 EA) as [Ha F3].
  assert (H3 : reach plat (set_obj (set_obj st idu (Some (Obj (built plat idu UP 2 p use_sse FILTER_FIR) [] []))) idd (Some (Obj (built plat idd DOWN 2 p use_sse FILTER_FIR) [] []))) m3).
  { apply (reach_client plat _ m2 m3 H2). intros b i NU _. now apply F3. }
  unfold bind, alloc in EA. cbn beta iota in EA. injection EA as EA.
  apply goes_bind. eapply goes_eq; [reflexivity|]. apply goes_bind. eapply goes_eq; [reflexivity|]. apply goes_bind. eapply goes_eq; [reflexivity|].
  cbn beta zeta. rewrite EA. clear EA.
  replace (if if Rlt_dec 1 freq_inc then true else false then freq_min else frequency) with fmin by (unfold fmin, one_or; now destruct (Rlt_dec 1 freq_inc)).
  replace (if if Rlt_dec 1 freq_inc then true else false then freq_max else 1.5 * frequency)%R with fmax by (unfold fmax, one_or; now destruct (Rlt_dec 1 freq_inc)).
  replace (if if Rlt_dec 1 freq_inc then true else false then freq_inc else frequency) with finc by (unfold finc, one_or; now destruct (Rlt_dec 1 freq_inc)).
  apply goes_bind. eapply goes_mono.
  { eapply (all_ok plat to_float look rnd garbage ndebug fuel rt addr idu idd p use_sse block_size Ne HP HA HB t Good W nf st _ m3 fmin fmax finc pos start H3).
    - exists [], []. split; [|intros k Hk; cbn in Hk; lia]. eexists _, _. unfold set_obj. rewrite !Z.eqb_refl. destruct (Z.eqb_spec idu idd); [contradiction|].
      split; [reflexivity|]. split; [reflexivity|]. split; [reflexivity|]. split; [reflexivity|]. destruct rt; repeat split; reflexivity.
    - intros id N1 N2. unfold set_obj. destruct (Z.eqb_spec id idd), (Z.eqb_spec id idu); congruence.
    - exact Ha.
    - exact Hpos.
    - exact HG.
    - exact HN1.
    - exact HF.
    - exact HT. }
  intros s m4 (n & f & pos' & mx & st' & -> & Hp & HN & HG' & H4 & _ & HO).
  do 3 (apply goes_bind; eapply goes_eq; [reflexivity|]). apply goes_ret. exists n, pos', mx, st'. split; [reflexivity|]. split; [exact Hp|]. split; [exact HN|]. split; [exact HG'|]. split; [|exact HO].
  apply (reach_client plat _ m4 _ H4). intros b i NU _. cbn beta. unfold in_a, out_a, out2_a.
  destruct (blk_eqb_spec b (User 0)) as [->|]; [exfalso; apply NU; now exists 0|].
  destruct (blk_eqb_spec b (User 1)) as [->|]; [exfalso; apply NU; now exists 1|]. destruct (blk_eqb_spec b (User 2)) as [->|]; [exfalso; apply NU; now exists 2 | reflexivity].
Qed.

(** ** The accuracy test *)
(** every sample that is looked at keeps the largest difference good *)
Definition looks_good rt idu idd p use_sse (Good : xdouble -> Prop) (freq : R) : Prop := forall st m x y lo k mx,
  reach plat st m -> streams plat rt idu idd p use_sse st x y -> all_sin to_float x -> 0 <= lo <= size x -> (downs_first rt = true -> lo mod 2 = 0) -> tail_sin to_float freq x lo ->
  4 * fir_len 2 p < k -> outn rt lo + k < size y -> Good mx ->
  Good (xmax mx (xsub (to_double (smp y (outn rt lo + k))) (correct rt p freq k))).
Lemma looks_larger rt idu idd p use_sse Good freq : looks_good rt idu idd p use_sse Good freq ->
  looks plat to_float (larger to_double) rt idu idd p use_sse (fun _ => Good) freq.
Proof.
  intros HL st m x y lo k mx H S HX Hlo Hev HT Hk Hj HG. destruct (Z.ltb_spec (4 * fir_len 2 p) k) as [L|L]; [|exact HG].
  now apply (HL st m x y lo k mx).
Qed.

Lemma perform_ok (t : Prop) (Good : xdouble -> Prop) rt addr idu idd block_size p use_sse frequency freq_min freq_max freq_inc threshold pos st m W nf :
  reach plat st m -> st idu = None -> st idd = None -> idu <> idd -> fir_prec p -> addresses addr block_size -> 0 <= block_size < 2 ^ 29 ->
  (use_sse = true -> sse_available plat = true) -> 0 <= pos -> Good (Fin 0) ->
  let fmin := one_or freq_inc freq_min frequency in let fmax := one_or freq_inc freq_max (1.5 * frequency) in let finc := one_or freq_inc freq_inc frequency in
  (forall i, 0 <= i -> (fmin + IZR i * finc < fmax + 1)%R ->
    looks_good rt idu idd p use_sse Good (fmin + IZR i * finc) /\ (t -> (0 <= fmin + IZR i * finc <= 44100)%R)) ->
  (t -> fair rnd block_size W /\ W * 20000 <= Z.of_nat fuel /\ nf <= Z.of_nat fuel /\ forall i, nf <= i -> (fmax + 1 <= fmin + IZR i * finc)%R) ->
  goes t (perform_accuracy plat to_float to_double rnd garbage ndebug fuel rt addr idu idd block_size p use_sse frequency freq_min freq_max freq_inc threshold pos) m
    (fun r m' => exists pos' mx st', r = (pos', if db_above mx threshold then 1 else 0) /\ pos <= pos' /\ Good mx /\ reach plat st' m' /\
       forall id, id <> idu -> id <> idd -> st' id = st id).
Proof.
  intros H Eu Ed Ne HP HA HB HS Hpos HG fmin fmax finc HF HT. unfold perform_accuracy. apply goes_bind. eapply goes_mono.
  - apply (scan_perform_ok (larger to_double) t (fun _ _ => Good) rt addr idu idd block_size p use_sse frequency freq_min freq_max freq_inc (Fin 0) pos st m W nf); try assumption.
    + tauto.
    + intros i Hi L. destruct (HF i Hi L) as [Q1 Q2]. split; [now apply looks_larger | exact Q2].
  - intros r m' (n & pos' & mx & st' & -> & Q1 & _ & Q2 & Q3 & Q4). apply goes_ret. cbn [fst snd]. exists pos', mx, st'. auto.
Qed.
End Perform.
