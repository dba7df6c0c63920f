(** * The example of the documentation is correct *)
From Coq Require Import ZArith List Lia Bool ZifyNat ZifyBool.
From Verif Require Import Arith Mem FirModel IirModel Tables ResamplerModel Wp Stage Cascade
  ResamplerProof ResamplerOk Spec SpecOk Client ExampleModel.
Import ListNotations.
Open Scope Z_scope.
Open Scope m_scope.

Section Example.
Context {A : arith} (plat : platform).
Implicit Types m : mem A.

(** the loop over tmp *)
Lemma map_loop (f : A -> A) b n (x : list A) m : len x = n -> has m (Ptr (User b) 0) n (nthZ x) ->
  runs (for_up (Z.to_nat n) 0 (fun i _ => v <- load (Ptr (User b) i) ;; store (Ptr (User b) i) (f v)) tt) m
    (fun _ m' => has m' (Ptr (User b) 0) n (nthZ (map f x)) /\ forall b' i, b' <> User b -> m' b' i = m b' i).
Proof.
  intros L H.
  assert (N : forall k, 0 <= k < n -> nthZ (map f x) k = f (nthZ x k)).
  { intros k Hk. unfold nthZ. rewrite nth_indep with (d' := f f0) by (rewrite map_length; unfold len in L; lia). apply map_nth. }
  apply runs_for with (Inv := fun i _ m' =>
    (forall k, 0 <= k < n -> m' (User b) k = Some (if k <? i then nthZ (map f x) k else nthZ x k)) /\ forall b' i, b' <> User b -> m' b' i = m b' i).
  - split; [|reflexivity]. intros k Hk. destruct (Z.ltb_spec k 0); [lia|]. apply (H k Hk).
  - intros k u m' Hk (H1 & H2). apply runs_bind. eapply runs_load; [cbn; apply H1; lia|].
    destruct (Z.ltb_spec k k); [lia|]. apply runs_store; cbn [pb po]; [rewrite H1 by lia; discriminate|]. split.
    + intros i Hi. destruct (Z.eq_dec i k) as [->|].
      * rewrite upd_same. destruct (Z.ltb_spec k (k + 1)); [|lia]. now rewrite N by lia.
      * rewrite upd_other by lia. rewrite H1 by lia. destruct (Z.ltb_spec i k), (Z.ltb_spec i (k + 1)); try lia; reflexivity.
    + intros b' i Hb. unfold upd. destruct (blk_eqb_spec b' (User b)); [contradiction | apply H2, Hb].
  - intros u m' (H1 & H2). split; [|exact H2]. intros k Hk. cbn [pb po]. rewrite Z.add_0_l, H1 by lia. destruct (Z.ltb_spec k (0 + Z.of_nat (Z.to_nat n))); [reflexivity | lia].
Qed.

Context (oversample prec : Z) (f : A -> A) (idu idd : Z).

(** the two objects exist, x went in, y came out *)
Definition sat_state (st : state (A := A)) (s : saturation) (x y : list A) : Prop :=
  s_ups s = built plat idu UP oversample prec true FILTER_FIR /\
  s_downs s = built plat idd DOWN oversample prec true FILTER_FIR /\ idu <> idd /\
  exists ou od, st idu = Some ou /\ st idd = Some od /\ o_res ou = s_ups s /\ o_res od = s_downs s /\
    o_in ou = x /\ o_in od = map f (o_out ou) /\ o_out od = y.

(** what the caller of Saturation::process has to do; input and output may overlap or be the same *)
Record sat_call_ok m (addr : blk -> Z) (k : Z) (inp : ptr) (b : list A) (out : ptr) : Prop := {
  sc_addr : addr_ok addr;
  sc_n : 0 < len b;
  sc_size : len b * oversample < 2 ^ 31 - 4;
  sc_in_user : is_user (pb inp);
  sc_out_user : is_user (pb out);
  sc_in : has m inp (len b) (nthZ b);
  sc_out : mapped m out (len b);
  (** tmp is a new array, and different arrays have different addresses *)
  sc_tmp : pb inp <> User k /\ pb out <> User k;
  sc_sep : asep addr inp (len b) (Ptr (User k) 0) (len b * oversample) /\ asep addr (Ptr (User k) 0) (len b * oversample) out (len b);
  sc_stack : forall t, t = Tmp \/ t = Tmp2 ->
    asep addr inp (len b) (Ptr t 0) 4096 /\ asep addr out (len b) (Ptr t 0) 4096 /\ asep addr (Ptr (User k) 0) (len b * oversample) (Ptr t 0) 4096 }.

Context (Vr : ratio_no oversample) (VT : 2 <= oversample -> fir_prec prec).

Lemma sat_new_ok st m : reach plat st m -> st idu = None -> st idd = None -> idu <> idd ->
  exists s m' st', sat_new plat oversample prec idu idd m = Ok ((s, true), m') /\ reach plat st' m' /\ sat_state st' s [] [] /\
    (forall b i, is_user b -> m' b i = m b i) /\ (forall id, id <> idu -> id <> idd -> st' id = st id).
Proof.
  intros H Eu Ed Ne.
  destruct (reach_new_progress plat st m idu UP oversample prec true FILTER_FIR H Eu Vr VT) as (m1 & E1 & F1 & H1). cbn zeta in *.
  destruct (reach_new_progress plat _ m1 idd DOWN oversample prec true FILTER_FIR H1) as (m2 & E2 & F2 & H2); [|exact Vr|exact VT|].
  { unfold set_obj. destruct (Z.eqb_spec idd idu); [congruence | exact Ed]. }
  cbn zeta in *. eexists _, m2, _. split; [|split; [exact H2|split; [|split]]].
  - unfold sat_new, bind. rewrite E1, E2. reflexivity.
  - split; [reflexivity|]. split; [reflexivity|]. split; [exact Ne|]. eexists _, _. unfold set_obj. rewrite Z.eqb_refl.
    destruct (Z.eqb_spec idu idd); [congruence|]. rewrite Z.eqb_refl. repeat split; reflexivity.
  - intros b i Hb. rewrite F2, F1 by exact Hb. reflexivity.
  - intros id N1 N2. unfold set_obj. destruct (Z.eqb_spec id idd), (Z.eqb_spec id idu); congruence.
Qed.

Lemma sat_reset_ok st m s x y addr : reach plat st m -> sat_state st s x y -> addr_ok addr ->
  exists m' st', sat_reset addr s m = Ok (tt, m') /\ reach plat st' m' /\ sat_state st' s [] [] /\
    (forall b i, is_user b -> m' b i = m b i) /\ (forall id, id <> idu -> id <> idd -> st' id = st id).
Proof.
  intros H (Bu & Bd & Ne & ou & od & Eu & Ed & Ru & Rd & _) AO.
  destruct (reach_reset_progress plat st m idu ou addr H Eu AO) as (m1 & E1 & F1 & H1).
  destruct (reach_reset_progress plat _ m1 idd od addr H1) as (m2 & E2 & F2 & H2); [|exact AO|].
  { unfold set_obj. destruct (Z.eqb_spec idd idu); [congruence | exact Ed]. }
  rewrite Ru in *. rewrite Rd in *. eexists m2, _. split; [|split; [exact H2|split; [|split]]].
  - unfold sat_reset, bind. rewrite E1, E2. reflexivity.
  - split; [exact Bu|]. split; [exact Bd|]. split; [exact Ne|]. eexists _, _. unfold set_obj. rewrite Z.eqb_refl.
    destruct (Z.eqb_spec idu idd); [congruence|]. rewrite Z.eqb_refl. repeat split; reflexivity.
  - intros b i Hb. rewrite F2, F1 by exact Hb. reflexivity.
  - intros id N1 N2. unfold set_obj. destruct (Z.eqb_spec id idd), (Z.eqb_spec id idu); congruence.
Qed.

Lemma user_alloc m k n g b i : b <> User k -> (match alloc (User k) n g m with Ok (_, m') => m' b i | Err _ => None end) = m b i.
Proof. intros N. cbn. destruct (blk_eqb_spec b (User k)); [contradiction | reflexivity]. Qed.

Lemma asep_sym addr p n q k : asep addr p n q k -> asep addr q k p n.
Proof. unfold asep. tauto. Qed.

Lemma sat_process_ok st m s x y addr ndebug gu gd gt k inp b out :
  reach plat st m -> sat_state st s x y -> sat_call_ok m addr k inp b out ->
  exists m' st' z, sat_process oversample f addr ndebug gu gd gt k s inp (len b) out m = Ok (tt, m') /\
    len z = len b /\ has m' out (len b) (nthZ z) /\ reach plat st' m' /\ sat_state st' s (x ++ b) (y ++ z) /\
    (forall b' i, is_user b' -> b' <> User k -> ~ inr out (len b) b' i -> m' b' i = m b' i) /\
    (forall id, id <> idu -> id <> idd -> st' id = st id).
Proof.
  intros H (Bu & Bd & Ne & ou & od & Eu & Ed & Ru & Rd & Xi & Xt & Yo) K.
  destruct K as [AO N0 NS IU OU HI MO [TI TO] [S1 S2] SK].
  assert (R1 : 1 <= oversample) by (unfold ratio_no in Vr; lia).
  assert (RS : r_out (s_ups s) (len b) = len b * oversample) by (rewrite Bu; reflexivity).
  assert (RD : r_out (s_downs s) (len b * oversample) = len b).
  { rewrite Bd. unfold r_out. cbn [built r_mode r_ratio out_size]. apply Z.div_mul. lia. }
  assert (OvU : r_over plat (s_ups s) = 0) by (rewrite Bu; reflexivity).
  assert (OvD : r_over plat (s_downs s) = 0) by (rewrite Bd; reflexivity).
  assert (U1 : u32 (len b) = len b) by (unfold u32; apply Z.mod_small; nia).
  assert (U2 : u32 (len b * oversample) = len b * oversample) by (unfold u32; apply Z.mod_small; nia).
  (* tmp *)
  set (m0 := fun b' i => if blk_eqb b' (User k) then (if (0 <=? i) && (i <? len b * oversample) then Some (gt i) else None) else m b' i).
  assert (Al : alloc (User k) (len b * oversample) gt m = Ok (tt, m0)) by reflexivity.
  assert (A0 : forall b' i, b' <> User k -> m0 b' i = m b' i).
  { intros b' i N. unfold m0. destruct (blk_eqb_spec b' (User k)); [contradiction | reflexivity]. }
  assert (H0 : reach plat st m0).
  { apply (reach_client plat st m m0 H). intros b' i NU NS'. apply A0. intros ->. apply NU. now exists k. }
  (* upsampling *)
  set (q1 := Call (A := A) addr ndebug gu inp (len b) (Ptr (User k) 0)).
  assert (K1 : call_ok plat (o_res ou) m0 q1 b).
  { rewrite Ru. constructor; cbn [q1 c_addr c_n c_input c_output]; rewrite ?RS, ?OvU, ?Z.add_0_r.
    - exact AO.
    - reflexivity.
    - rewrite Bu. cbn [built r_filter r_mode r_ratio]. unfold size_ok. unfold ratio_no in Vr. destruct Vr as [E|[E|[E|E]]]; rewrite E in *; try exact I. lia.
    - exact IU.
    - now exists k.
    - intros i Hi. rewrite A0 by exact TI. now apply HI.
    - intros i Hi. lia.
    - intros i Hi. cbn [pb po]. unfold m0. rewrite blk_eqb_refl. destruct (Z.leb_spec 0 (0 + i)), (Z.ltb_spec (0 + i) (len b * oversample)); try lia. discriminate.
    - left. left. exact TI.
    - intros _. left. exact S1.
    - intros t Ht. destruct (SK t Ht) as (T1 & T2 & T3). split; assumption. }
  destruct (reach_call_progress plat st m0 idu ou q1 b H0 Eu K1) as (m1 & z1 & E1 & L1 & Z1 & F1 & H1). rewrite Ru, RS in L1.
  unfold run_call in E1. cbn [q1 c_addr c_ndebug c_garbage c_input c_n c_output] in E1, Z1, F1. rewrite Ru in E1. rewrite L1 in Z1.
  (* the function *)
  destruct (runs_inv _ _ _ (map_loop f k (len b * oversample) z1 m1 L1 Z1)) as ([] & m2 & E2 & Z2 & F2).
  assert (H2 : reach plat (set_obj st idu (Some (obj_call ou q1 b z1))) m2).
  { apply (reach_client plat _ m1 m2 H1). intros b' i NU NS'. apply F2. intros ->. apply NU. now exists k. }
  (* downsampling *)
  set (q2 := Call (A := A) addr ndebug gd (Ptr (User k) 0) (len b * oversample) out).
  assert (LM : len (map f z1) = len b * oversample) by (unfold len; rewrite map_length; exact L1).
  assert (K2 : call_ok plat (o_res od) m2 q2 (map f z1)).
  { rewrite Rd. constructor; cbn [q2 c_addr c_n c_input c_output]; rewrite ?LM, ?RD, ?OvD, ?Z.add_0_r.
    - exact AO.
    - reflexivity.
    - rewrite Bd. cbn [built r_filter r_mode r_ratio]. unfold size_ok. unfold ratio_no in Vr. destruct Vr as [E|[E|[E|E]]]; rewrite E in *; try exact I; apply Z.mod_mul; lia.
    - now exists k.
    - exact OU.
    - exact Z2.
    - intros i Hi. lia.
    - intros i Hi. rewrite F2 by exact TO. rewrite F1; [|exact OU|intros [Q _]; contradiction]. rewrite A0 by exact TO. now apply MO.
    - left. left. intros Q. apply TO. symmetry. exact Q.
    - intros _. left. exact S2.
    - intros t Ht. destruct (SK t Ht) as (T1 & T2 & T3). split; assumption. }
  destruct (reach_call_progress plat _ m2 idd od q2 (map f z1) H2) as (m3 & z & E3 & L3 & Z3 & F3 & H3); [|exact K2|].
  { unfold set_obj. destruct (Z.eqb_spec idd idu); [congruence | exact Ed]. }
  rewrite Rd, LM, RD in L3. unfold run_call in E3. cbn [q2 c_addr c_ndebug c_garbage c_input c_n c_output] in E3, Z3, F3. rewrite Rd in E3. rewrite L3 in Z3, F3.
  set (m4 := fun b' i => if blk_eqb b' (User k) then None else m3 b' i).
  assert (A4 : forall b' i, b' <> User k -> m4 b' i = m3 b' i).
  { intros b' i N. unfold m4. destruct (blk_eqb_spec b' (User k)); [contradiction | reflexivity]. }
  exists m4, (set_obj (set_obj st idu (Some (obj_call ou q1 b z1))) idd (Some (obj_call od q2 (map f z1) z))), z.
  split; [|split; [exact L3|split; [|split; [|split; [|split]]]]].
  - unfold sat_process, bind. rewrite Al, U1, U2, E1. cbv beta iota.
    unfold bind in E2. rewrite E2, E3. reflexivity.
  - intros i Hi. rewrite A4 by exact TO. now apply Z3.
  - apply (reach_client plat _ m3 m4 H3). intros b' i NU NS'. apply A4. intros ->. apply NU. now exists k.
  - split; [exact Bu|]. split; [exact Bd|]. split; [exact Ne|]. eexists _, _. unfold set_obj. rewrite Z.eqb_refl.
    destruct (Z.eqb_spec idu idd); [congruence|]. rewrite Z.eqb_refl. split; [reflexivity|]. split; [reflexivity|].
    cbn [obj_call o_res o_out]. split; [exact Ru|]. split; [exact Rd|]. rewrite !o_in_call, Xi, Xt, Yo. split; [reflexivity|]. split; [|reflexivity].
    symmetry. apply map_app.
  - intros b' i UB NB NI. rewrite A4 by exact NB. rewrite F3 by assumption. rewrite F2 by exact NB. rewrite F1; [apply A0, NB|exact UB|intros [Q _]; contradiction].
  - intros id N1 N2. unfold set_obj. destruct (Z.eqb_spec id idd), (Z.eqb_spec id idu); congruence.
Qed.

(** every program that uses a Saturation object: [sat_run s x y m]: since its construction or last
    reset, x went into the object s and y came out; the memory is m.  Between calls the program may change
    its own memory. *)
Inductive sat_run : saturation -> list A -> list A -> mem A -> Prop :=
| sr_new m s m' : sat_new plat oversample prec idu idd m = Ok ((s, true), m') -> sat_run s [] [] m'
| sr_process s x y m addr ndebug gu gd gt k inp b out z m' :
    sat_run s x y m -> sat_call_ok m addr k inp b out ->
    sat_process oversample f addr ndebug gu gd gt k s inp (len b) out m = Ok (tt, m') ->
    len z = len b -> has m' out (len b) (nthZ z) ->
    sat_run s (x ++ b) (y ++ z) m'
| sr_reset s x y m addr m' :
    sat_run s x y m -> addr_ok addr -> sat_reset addr s m = Ok (tt, m') -> sat_run s [] [] m'
| sr_client s x y m m' :
    sat_run s x y m -> (forall b i, ~ is_user b -> ~ scratch b -> m' b i = m b i) -> sat_run s x y m'.

Context (Ne : idu <> idd).

Theorem sat_run_inv s x y m : sat_run s x y m -> exists st, reach plat st m /\ sat_state st s x y.
Proof.
  induction 1 as [m s m' E | s x y m addr ndebug gu gd gt k inp b out z m' _ IH K E Lz Hz | s x y m addr m' _ IH AO E | s x y m m' _ IH F].
  - destruct (sat_new_ok (fun _ => None) m (reach_init plat m) eq_refl eq_refl Ne) as (s1 & m1 & st & E1 & H & S & _).
    rewrite E in E1. injection E1 as <- <-. now exists st.
  - destruct IH as (st & H & S). destruct (sat_process_ok st m s x y addr ndebug gu gd gt k inp b out H S K) as (m1 & st1 & z1 & E1 & L1 & Z1 & H1 & S1 & _).
    rewrite E in E1. injection E1 as <-. assert (z1 = z) as ->.
    { apply nthZ_ext; [lia|]. intros i Hi. specialize (Z1 i ltac:(lia)). specialize (Hz i ltac:(lia)). congruence. }
    now exists st1.
  - destruct IH as (st & H & S). destruct (sat_reset_ok st m s x y addr H S AO) as (m1 & st1 & E1 & H1 & S1 & _).
    rewrite E in E1. injection E1 as <-. now exists st1.
  - destruct IH as (st & H & S). exists st. split; [|exact S]. eapply reach_client; eassumption.
Qed.
End Example.
