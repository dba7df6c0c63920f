(** * Programs that use Resampler2 objects

    [reach plat st m]: some program that uses any number of resampler objects can
    be in a state with memory m, where [st id] tells for every live object which
    calls were made and which samples came out since its construction or last reset.

    Between calls the program may do anything to its own memory.  Every call may
    come with its own addresses of stack arrays and its own contents of
    uninitialised memory. *)
From Coq Require Import ZArith List Lia Bool ZifyNat ZifyBool.
From Verif Require Import Arith Mem FirModel IirModel Tables ResamplerModel Wp Stage Cascade
  ResamplerProof ResamplerOk Spec SpecOk.
Import ListNotations.
Open Scope Z_scope.

Section Client.
Context {A : arith} (plat : platform).
Implicit Types m : mem A.

(** a call of process_block *)
Record call := Call {
  c_addr : blk -> Z;              (* addresses of all arrays *)
  c_ndebug : bool;                (* asserts disabled *)
  c_garbage : Z -> Z -> Z -> A;   (* contents of uninitialised stack arrays *)
  c_input : ptr;
  c_n : Z;
  c_output : ptr }.

Definition run_call (r : resampler) (q : call) : M A unit :=
  process_block (c_addr q) (c_ndebug q) (c_garbage q) r (c_input q) (c_n q) (c_output q).

(** floats read behind the input, and floats written, for n input samples *)
Definition r_over (r : resampler) : Z :=
  over_read (vector plat (r_filter r) (r_use_sse r)) (r_filter r) (r_mode r) (r_ratio r).
Definition r_out (r : resampler) (n : Z) : Z := out_size (r_mode r) (r_ratio r) n.

(** the call writes its output over its input *)
Definition in_place (r : resampler) (q : call) : Prop :=
  in_place_ok (vector plat (r_filter r) (r_use_sse r)) (r_filter r) (r_mode r) (r_ratio r) /\
  pb (c_output q) = pb (c_input q) /\ po (c_output q) <= po (c_input q).

(** The caller's obligations: input and output are arrays of the caller, the
    input holds the samples b, the output has room, and the two do not overlap.
    Where [in_place_ok] allows it, the output may also start in the array of the
    input, at the beginning of the input or before it.
    [co_sep], [co_stack]: different arrays have different addresses. *)
Record call_ok (r : resampler) m (q : call) (b : list A) : Prop := {
  co_addr : addr_ok (c_addr q);
  co_n : c_n q = len b;
  co_size : size_ok (r_filter r) (r_mode r) (r_ratio r) (len b);
  co_in_user : is_user (pb (c_input q));
  co_out_user : is_user (pb (c_output q));
  co_in : has m (c_input q) (len b) (nthZ b);
  co_slack : mapped m (padd (c_input q) (len b)) (r_over r);
  co_out : mapped m (c_output q) (r_out r (len b));
  co_disj : disj (c_input q) (len b + r_over r) (c_output q) (r_out r (len b)) \/ in_place r q;
  co_sep : 0 < len b -> asep (c_addr q) (c_input q) (len b) (c_output q) (r_out r (len b)) \/ in_place r q;
  co_stack : forall t, t = Tmp \/ t = Tmp2 ->
    asep (c_addr q) (c_input q) (len b + r_over r) (Ptr t 0) 4096 /\
    asep (c_addr q) (c_output q) (r_out r (len b)) (Ptr t 0) 4096 }.

(** what the program did with an object since its construction or last reset:
    one entry per call, and the samples that came out *)
Record entry := Entry { e_addr : blk -> Z; e_input : ptr; e_output : ptr; e_block : list A }.
Record obj := Obj { o_res : resampler; o_log : list entry; o_out : list A }.
(** the samples that went in *)
Definition o_in (o : obj) : list A := concat (map e_block (o_log o)).
Definition entry_of (q : call) (b : list A) : entry := Entry (c_addr q) (c_input q) (c_output q) b.
(** the object after one more call *)
Definition obj_call (o : obj) (q : call) (b z : list A) : obj :=
  Obj (o_res o) (o_log o ++ [entry_of q b]) (o_out o ++ z).
Lemma o_in_call o q b z : o_in (obj_call o q b z) = o_in o ++ b.
Proof. unfold o_in, obj_call. cbn [o_log]. rewrite map_app, concat_app. cbn. now rewrite app_nil_r. Qed.

Definition state := Z -> option obj.
Definition set_obj (st : state) (id : Z) (o : option obj) : state :=
  fun i => if i =? id then o else st i.

Inductive reach : state -> mem A -> Prop :=
| reach_init m : reach (fun _ => None) m
| reach_new st m id md ratio prec use_sse f r m' :
    reach st m -> st id = None ->
    ratio_no ratio -> (2 <= ratio -> has_tables f prec) ->
    construct plat id md ratio prec use_sse f m = Ok ((r, true), m') ->
    reach (set_obj st id (Some (Obj r [] []))) m'
| reach_call st m id o q b z m' :
    reach st m -> st id = Some o ->
    call_ok (o_res o) m q b ->
    run_call (o_res o) q m = Ok (tt, m') ->
    len z = r_out (o_res o) (len b) -> has m' (c_output q) (len z) (nthZ z) ->
    reach (set_obj st id (Some (obj_call o q b z))) m'
| reach_reset st m id o addr m' :
    reach st m -> st id = Some o -> addr_ok addr ->
    reset addr (o_res o) m = Ok (tt, m') ->
    reach (set_obj st id (Some (Obj (o_res o) [] []))) m'
| reach_delete st m id m' :
    reach st m -> (forall b i, ~ own id b -> m' b i = m b i) ->
    reach (set_obj st id None) m'
| reach_client st m m' :
    reach st m -> (forall b i, ~ is_user b -> ~ scratch b -> m' b i = m b i) ->
    reach st m'.

(** the coefficients an object works with *)
Definition res_coefs (r : resampler) : Z -> Z -> A := built_coefs (r_mode r) (r_prec r) (r_filter r).

Definition obj_ok (id : Z) (o : obj) m : Prop :=
  let r := o_res o in
  r = built plat id (r_mode r) (r_ratio r) (r_prec r) (r_use_sse r) (r_filter r) /\
  ratio_no (r_ratio r) /\ (2 <= r_ratio r -> has_tables (r_filter r) (r_prec r)) /\
  good r /\ res_S r (res_coefs r) m (o_in o) (o_out o).

Lemma obj_ok_id id o m : obj_ok id o m -> r_id (o_res o) = id.
Proof. intros (-> & _). reflexivity. Qed.

Lemma obj_ok_frame id o m m' : (forall b i, own id b -> m' b i = m b i) -> obj_ok id o m -> obj_ok id o m'.
Proof.
  intros F H. pose proof (obj_ok_id _ _ _ H) as E. destruct H as (H1 & H2 & H3 & H4 & H5).
  repeat split; try assumption; try apply H4.
  eapply res_S_owned; [exact H4 | | exact H5]. rewrite E. exact F.
Qed.

Lemma own_not_user id b : own id b -> ~ is_user b /\ ~ scratch b.
Proof.
  intros (s & _ & E). split.
  - intros [k ->]. discriminate.
  - intros [->|[->| ->]]; discriminate.
Qed.

Lemma call_runs id o m q b : obj_ok id o m -> call_ok (o_res o) m q b ->
  runs (run_call (o_res o) q) m (fun _ m' => exists y,
    len y = r_out (o_res o) (len b) /\
    res_S (o_res o) (res_coefs (o_res o)) m' (o_in o ++ b) (o_out o ++ y) /\
    has m' (c_output q) (len y) (nthZ y) /\
    (forall b' i, ~ own id b' -> ~ scratch b' -> ~ inr (c_output q) (len y) b' i -> m' b' i = m b' i)).
Proof.
  intros H K. pose proof (obj_ok_id _ _ _ H) as E. destruct H as (H1 & H2 & H3 & H4 & H5).
  unfold run_call. rewrite (co_n _ _ _ _ K).
  assert (Es : res_slack (o_res o) = r_over (o_res o)).
  { rewrite H1 at 1. apply built_slack; assumption. }
  assert (Ez : res_okn (o_res o) (len b)).
  { rewrite H1. apply built_size_ok; [assumption | assumption | apply K]. }
  assert (Eip : in_place_ok (vector plat (r_filter (o_res o)) (r_use_sse (o_res o))) (r_filter (o_res o)) (r_mode (o_res o))
      (r_ratio (o_res o)) -> res_ip (o_res o)).
  { intros D. rewrite H1. apply built_ip; assumption. }
  change (r_out (o_res o) (len b)) with (res_outn (o_res o) (len b)).
  eapply runs_mono.
  { apply (process_block_ok (c_addr q) (c_ndebug q) (c_garbage q) (o_res o) (res_coefs (o_res o))
      (co_addr _ _ _ _ K) H4 m (o_in o) (o_out o) b (c_input q) (c_output q) H5 I Ez); rewrite ?Es.
    - split; [apply K|]. intros _. split; apply (co_stack _ _ _ _ K); auto.
    - split; [apply K|]. intros _. split; apply (co_stack _ _ _ _ K); auto.
    - apply K.
    - apply K.
    - apply K.
    - destruct (co_disj _ _ _ _ K) as [D|[D1 D2]]; [left; exact D | right; split; [apply Eip, D1 | exact D2]].
    - intros L. destruct (co_sep _ _ _ _ K L) as [D|[D1 D2]]; [left; exact D | right; split; [apply Eip, D1 | exact D2]]. }
  intros u m' (_ & y & Ly & S & Hy & F). exists y. split; [exact Ly|]. split; [exact S|]. split; [exact Hy|].
  intros b' i Ho Hs Hi. apply F; [|rewrite <- Ly; exact Hi]. intros [Q|Q]; [rewrite E in Q|]; contradiction.
Qed.

Lemma list_has_eq m p (y z : list A) : len y = len z -> has m p (len y) (nthZ y) -> has m p (len z) (nthZ z) -> y = z.
Proof.
  intros L H1 H2. apply nthZ_ext; [exact L|]. intros k Hk.
  specialize (H1 k Hk). specialize (H2 k ltac:(lia)). congruence.
Qed.

Theorem reach_inv st m : reach st m -> forall id o, st id = Some o -> obj_ok id o m.
Proof.
  induction 1 as [m | st m id md ratio prec use_sse f r m' _ IH Hid Hr HT Hc
    | st m id o q b z m' _ IH Hid K Hrun Lz Hz | st m id o addr m' _ IH Hid AO Hrun | st m id m' _ IH F | st m m' _ IH F];
    intros id' o' Ho.
  - discriminate.
  - pose proof (construct_ok plat id md ratio prec use_sse f m Hr HT) as R.
    unfold runs in R. rewrite Hc in R. destruct R as (E & G & S & F).
    assert (Er : r = built plat id md ratio prec use_sse f) by congruence.
    unfold set_obj in Ho. destruct (Z.eqb_spec id' id) as [->|Hne].
    + assert (o' = Obj r [] []) by congruence. subst o' r.
      unfold obj_ok. cbn [o_res o_log o_out].
      split; [reflexivity|]. split; [exact Hr|]. split; [exact HT|]. split; [exact G | exact S].
    + apply (obj_ok_frame id' o' m); [|apply IH, Ho]. intros b i Hb. apply F. intros Hb'.
      apply Hne. apply (own_disj _ _ b Hb Hb').
  - pose proof (call_runs id o m q b (IH _ _ Hid) K) as R. unfold runs in R. rewrite Hrun in R.
    destruct R as (y & Ly & S & Hy & F).
    assert (y = z) by (eapply list_has_eq; [lia | exact Hy | exact Hz]). subst z.
    unfold set_obj in Ho. destruct (Z.eqb_spec id' id) as [->|Hne].
    + assert (Eo : o' = obj_call o q b y) by congruence. subst o'.
      destruct (IH _ _ Hid) as (H1 & H2 & H3 & H4 & H5).
      unfold obj_ok. rewrite o_in_call. cbn [obj_call o_res o_out].
      split; [exact H1|]. split; [exact H2|]. split; [exact H3|]. split; [exact H4 | exact S].
    + apply (obj_ok_frame id' o' m); [|apply IH, Ho]. intros b' i Hb.
      destruct (own_not_user _ _ Hb) as [Nu Ns]. apply F.
      * intros Hb'. apply Hne. apply (own_disj _ _ b' Hb Hb').
      * exact Ns.
      * intros [-> _]. apply Nu, K.
  - pose proof (IH _ _ Hid) as Hok. pose proof (obj_ok_id _ _ _ Hok) as E.
    destruct Hok as (H1 & H2 & H3 & H4 & H5).
    pose proof (reset_ok addr (o_res o) (res_coefs (o_res o)) m _ _ AO H4 H5) as R.
    unfold runs in R. rewrite Hrun in R. destruct R as (S & F). rewrite E in F.
    unfold set_obj in Ho. destruct (Z.eqb_spec id' id) as [->|Hne].
    + assert (Eo : o' = Obj (o_res o) [] []) by congruence. subst o'. unfold obj_ok. cbn [o_res o_log o_out].
      split; [exact H1|]. split; [exact H2|]. split; [exact H3|]. split; [exact H4 | exact S].
    + apply (obj_ok_frame id' o' m); [|apply IH, Ho]. intros b' i Hb. apply F.
      intros Hb'. apply Hne. apply (own_disj _ _ b' Hb Hb').
  - unfold set_obj in Ho. destruct (Z.eqb_spec id' id) as [->|Hne]; [discriminate|].
    apply (obj_ok_frame id' o' m); [|apply IH, Ho]. intros b' i Hb. apply F.
    intros Hb'. apply Hne. apply (own_disj _ _ b' Hb Hb').
  - apply (obj_ok_frame id' o' m); [|apply IH, Ho]. intros b' i Hb. apply F; apply (own_not_user _ _ Hb).
Qed.

(** streams of every object, at any time *)
Theorem reach_streams st m id o : reach st m -> st id = Some o ->
  res_R (o_res o) (res_coefs (o_res o)) (o_in o) (o_out o).
Proof. intros H E. destruct (reach_inv _ _ H _ _ E) as (_ & _ & _ & _ & S). eapply res_S_R, S. Qed.

(** a proper call terminates without error, writes its output and nothing else of the caller *)
(** in any arithmetic, the whole output is that of the specification *)
Theorem reach_resample_any st m id o : reach st m -> st id = Some o ->
  let r := o_res o in
  resample_any (r_filter r) (r_mode r) (r_prec r) (vector plat (r_filter r) (r_use_sse r)) (r_ratio r)
    (o_in o) (o_out o).
Proof.
  intros H E r. destruct (reach_inv _ _ H _ _ E) as (H1 & H2 & H3 & H4 & H5).
  apply (built_resample_any plat id); [exact H2 | exact H3 |]. unfold r. rewrite <- H1.
  eapply res_S_R, H5.
Qed.

(** bit for bit, where vector code does not change the order of additions *)
Theorem reach_resample st m id o : reach st m -> st id = Some o ->
  let r := o_res o in
  (r_filter r = FILTER_FIR -> vector plat (r_filter r) (r_use_sse r) = false) ->
  o_out o = resample (r_filter r) (r_mode r) (r_prec r) (vector plat (r_filter r) (r_use_sse r)) (r_ratio r) (o_in o).
Proof. intros H E r V. apply resample_any_fun; [exact V|]. eapply reach_resample_any; eassumption. Qed.

Theorem reach_call_progress st m id o q b : reach st m -> st id = Some o -> call_ok (o_res o) m q b ->
  exists m' z, run_call (o_res o) q m = Ok (tt, m') /\ len z = r_out (o_res o) (len b) /\
    has m' (c_output q) (len z) (nthZ z) /\
    (forall b' i, is_user b' -> ~ inr (c_output q) (len z) b' i -> m' b' i = m b' i) /\
    reach (set_obj st id (Some (obj_call o q b z))) m'.
Proof.
  intros H E K. pose proof (call_runs id o m q b (reach_inv _ _ H _ _ E) K) as R.
  apply runs_inv in R. destruct R as ([] & m' & Hrun & y & Ly & S & Hy & F).
  exists m', y. split; [exact Hrun|]. split; [exact Ly|]. split; [exact Hy|]. split.
  - intros b' i [k ->] Hn. apply F; [intros (s & _ & Q); discriminate | intros [Q|[Q|Q]]; discriminate | exact Hn].
  - eapply reach_call; eassumption.
Qed.

Theorem reach_reset_progress st m id o addr : reach st m -> st id = Some o -> addr_ok addr ->
  exists m', reset addr (o_res o) m = Ok (tt, m') /\
    (forall b i, is_user b -> m' b i = m b i) /\
    reach (set_obj st id (Some (Obj (o_res o) [] []))) m'.
Proof.
  intros H E AO. destruct (reach_inv _ _ H _ _ E) as (H1 & H2 & H3 & H4 & H5).
  pose proof (reset_ok addr (o_res o) (res_coefs (o_res o)) m _ _ AO H4 H5) as R.
  apply runs_inv in R. destruct R as ([] & m' & Hrun & S & F).
  exists m'. split; [exact Hrun|]. split.
  - intros b i [k ->]. apply F. intros (s & _ & Q). discriminate.
  - eapply reach_reset; eassumption.
Qed.

Theorem reach_new_progress st m id md ratio prec use_sse f :
  reach st m -> st id = None -> ratio_no ratio -> (2 <= ratio -> has_tables f prec) ->
  exists m', let r := built plat id md ratio prec use_sse f in
    construct plat id md ratio prec use_sse f m = Ok ((r, true), m') /\
    (forall b i, is_user b -> m' b i = m b i) /\
    reach (set_obj st id (Some (Obj r [] []))) m'.
Proof.
  intros H E Hr HT. pose proof (construct_ok plat id md ratio prec use_sse f m Hr HT) as R.
  apply runs_inv in R. destruct R as (x & m' & Hrun & -> & G & S & F).
  exists m'. split; [exact Hrun|]. split.
  - intros b i [k ->]. apply F. intros (s & _ & Q). discriminate.
  - eapply reach_new; eassumption.
Qed.
End Client.
