(** * Executing example programs

    [session] runs the model on concrete blocks; [session_reach] says that a
    successful run is one of the programs quantified over by [reach]. *)
From Coq Require Import ZArith List Lia Bool ZifyNat ZifyBool.
From Verif Require Import Arith Mem FirModel IirModel Tables ResamplerModel Wp Stage Cascade
  ResamplerProof ResamplerOk Spec SpecOk Client Feed Cases.
Import ListNotations.
Open Scope Z_scope.

Section Session.
Context {A : arith} (plat : platform).
Implicit Types m : mem A.

(** read n floats *)
Definition peek m (p : ptr) (n : Z) : res (list A) :=
  match load_list p (Z.to_nat n) m with Ok (l, _) => Ok l | Err e => Err e end.

(** one call: the block and the alignment of the input *)
Definition session_call (r : resampler) (sb : Z * list A) m : res (list A * mem A) :=
  let '(s, b) := sb in
  let n := r_out r (len b) in
  match run_call r (feed_call s b) (prepare b (r_over plat r) n m) with
  | Err e => Err e
  | Ok (_, m') => match peek m' (Ptr (User 1) 0) n with Ok z => Ok (z, m') | Err e => Err e end
  end.

Fixpoint session_calls (r : resampler) (bs : list (Z * list A)) m : res (list A * mem A) :=
  match bs with
  | [] => Ok ([], m)
  | sb :: bs' =>
      match session_call r sb m with
      | Err e => Err e
      | Ok (z, m') => match session_calls r bs' m' with Ok (z', m'') => Ok (z ++ z', m'') | Err e => Err e end
      end
  end.

Definition session (md : rmode) (ratio prec : Z) (use_sse : bool) (f : rfilter) (id : Z)
    (bs : list (Z * list A)) : res (list A) :=
  match construct plat id md ratio prec use_sse f (fun _ _ => None) with
  | Err e => Err e
  | Ok ((r, _), m) => match session_calls r bs m with Ok (z, _) => Ok z | Err e => Err e end
  end.

Lemma load_list_has n : forall p m l m', load_list p n m = Ok (l, m') ->
  m' = m /\ length l = n /\ has m p (len l) (nthZ l).
Proof.
  induction n as [|n IH]; intros p m l m' H.
  - injection H as <- <-. repeat split. intros k Hk. exfalso. change (len (@nil A)) with 0 in Hk. lia.
  - cbn [load_list] in H. unfold bind, load in H. destruct (m (pb p) (po p)) as [v|] eqn:Ev; [|discriminate].
    destruct (load_list (padd p 1) n m) as [[r m1]|e] eqn:El; [|discriminate]. injection H as <- <-.
    apply IH in El. destruct El as (-> & L & Hh). split; [reflexivity|]. split; [cbn; lia|].
    intros k Hk. destruct (Z.eq_dec k 0) as [->|Hn].
    + rewrite Z.add_0_r. exact Ev.
    + replace (po p + k) with (po (padd p 1) + (k - 1)) by (cbn [po padd]; lia).
      change (pb p) with (pb (padd p 1)). rewrite Hh.
      * f_equal. unfold nthZ. replace (Z.to_nat k) with (S (Z.to_nat (k - 1))) by lia. reflexivity.
      * revert Hk. unfold len. cbn [length]. lia.
Qed.

Definition entry_for (sb : Z * list A) : entry (A := A) := entry_of (feed_call (fst sb) (snd sb)) (snd sb).

Lemma session_calls_reach bs : forall st m o id z m',
  reach plat st m -> st id = Some o ->
  Forall (fun sb => 0 <= fst sb /\ size_ok (r_filter (o_res o)) (r_mode (o_res o)) (r_ratio (o_res o)) (len (snd sb))) bs ->
  session_calls (o_res o) bs m = Ok (z, m') ->
  exists st', reach plat st' m' /\ st' id = Some (Obj (o_res o) (o_log o ++ map entry_for bs) (o_out o ++ z)).
Proof.
  induction bs as [|[s b] bs IH]; intros st m o id z m' H E Hb Hs.
  - injection Hs as <- <-. exists st. split; [exact H|]. rewrite !app_nil_r. rewrite E. now destruct o.
  - inversion Hb as [|? ? [Hsh Hsz] Hb']; subst. cbn [fst snd] in *.
    cbn [session_calls] in Hs. unfold session_call in Hs.
    set (m1 := prepare b (r_over plat (o_res o)) (r_out (o_res o) (len b)) m) in *.
    destruct (run_call (o_res o) (feed_call s b) m1) as [[[] m2]|e] eqn:Er; [|discriminate].
    unfold peek in Hs.
    destruct (load_list (Ptr (User 1) 0) (Z.to_nat (r_out (o_res o) (len b))) m2) as [[l m3]|e] eqn:El; [|discriminate].
    destruct (session_calls (o_res o) bs m2) as [[z' m4]|e] eqn:Ec; [|discriminate].
    injection Hs as <- <-.
    assert (Hr : 1 <= r_ratio (o_res o)).
    { destruct (reach_inv _ _ _ H _ _ E) as (_ & Hr & _). destruct Hr as [->|[->|[->| ->]]]; lia. }
    assert (H1 : reach plat st m1).
    { apply reach_client with m; [exact H|]. intros b' i Hu _. unfold m1, prepare.
      destruct b'; try reflexivity. exfalso. apply Hu. now exists k. }
    apply load_list_has in El. destruct El as (_ & Ll & Hh).
    assert (Hz : 0 <= r_out (o_res o) (len b)) by (apply out_size_nonneg; unfold len; lia).
    assert (Lz : len l = r_out (o_res o) (len b)) by (unfold len in *; lia).
    pose proof (reach_call plat st m1 id o (feed_call s b) b l m2 H1 E
      (feed_call_ok plat (o_res o) s b m Hsh Hr Hsz) Er Lz Hh) as R.
    destruct (IH _ _ (obj_call o (feed_call s b) b l) id z' m4 R (set_obj_same _ _ _) Hb' Ec) as (st' & R' & E').
    exists st'. split; [exact R'|]. rewrite E'. cbn [obj_call o_res o_log o_out map]. now rewrite <- !app_assoc.
Qed.

Theorem session_reach md ratio prec use_sse f id bs z :
  configb f ratio prec && forallb (fun sb => (0 <=? fst sb) && sizeb f md ratio (len (snd sb))) bs = true ->
  session md ratio prec use_sse f id bs = Ok z ->
  exists st m, reach plat st m /\ st id = Some (Obj (built plat id md ratio prec use_sse f) (map entry_for bs) z).
Proof.
  intros H Hs. apply andb_prop in H. destruct H as [Hc Hb]. apply configb_ok in Hc. destruct Hc as [Hr HT].
  destruct (reach_new_progress (A := A) plat (fun _ => None) (fun _ _ => None) id md ratio prec use_sse f
      (reach_init plat _) eq_refl Hr HT) as (m' & Hcon & _ & H).
  unfold session in Hs. rewrite Hcon in Hs.
  destruct (session_calls _ bs m') as [[z' m2]|e] eqn:Ec; [|discriminate]. injection Hs as <-.
  destruct (session_calls_reach bs _ _ _ id z' m2 H (set_obj_same _ _ _)) as (st' & R & E).
  - apply Forall_forall. intros sb Hin. rewrite forallb_forall in Hb. apply Hb, andb_prop in Hin. destruct Hin as [H0 Hz].
    split; [lia | now apply sizeb_ok].
  - exact Ec.
  - exists st', m2. split; [exact R|]. rewrite E. reflexivity.
Qed.
End Session.
