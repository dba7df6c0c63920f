(** * Sections with the other sign (process_sample_neg) *)
From Coq Require Import ZArith List Lia Bool ZifyNat ZifyBool.
From Verif Require Import Arith Mem IirModel Wp FirDownProof Stage IirProof IirStage IirSseStage ResamplerModel ResamplerProof ResamplerOk Spec SpecOk SplitModel SplitProof.
From Verif Require Feed.
Import ListNotations.
Open Scope Z_scope.
Open Scope m_scope.

(** ** Passes through the sections, process_sample_pos *)
Section Pass.
Context {A : arith} (sse : bool) (o : iir) (cs : list A).
Implicit Types (m : mem A) (us vs : list A).
Notation NC := (i_nc o).

(** one pass: u enters the sections with even index, v those with odd index; with SSE
    instructions e2 and e3 are the unused lanes *)
Definition pass_pos addr (u v e2 e3 : A) : M A (A * A) :=
  if sse then (r <- stage_sse_pos addr o (V4 v u e2 e3) ;; ret (l1 r, l0 r)) else stage_fpu_pos o (Z.to_nat NC) u v.

Definition p_cok m : Prop := if sse then sse_cok o (nth_f cs) m else fcoef_ok o (nth_f cs) m.
Definition p_stt m (V : Z -> A) : Prop := if sse then sse_stt o m V else fpu_stt o m V.
Definition p_inv m us vs : Prop :=
  p_cok m /\ p_stt m (fun i => W (d_coef sse o cs) (sig us) (sig vs) i (len us - 1)) /\ len us = len vs.

Hypothesis HNC : NC = size cs.

Lemma p_nc : 0 <= NC. Proof. rewrite HNC. unfold size. lia. Qed.

Lemma d_cs_coef : (forall j, 0 <= j < size (d_cs sse cs) -> d_coef sse o cs j = smp (d_cs sse cs) j) /\
  2 * ((size (d_cs sse cs) + 1) / 2) = 2 * ((NC + 1) / 2) /\ 2 * (size (d_cs sse cs) / 2) + 1 = d_e1 sse o.
Proof.
  unfold d_cs, d_coef, d_e1. destruct sse; (split; [|split]).
  - intros j Hj. rewrite even_up_smp by exact Hj. unfold xcoef. rewrite HNC. destruct (j <? size cs); [|reflexivity]. apply nth_f_smp. lia.
  - rewrite even_up_size, HNC. set (h := (size cs + 1) / 2). replace ((2 * h + 1) / 2) with h by (apply Z.div_unique with 1; lia). reflexivity.
  - rewrite even_up_size, HNC. set (h := (size cs + 1) / 2). replace (2 * h / 2) with h by (apply Z.div_unique with 0; lia). reflexivity.
  - intros j Hj. apply nth_f_smp. lia.
  - now rewrite HNC.
  - now rewrite HNC.
Qed.

Lemma sig_snoc us u k : k < len us -> sig (us ++ [u]) k = sig us k.
Proof.
  intros Hk. change (smp (us ++ [u]) k = smp us k). unfold smp. destruct (Z.ltb_spec k 0); [reflexivity|]. unfold len in Hk. apply app_nth1. lia.
Qed.
Lemma sig_last us u : sig (us ++ [u]) (len us) = u.
Proof.
  change (smp (us ++ [u]) (len us) = u). unfold smp. pose proof (len_nonneg us). destruct (Z.ltb_spec (len us) 0); [lia|]. unfold len. rewrite Nat2Z.id, app_nth2, Nat.sub_diag by lia. reflexivity.
Qed.

Lemma pass_runs m us vs u v e2 e3 addr : addr_ok addr -> p_inv m us vs ->
  runs (pass_pos addr u v e2 e3) m (fun r m' =>
    r = (W (d_coef sse o cs) (sig (us ++ [u])) (sig (vs ++ [v])) (2 * ((NC + 1) / 2)) (len us),
         W (d_coef sse o cs) (sig (us ++ [u])) (sig (vs ++ [v])) (d_e1 sse o) (len us)) /\
    p_inv m' (us ++ [u]) (vs ++ [v]) /\ (forall b i, b <> FMem (i_tag o) -> m' b i = m b i)).
Proof.
  intros AO (C & S & L). pose proof p_nc as HN. pose proof (len_nonneg us) as Hl.
  set (X0 := sig (us ++ [u])). set (X1 := sig (vs ++ [v])).
  assert (C0 : causal0 X0) by apply sig_causal0. assert (C1 : causal0 X1) by apply sig_causal0.
  assert (E0 : X0 (len us) = u) by apply sig_last. assert (E1 : X1 (len us) = v) by (rewrite L; apply sig_last).
  assert (L1 : len (us ++ [u]) - 1 = len us) by (rewrite len_app; unfold len; cbn; lia).
  assert (L2 : len (us ++ [u]) = len (vs ++ [v])) by (rewrite !len_app, L; reflexivity).
  assert (S' : p_stt m (fun i => W (d_coef sse o cs) X0 X1 i (len us - 1))).
  { assert (X : forall i, W (d_coef sse o cs) (sig us) (sig vs) i (len us - 1) = W (d_coef sse o cs) X0 X1 i (len us - 1)).
    { intros i. apply W_ext; intros j Hj; symmetry; apply sig_snoc; lia. }
    unfold p_stt in *. destruct sse; [eapply sse_stt_ext | eapply fpu_stt_ext]; try exact S; exact X. }
  unfold pass_pos, p_inv, p_cok, p_stt, d_coef, d_e1 in *. rewrite L1. destruct sse.
  - apply runs_bind. eapply runs_mono; [apply (sse_step addr o (nth_f cs) X0 X1 (len us)); try assumption; try (cbn [l0 l1]; congruence); split; apply AO|].
    intros r m' (R1 & R0 & C2 & S2 & F). apply runs_ret. rewrite R1, R0. split; [reflexivity|]. split; [split; [exact C2|]; split; [exact S2 | exact L2]|]. exact F.
  - rewrite <- E0 at 1. rewrite <- E1 at 1. eapply runs_mono; [apply (fpu_step o (nth_f cs) X0 X1 (len us)); assumption|].
    intros r m' (R & C2 & S2 & F). split; [exact R|]. split; [split; [exact C2|]; split; [exact S2 | exact L2]|]. exact F.
Qed.

Lemma chain_snoc_smp (l : list A) us u : chain l (us ++ [u]) = chain l us ++ [smp (chain l (us ++ [u])) (len us)].
Proof.
  assert (P : forall x y : list A, exists z, chain l (x ++ y) = chain l x ++ z).
  { assert (Q : forall c (y x : list A) x1 y1, exists z, allpass_from c x1 y1 (x ++ y) = allpass_from c x1 y1 x ++ z).
    { intros c y x. induction x as [|a x IH]; intros x1 y1; [eexists; reflexivity|]. cbn [app allpass_from]. cbn zeta. destruct (IH a (fadd (fmul (fsub a y1) c) x1)) as [z ->]. eexists; reflexivity. }
    induction l as [|c r IH]; intros x y; [eexists; reflexivity|].
    change (chain (c :: r) (x ++ y)) with (chain r (allpass c (x ++ y))). change (chain (c :: r) x) with (chain r (allpass c x)).
    unfold allpass. destruct (Q c y x f0 f0) as [z ->]. apply IH. }
  destruct (P us [u]) as [z E]. rewrite E.
  assert (Lz : length z = 1%nat).
  { apply (f_equal (@length A)) in E. rewrite app_length, !chain_length, app_length in E. cbn [length] in E. lia. }
  destruct z as [|a [|b z]]; try discriminate Lz. f_equal. f_equal. unfold smp, len. destruct (Z.ltb_spec (Z.of_nat (length us)) 0); [lia|].
  rewrite Nat2Z.id, app_nth2; rewrite chain_length; [|lia]. rewrite Nat.sub_diag. reflexivity.
Qed.

Lemma pass_runs_chain m us vs u v e2 e3 addr : addr_ok addr -> p_inv m us vs ->
  runs (pass_pos addr u v e2 e3) m (fun r m' =>
    chain (evens (d_cs sse cs)) (us ++ [u]) = chain (evens (d_cs sse cs)) us ++ [fst r] /\
    chain (odds (d_cs sse cs)) (vs ++ [v]) = chain (odds (d_cs sse cs)) vs ++ [snd r] /\
    p_inv m' (us ++ [u]) (vs ++ [v]) /\ (forall b i, b <> FMem (i_tag o) -> m' b i = m b i)).
Proof.
  intros AO I0. eapply runs_mono; [apply (pass_runs m us vs); assumption|]. intros r m' (-> & I' & F). cbn [fst snd].
  destruct I0 as (_ & _ & L). destruct d_cs_coef as (K1 & K2 & K3). pose proof (len_nonneg us) as Hl.
  split; [|split; [|split; assumption]].
  - rewrite <- K2, (W_even (d_cs sse cs) _ _ _ (us ++ [u])); [apply chain_snoc_smp | exact K1 | reflexivity|]. unfold size. rewrite app_length. unfold len. cbn [length]. lia.
  - rewrite <- K3, (W_odd (d_cs sse cs) _ _ _ (vs ++ [v])); [rewrite L; apply chain_snoc_smp | exact K1 | reflexivity|]. unfold size. rewrite app_length. unfold len in *. cbn [length]. lia.
Qed.

Lemma p_construct_runs m : runs (d_construct sse o cs) m (fun _ m' => p_inv m' [] [] /\ forall b i, tag_of b <> Some (i_tag o) -> m' b i = m b i).
Proof.
  pose proof p_nc as HN. unfold d_construct, p_inv, p_cok, p_stt, d_coef. destruct sse.
  - eapply runs_mono; [apply sse_construct_runs; exact HN|]. intros _ m' ([H1 H2] & _ & F). auto.
  - eapply runs_mono; [apply fpu_construct_runs; exact HN|]. intros _ m' ([H1 H2] & _ & F). auto.
Qed.
Lemma p_clear_runs m us vs addr : p_inv m us vs -> addr_ok addr ->
  runs (d_clear sse o addr) m (fun _ m' => p_inv m' [] [] /\ forall b i, tag_of b <> Some (i_tag o) -> m' b i = m b i).
Proof.
  pose proof p_nc as HN. unfold d_clear, p_inv, p_cok, p_stt, d_coef. intros (C & S & L) AO. destruct sse.
  - eapply runs_mono; [eapply sse_clear_runs; [exact HN | split; apply AO | exact C | exact S]|]. intros _ m' ([H1 H2] & _ & F). auto.
  - eapply runs_mono; [eapply fpu_clear_runs; [exact HN | exact C | exact S]|]. intros _ m' ([H1 H2] & _ & F). auto.
Qed.
Lemma p_inv_other m m' us vs : (forall b i, tag_of b = Some (i_tag o) -> m' b i = m b i) -> p_inv m us vs -> p_inv m' us vs.
Proof.
  unfold p_inv, p_cok, p_stt. intros E (C & S & L). split; [|split; [|exact L]]; destruct sse.
  - eapply sse_cok_loc; [exact E | exact C].
  - eapply fpu_cok_loc; [exact E | exact C].
  - apply (sse_stt_loc o _ _ _ E S).
  - apply (fpu_stt_loc o _ _ _ E S).
Qed.
End Pass.

(** ** The other sign: the same program in an arithmetic with + and - exchanged *)
Definition flip (A : arith) : arith :=
  {| T := A; f0 := f0; f1 := f1; fhalf := fhalf; fadd := fsub; fsub := fadd; fmul := fmul; fdy := fdy |}.

Lemma bind_flip {A : arith} {X Y} (c : M A X) (c' : M (flip A) X) (k : X -> M A Y) (k' : X -> M (flip A) Y) (m : mem A) :
  c m = c' m -> (forall x (m' : mem A), k x m' = k' x m') -> bind (A := A) c k m = bind (A := flip A) c' k' m.
Proof. intros E K. unfold bind. rewrite E. destruct (c' m) as [[x m']|]; [apply K | reflexivity]. Qed.

Lemma stage_fpu_neg_flip {A : arith} o n (u v : A) m : stage_fpu_neg o n u v m = stage_fpu_pos (A := flip A) o n u v m.
Proof.
  enough (H : (forall (u v : A) m, stage_fpu_neg o n u v m = stage_fpu_pos (A := flip A) o n u v m) /\
              (forall (u v : A) m, stage_fpu_neg o (S n) u v m = stage_fpu_pos (A := flip A) o (S n) u v m)) by apply H.
  clear u v m. induction n as [|n [IH1 IH2]]; [split; reflexivity|]. split; [exact IH2|]. intros a b m.
  cbn [stage_fpu_neg stage_fpu_pos]. cbv zeta.
  repeat (apply bind_flip; [reflexivity | intros ? ?]). apply IH1.
Qed.
Definition fv {A : arith} (x : v4 A) : v4 (flip A) := V4 (A := flip A) (l0 x) (l1 x) (l2 x) (l3 x).
Definition fr {A : arith} (r : res (v4 A * mem A)) : res (v4 (flip A) * mem A) := match r with Ok (x, m) => Ok (fv x, m) | Err e => Err e end.
Lemma load4_flip {A : arith} addr p (m : mem A) : load4 (A := flip A) addr p m = fr (load4 addr p m).
Proof.
  unfold load4. destruct (aligned16 addr p); [|reflexivity].
  unfold loadu4, bind, load, ret. cbn [flip T].
  destruct (m (pb p) (po p)); [|reflexivity]. destruct (m (pb (padd p 1)) (po (padd p 1))); [|reflexivity].
  destruct (m (pb (padd p 2)) (po (padd p 2))); [|reflexivity]. destruct (m (pb (padd p 3)) (po (padd p 3))); reflexivity.
Qed.
Lemma store4_flip {A : arith} addr p (x : v4 A) (m : mem A) : store4 (A := flip A) addr p (fv x) m = store4 addr p x m.
Proof. reflexivity. Qed.
Lemma stage_sse_neg_rec_flip {A : arith} addr o n (x : v4 A) (m : mem A) :
  stage_sse_pos_rec (A := flip A) addr o n (fv x) m = fr (stage_sse_neg_rec addr o n x m).
Proof.
  revert m. induction n as [|n IH]; intros m; [reflexivity|]. cbn [stage_sse_neg_rec stage_sse_pos_rec].
  unfold bind. rewrite IH. unfold fr at 1. destruct (stage_sse_neg_rec addr o n x m) as [[y m1]|]; [|reflexivity].
  rewrite load4_flip. unfold fr at 1. destruct (load4 addr (fmem o (4 * Z.of_nat n)) m1) as [[t m2]|]; [|reflexivity].
  rewrite store4_flip. destruct (store4 addr (fmem o (4 * Z.of_nat n)) y m2) as [[[] m3]|]; [|reflexivity].
  rewrite load4_flip. unfold fr at 1. destruct (load4 addr (fmem o (4 * Z.of_nat (S n))) m3) as [[mm m4]|]; [|reflexivity].
  rewrite load4_flip. unfold fr at 1. destruct (load4 addr (fcoef o (4 * Z.of_nat (S n))) m4) as [[co m5]|]; reflexivity.
Qed.
Lemma stage_sse_neg_flip {A : arith} addr o (x : v4 A) (m : mem A) : stage_sse_pos (A := flip A) addr o (fv x) m = fr (stage_sse_neg addr o x m).
Proof.
  unfold stage_sse_neg, stage_sse_pos, bind. rewrite stage_sse_neg_rec_flip. unfold fr at 1.
  destruct (stage_sse_neg_rec addr o (Z.to_nat (nbr_stages o)) x m) as [[y m1]|]; [|reflexivity].
  rewrite store4_flip. destruct (store4 addr (fmem o (4 * nbr_stages o)) y m1) as [[[] m2]|]; reflexivity.
Qed.

(** the section y[k] = (x[k] + y[k-1]) c - x[k-1] and chains of them *)
Section Neg.
Context {A : arith}.
Fixpoint nallpass_from (c x1 y1 : A) (x : list A) : list A :=
  match x with
  | [] => []
  | x0 :: r => let y0 := fsub (fmul (fadd x0 y1) c) x1 in y0 :: nallpass_from c x0 y0 r
  end.
Definition nallpass (c : A) (x : list A) : list A := nallpass_from c f0 f0 x.
Fixpoint nchain (cs : list A) (x : list A) : list A := match cs with [] => x | c :: r => nchain r (nallpass c x) end.

Lemma nallpass_flip c x1 y1 x : nallpass_from c x1 y1 x = allpass_from (A := flip A) c x1 y1 x.
Proof. revert x1 y1. induction x as [|x0 x IH]; intros x1 y1; [reflexivity|]. cbn [nallpass_from allpass_from]. cbv zeta. rewrite IH. reflexivity. Qed.
Lemma nchain_flip cs x : nchain cs x = chain (A := flip A) cs x.
Proof.
  revert x. induction cs as [|c r IH]; intros x; [reflexivity|]. cbn [nchain]. rewrite IH. change (chain (A := flip A) (c :: r) x) with (chain (A := flip A) r (allpass (A := flip A) c x)).
  f_equal.
Qed.
End Neg.

Section Programs.
Context {A : arith} (sse : bool) (o : iir) (cs : list A).
Implicit Types (m : mem A) (us vs ps qs : list A).

Definition pass_neg addr (u v e2 e3 : A) : M A (A * A) :=
  if sse then (r <- stage_sse_neg addr o (V4 v u e2 e3) ;; ret (l1 r, l0 r)) else stage_fpu_neg o (Z.to_nat (i_nc o)) u v.

(** us and vs went through the sections (cs at construction) since the construction or the last
    clear_buffers, ps and qs came out *)
Inductive passes : mem A -> list A -> list A -> list A -> list A -> Prop :=
| passes_new m m' : d_construct sse o cs m = Ok (tt, m') -> passes m' [] [] [] []
| passes_clear m us vs ps qs addr m' : passes m us vs ps qs -> addr_ok addr -> d_clear sse o addr m = Ok (tt, m') -> passes m' [] [] [] []
| passes_call m us vs ps qs addr u v e2 e3 p q m' : passes m us vs ps qs -> addr_ok addr -> pass_neg addr u v e2 e3 m = Ok ((p, q), m') ->
    passes m' (us ++ [u]) (vs ++ [v]) (ps ++ [p]) (qs ++ [q])
| passes_other m us vs ps qs m' : passes m us vs ps qs -> (forall b i, tag_of b = Some (i_tag o) -> m' b i = m b i) -> passes m' us vs ps qs.

Hypothesis HNC : i_nc o = size cs.

Lemma pass_neg_flip addr u v e2 e3 m : pass_neg addr u v e2 e3 m = pass_pos (A := flip A) sse o addr u v e2 e3 m.
Proof.
  unfold pass_neg, pass_pos. destruct sse; [|apply stage_fpu_neg_flip]. unfold bind.
  change (V4 (A := flip A) v u e2 e3) with (fv (V4 v u e2 e3)). rewrite stage_sse_neg_flip. unfold fr.
  destruct (stage_sse_neg addr o (V4 v u e2 e3) m) as [[y m1]|]; reflexivity.
Qed.
Lemma d_construct_flip m : d_construct sse o cs m = d_construct (A := flip A) sse o cs m.
Proof. unfold d_construct. destruct sse; reflexivity. Qed.
Lemma d_clear_flip addr m : d_clear sse o addr m = d_clear (A := flip A) sse o addr m.
Proof. unfold d_clear. destruct sse; reflexivity. Qed.

Definition inv := p_inv (A := flip A) sse o cs.
Theorem passes_inv m us vs ps qs : passes m us vs ps qs ->
  inv m us vs /\ ps = nchain (evens (d_cs sse cs)) us /\ qs = nchain (odds (d_cs sse cs)) vs.
Proof.
  assert (N : forall l : list A, [] = nchain l []) by (intros l; induction l; [reflexivity | assumption]).
  induction 1 as [m m' E|m us vs ps qs addr m' H IH AO E|m us vs ps qs addr u v e2 e3 p q m' H IH AO E|m us vs ps qs m' H IH E].
  - split; [|split; apply N]. rewrite d_construct_flip in E. exact (proj1 (runs_ok _ _ _ _ _ (p_construct_runs (A := flip A) sse o cs HNC m) E)).
  - split; [|split; apply N]. rewrite d_clear_flip in E. exact (proj1 (runs_ok _ _ _ _ _ (p_clear_runs (A := flip A) sse o cs HNC m us vs addr (proj1 IH) AO) E)).
  - destruct IH as (I0 & -> & ->). rewrite pass_neg_flip in E.
    destruct (runs_ok _ _ _ _ _ (pass_runs_chain (A := flip A) sse o cs HNC m us vs u v e2 e3 addr AO I0) E) as (Ep & Eq & I' & _). cbn [fst snd] in Ep, Eq.
    split; [exact I'|]. rewrite !nchain_flip. split; symmetry; [exact Ep | exact Eq].
  - destruct IH as (I0 & -> & ->). split; [exact (p_inv_other (A := flip A) sse o cs m m' us vs E I0) | split; reflexivity].
Qed.
Theorem passes_progress m us vs ps qs addr u v e2 e3 : passes m us vs ps qs -> addr_ok addr ->
  exists p q m', pass_neg addr u v e2 e3 m = Ok ((p, q), m') /\ passes m' (us ++ [u]) (vs ++ [v]) (ps ++ [p]) (qs ++ [q]) /\
    (forall b i, b <> FMem (i_tag o) -> m' b i = m b i).
Proof.
  intros H AO. destruct (passes_inv _ _ _ _ _ H) as (I0 & _ & _).
  destruct (runs_ex _ _ _ (pass_runs_chain (A := flip A) sse o cs HNC m us vs u v e2 e3 addr AO I0)) as ([p q] & m' & E & _ & _ & _ & F).
  rewrite <- pass_neg_flip in E. exists p, q, m'. split; [exact E|]. split; [eapply passes_call; eassumption | exact F].
Qed.
Theorem passes_clear_progress m us vs ps qs addr : passes m us vs ps qs -> addr_ok addr ->
  exists m', d_clear sse o addr m = Ok (tt, m') /\ passes m' [] [] [] [].
Proof.
  intros H AO. destruct (passes_inv _ _ _ _ _ H) as (I0 & _ & _).
  destruct (runs_ex _ _ _ (p_clear_runs (A := flip A) sse o cs HNC m us vs addr I0 AO)) as ([] & m' & E & _).
  rewrite <- d_clear_flip in E. exists m'. split; [exact E|]. eapply passes_clear; eassumption.
Qed.
Theorem passes_new_progress m : exists m', d_construct sse o cs m = Ok (tt, m') /\ passes m' [] [] [] [] /\
  forall b i, tag_of b <> Some (i_tag o) -> m' b i = m b i.
Proof.
  destruct (runs_ex _ _ _ (p_construct_runs (A := flip A) sse o cs HNC m)) as ([] & m' & E & _ & F).
  rewrite <- d_construct_flip in E. exists m'. split; [exact E|]. split; [eapply passes_new; exact E | exact F].
Qed.
(** any two streams of the same length *)
Theorem passes_all us vs : length us = length vs -> exists m ps qs, passes m us vs ps qs.
Proof.
  revert vs. induction us as [|u us IH] using rev_ind; intros vs L.
  - destruct vs; [|discriminate L]. destruct (passes_new_progress (fun _ _ => None)) as (m & _ & H & _). eauto.
  - destruct (exists_last (l := vs)) as (vs' & v & ->); [intros ->; rewrite app_length in L; cbn in L; lia|].
    rewrite !app_length in L. cbn [length] in L. destruct (IH vs' ltac:(lia)) as (m & ps & qs & H).
    destruct (passes_progress m us vs' ps qs (Feed.addr_ex 0 0) u v u v H (Feed.addr_ex_ok 0 0)) as (p & q & m' & _ & H' & _). eauto.
Qed.
End Programs.
