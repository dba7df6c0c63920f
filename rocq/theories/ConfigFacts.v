(** * Construction with arbitrary arguments, and the queries *)
From Coq Require Import ZArith Reals List Lia Lra Bool ZifyNat ZifyBool String.
From Verif Require Import Arith ArithF Mem FirModel IirModel Tables ResamplerModel Wp FirKernel Stage Cascade
  ResamplerProof ResamplerOk Spec SpecOk Client Feed Twin StreamFacts DelayFacts.
Import ListNotations.
Open Scope Z_scope.

Lemma fir_table_none s p : stage_no s -> ~ fir_prec p -> fir_table s p = None.
Proof.
  intros Hs Hp. assert (E : forall k, fir_prec k -> (p =? k) = false) by (intros k Hk; apply Z.eqb_neq; intros ->; auto).
  unfold fir_table. rewrite !E by (unfold fir_prec; auto 7). now rewrite !andb_false_r.
Qed.
Lemma iir_table_none s p : stage_no s -> ~ iir_prec p -> iir_table s p = None.
Proof.
  intros Hs Hp. assert (E : forall k, iir_prec k -> (p =? k) = false) by (intros k Hk; apply Z.eqb_neq; intros ->; auto).
  unfold iir_table. rewrite !E by (unfold iir_prec; auto 7). now rewrite !andb_false_r.
Qed.
Lemma has_tables_dec f p : {has_tables f p} + {~ has_tables f p}.
Proof.
  destruct f; unfold has_tables, fir_prec, iir_prec;
    destruct (Z.eq_dec p 1), (Z.eq_dec p 8), (Z.eq_dec p 12), (Z.eq_dec p 16), (Z.eq_dec p 20), (Z.eq_dec p 24);
    (left; lia) || (right; lia).
Qed.
Lemma ratio_no_b ratio : (ratio =? 1) || (ratio =? 2) || (ratio =? 4) || (ratio =? 8) = true <-> ratio_no ratio.
Proof. unfold ratio_no. lia. Qed.

Section Config.
Context {A : arith} (plat : platform).
Implicit Types (m : mem A).

Lemma stage_impl_none id f md prec use_sse s : stage_no s -> ~ has_tables f prec ->
  stage_impl plat id f md prec use_sse s = None.
Proof.
  intros Hs HT. unfold stage_impl. destruct f; [rewrite iir_table_none by assumption | rewrite fir_table_none by assumption]; reflexivity.
Qed.
Lemma stage_impl_some id f md prec use_sse s : stage_no s -> has_tables f prec ->
  stage_impl plat id f md prec use_sse s <> None.
Proof.
  intros Hs HT. destruct f; cbn in HT.
  - destruct (iir_table_some s prec Hs HT) as (t & gd & E). unfold stage_impl. rewrite E. discriminate.
  - destruct (fir_table_some s prec Hs HT) as (t & E & _). unfold stage_impl. rewrite E. discriminate.
Qed.

Theorem construct_any id md ratio prec use_sse f m :
  exists m', construct plat id md ratio prec use_sse f m =
    Ok ((built plat id md ratio prec use_sse f,
         ((ratio =? 1) || (ratio =? 2) || (ratio =? 4) || (ratio =? 8)) &&
         ((ratio <? 2) || if has_tables_dec f prec then true else false)), m') /\
    forall b i, ~ own id b -> m' b i = m b i.
Proof.
  enough (R : runs (construct plat id md ratio prec use_sse f) m (fun x m' =>
    x = (built plat id md ratio prec use_sse f,
         ((ratio =? 1) || (ratio =? 2) || (ratio =? 4) || (ratio =? 8)) &&
         ((ratio <? 2) || if has_tables_dec f prec then true else false)) /\
    forall b i, ~ own id b -> m' b i = m b i)).
  { apply runs_inv in R. destruct R as (x & m' & R & -> & F). exists m'. auto. }
  set (st := fun s => if ratio <? s then None else stage_impl plat id f md prec use_sse s).
  set (ok := fun s => (ratio <? s) || if has_tables_dec f prec then true else false).
  assert (Step : forall s m0, stage_no s -> runs (init_stage plat id md ratio prec use_sse f s) m0 (fun x m1 =>
    x = (st s, ok s) /\ forall b i, ~ own id b -> m1 b i = m0 b i)).
  { intros s m0 Hs. unfold st, ok. destruct (Z.ltb_spec ratio s) as [Hlt|Hge].
    - eapply runs_eq; [apply init_stage_none; exact Hlt|]. auto.
    - destruct (has_tables_dec f prec) as [HT|HT].
      + destruct (init_stage_some plat id md ratio prec use_sse f s m0 Hs Hge HT) as (i & Ei & _ & T & _ & R).
        eapply runs_mono; [exact R|]. intros x m1 (-> & _ & F). rewrite Ei. split; [reflexivity|].
        intros b k Hb. apply F. intros E. apply Hb. exists s. split; [destruct Hs as [->|[->| ->]]; lia | exact E].
      + rewrite stage_impl_none by assumption. unfold init_stage. replace (ratio <? s) with false by lia.
        apply runs_bind. destruct f; unfold create_impl_iir, create_impl_fir;
          [rewrite iir_table_none by assumption | rewrite fir_table_none by assumption]; apply runs_ret, runs_ret; auto. }
  unfold construct.
  apply runs_bind. eapply runs_mono; [apply (Step 2); left; reflexivity|]. intros x2 m2 (-> & F2).
  apply runs_bind. eapply runs_mono; [apply (Step 4); right; left; reflexivity|]. intros x4 m4 (-> & F4).
  apply runs_bind. eapply runs_mono; [apply (Step 8); right; right; reflexivity|]. intros x8 m8 (-> & F8).
  apply runs_ret. split.
  - cbn [fst snd]. unfold built. f_equal. unfold ok. destruct (has_tables_dec f prec); lia.
  - intros b i Hb. now rewrite F8, F4, F2.
Qed.

(** construction without a failed check *)
Lemma construct_inv id md ratio prec use_sse f m r m' : 1 <= ratio ->
  construct plat id md ratio prec use_sse f m = Ok ((r, true), m') ->
  r = built plat id md ratio prec use_sse f /\ valid f ratio prec.
Proof.
  intros Hr H. destruct (construct_any id md ratio prec use_sse f m) as (m1 & R & _). rewrite H in R.
  assert (E1 : r = built plat id md ratio prec use_sse f) by congruence.
  assert (E2 : true = ((ratio =? 1) || (ratio =? 2) || (ratio =? 4) || (ratio =? 8)) &&
         ((ratio <? 2) || if has_tables_dec f prec then true else false)) by congruence.
  split; [exact E1|]. symmetry in E2. apply andb_prop in E2. destruct E2 as [E2 E3]. split.
  - now apply ratio_no_b.
  - intros H2. destruct (has_tables_dec f prec); [assumption|]. lia.
Qed.

(** an object without stages *)
Theorem no_tables_null id md ratio prec use_sse f q m : 2 <= ratio -> ~ has_tables f prec -> 1 <= c_n q ->
  run_call (built plat id md ratio prec use_sse f) q m = Err NullDeref.
Proof.
  intros H2 HT Hn. assert (N : forall s, stage_no s ->
    (if ratio <? s then None else stage_impl plat id f md prec use_sse s) = None).
  { intros s Hs. destruct (ratio <? s); [reflexivity | now apply stage_impl_none]. }
  unfold run_call, process_block. unfold built at 1. cbn [r_ratio]. destruct (Z.eqb_spec ratio 2) as [->|].
  - unfold built. cbn [impl_x2]. rewrite N by (unfold stage_no; auto). reflexivity.
  - unfold built at 1. cbn [r_ratio]. replace (ratio =? 1) with false by lia.
    destruct (Z.to_nat (c_n q)) as [|k] eqn:Ek; [lia|]. cbn [while].
    replace (negb (c_n q =? 0)) with true by lia. unfold built. cbn [r_mode r_ratio impl_x2 impl_x4 impl_x8].
    rewrite !N by (unfold stage_no; auto).
    unfold cascade_chunk. cbn [r_mode r_ratio impl_x2 impl_x4 impl_x8].
    destruct md, (ratio =? 4); reflexivity.
Qed.

(** queries *)
Lemma built_sse_enabled id md ratio prec use_sse f : valid f ratio prec -> 2 <= ratio ->
  sse_enabled (built plat id md ratio prec use_sse f) = Ok (vector plat f use_sse).
Proof.
  intros [Hr HT] H2. specialize (HT H2). unfold sse_enabled, built, stage_impl. cbn [impl_x2].
  destruct (Z.ltb_spec ratio 2); [lia|]. unfold vector, sse_available. destruct f.
  - destruct (iir_table_some 2 prec ltac:(unfold stage_no; auto) HT) as (t & gd & ->).
    destruct (has_sse plat && use_sse), md; reflexivity.
  - destruct (fir_table_some 2 prec ltac:(unfold stage_no; auto) HT) as (t & -> & _). destruct md; reflexivity.
Qed.
End Config.

(** number of coefficients of the 2x stage *)
Definition order_of (f : rfilter) (prec : Z) : Z :=
  match f with
  | FILTER_FIR => if prec =? 24 then 52 else if prec =? 20 then 42 else if prec =? 16 then 32 else
                  if prec =? 12 then 24 else if prec =? 8 then 16 else 2
  | FILTER_IIR => if prec =? 24 then 9 else if prec =? 20 then 8 else if prec =? 16 then 6 else
                  if prec =? 12 then 5 else 3
  end.
Lemma order_of_ok f prec : has_tables f prec -> (match f with FILTER_FIR => fir_len 2 prec | FILTER_IIR =>
    match iir_table 2 prec with Some (t, _) => Z.of_nat (List.length t) | None => 0 end end) = order_of f prec.
Proof.
  destruct f; cbn [has_tables]; [intros [->|[->|[->|[->| ->]]]] | intros [->|[->|[->|[->|[->| ->]]]]]]; reflexivity.
Qed.
Lemma built_order_of plat id md ratio prec use_sse f : valid f ratio prec -> 2 <= ratio ->
  order (built plat id md ratio prec use_sse f) = Ok (order_of f prec).
Proof.
  intros V H2. rewrite (built_order (A := F32) plat) by assumption. f_equal. rewrite coeffs_size.
  rewrite <- (order_of_ok f prec) by (apply V; exact H2). destruct f; [destruct (iir_table 2 prec) as [[t gd]|]|]; reflexivity.
Qed.
