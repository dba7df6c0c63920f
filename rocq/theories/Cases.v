(** * Example programs, for showing that hypotheses of theorems can be met *)
From Coq Require Import ZArith Reals List Lia Lra Bool ZifyNat ZifyBool.
From Flocq Require Import Core.
From Verif Require Import Arith ArithR ArithF Mem FirModel IirModel Tables ResamplerModel Wp Cascade
  ResamplerProof ResamplerOk Spec SpecOk Client Feed.
Import ListNotations.
Open Scope Z_scope.

Definition configb (f : rfilter) (ratio prec : Z) : bool :=
  ((ratio =? 1) || (ratio =? 2) || (ratio =? 4) || (ratio =? 8)) &&
  ((ratio =? 1) || (prec =? 8) || (prec =? 12) || (prec =? 16) || (prec =? 20) || (prec =? 24) ||
   (prec =? 1) && match f with FILTER_FIR => true | FILTER_IIR => false end).
Lemma configb_ok f ratio prec : configb f ratio prec = true -> valid f ratio prec.
Proof.
  unfold configb, valid, ratio_no, has_tables, fir_prec, iir_prec. intros H. destruct f; split; lia.
Qed.

Definition sizeb (f : rfilter) (md : rmode) (ratio n : Z) : bool :=
  (0 <? n) && (n <? 2 ^ 20) && match md with UP => true | DOWN => n mod ratio =? 0 end.
Lemma sizeb_ok f md ratio n : sizeb f md ratio n = true -> size_ok f md ratio n.
Proof.
  unfold sizeb, size_ok. intros H. apply andb_prop in H. destruct H as [H1 H2]. assert (0 < n < 2 ^ 20) by lia. clear H1.
  destruct ratio as [|p|p]; try (destruct f, md; try exact I; lia).
  destruct p as [p|p|]; try (destruct f, md; try exact I; lia); try exact I.
  destruct p as [p|p|]; try (destruct f, md; try exact I; lia).
Qed.

Lemma some_obj {A : arith} plat md ratio prec use_sse f id (bs : list (Z * list A)) :
  configb f ratio prec && forallb (fun sb => (0 <=? fst sb) && sizeb f md ratio (Z.of_nat (length (snd sb)))) bs = true ->
  exists st m o, reach plat st m /\ st id = Some o /\ o_res o = built plat id md ratio prec use_sse f /\
    o_in o = concat (map snd bs).
Proof.
  intros H. apply andb_prop in H. destruct H as [Hc Hb]. apply feed; [now apply configb_ok|].
  apply Forall_forall. intros sb Hin. rewrite forallb_forall in Hb. apply Hb, andb_prop in Hin. destruct Hin as [H0 Hs].
  split; [lia | now apply sizeb_ok].
Qed.

(** one more block for an object that may be one of several *)
Lemma more {A : arith} plat st (m : mem A) id o b : reach plat st m -> st id = Some o ->
  sizeb (r_filter (o_res o)) (r_mode (o_res o)) (r_ratio (o_res o)) (Z.of_nat (length b)) = true ->
  exists m' z, reach plat (set_obj st id (Some (obj_call o (feed_call 0 b) b z))) m'.
Proof. intros H E S. apply (feed_one plat st m id o b 0 ltac:(lia) H E). now apply sizeb_ok. Qed.

(** the taps of PREC_LINEAR *)
Lemma lit_quarter k : (k = 0 \/ k = 1)%Z -> lit (A := RA) (Dec 25 (-2)) k = if k =? 0 then (1 / 4)%R else (1 / 2)%R.
Proof.
  intros [->| ->]; unfold lit.
  - replace (lit_float (Dec 25 (-2)) 0) with (8388608, -25) by reflexivity. cbn. lra.
  - replace (lit_float (Dec 25 (-2)) 1) with (8388608, -24) by reflexivity. cbn. lra.
Qed.
Lemma linear_up s : stage_no s -> coeffs (A := RA) FILTER_FIR UP PREC_LINEAR s = [(1 / 2)%R; (1 / 2)%R].
Proof.
  intros Hs. replace (coeffs (A := RA) FILTER_FIR UP PREC_LINEAR s) with [lit (A := RA) (Dec 25 (-2)) 1; lit (A := RA) (Dec 25 (-2)) 1].
  - rewrite lit_quarter by auto. reflexivity.
  - destruct Hs as [->|[->| ->]]; reflexivity.
Qed.
Lemma linear_down s : stage_no s -> coeffs (A := RA) FILTER_FIR DOWN PREC_LINEAR s = [(1 / 4)%R; (1 / 4)%R].
Proof.
  intros Hs. replace (coeffs (A := RA) FILTER_FIR DOWN PREC_LINEAR s) with [lit (A := RA) (Dec 25 (-2)) 0; lit (A := RA) (Dec 25 (-2)) 0].
  - rewrite lit_quarter by auto. reflexivity.
  - destruct Hs as [->|[->| ->]]; reflexivity.
Qed.
Lemma vector_false plat f b : b = false -> vector plat f b = false.
Proof. intros ->. unfold vector. now rewrite andb_false_r. Qed.
