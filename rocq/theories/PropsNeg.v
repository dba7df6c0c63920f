(** * Properties: process_sample_neg *)
From Coq Require Import ZArith Reals List Lia Lra Bool ZifyNat ZifyBool.
From Verif Require Import Arith ArithR Mem IirModel Tables ResamplerModel Wp Stage ResamplerProof ResamplerOk Spec SpecOk SpecR Twin
  IirReal IirPhase SplitModel SplitProof SplitReal NegProof NegReal.
Import ListNotations.
Open Scope Z_scope.

(** ** C65 *)

(** [passes sse o cs m us vs ps qs]: the sections of o (coefficients cs) were used any number
    of times with process_sample_neg and are in state m; since the construction or the last
    clear_buffers, us and vs went in, ps and qs came out. [d_cs] is cs, completed by a 1 if
    SSE instructions are used and the number of coefficients is odd. *)
Theorem C65_sections {A : arith} sse o (cs : list A) : i_nc o = size cs ->
  (forall m, exists m', d_construct sse o cs m = Ok (tt, m') /\ passes sse o cs m' [] [] [] [] /\ forall b i, tag_of b <> Some (i_tag o) -> m' b i = m b i) /\
  (forall m us vs ps qs, passes sse o cs m us vs ps qs ->
     ps = nchain (evens (d_cs sse cs)) us /\ qs = nchain (odds (d_cs sse cs)) vs /\
     (forall addr, addr_ok addr -> exists m', d_clear sse o addr m = Ok (tt, m') /\ passes sse o cs m' [] [] [] []) /\
     (forall addr u v e2 e3, addr_ok addr -> exists p q m', pass_neg sse o addr u v e2 e3 m = Ok ((p, q), m') /\
        passes sse o cs m' (us ++ [u]) (vs ++ [v]) (ps ++ [p]) (qs ++ [q]) /\ (forall b i, b <> FMem (i_tag o) -> m' b i = m b i))).
Proof.
  intros HN. split; [intros m; now apply passes_new_progress|]. intros m us vs ps qs H. destruct (passes_inv sse o cs HN _ _ _ _ _ H) as (_ & Hp & Hq).
  split; [exact Hp|]. split; [exact Hq|]. split.
  - intros addr AO. eapply passes_clear_progress; eassumption.
  - intros addr u v e2 e3 AO. now apply passes_progress.
Qed.
Example C65_sections_case : exists m ps qs, passes (A := RA) true (Iir 3 0) [/ 4; / 2; / 3]%R m [1; 2; 3]%R [4; 5; 6]%R ps qs.
Proof. apply passes_all; reflexivity. Qed.

(** Without rounding, the sections do to a stream what process_sample_pos does to its mirror
    image (every second sample negated), mirrored again: H(-z) in place of H(z). *)
Theorem C65_mirror sse o (cs : list RA) m us vs ps qs : i_nc o = size cs -> passes sse o cs m us vs ps qs ->
  ps = mirror (chain (evens cs) (mirror us)) /\ qs = mirror (chain (odds cs) (mirror vs)).
Proof.
  intros HN H. destruct (passes_inv sse o cs HN _ _ _ _ _ H) as (_ & -> & ->). rewrite !nchain_mirror. unfold d_cs.
  destruct sse; [|split; reflexivity]. rewrite chain_evens_up, chain_odds_up. split; reflexivity.
Qed.

(** The sections change only the phase of a sinusoid, after a transient that dies out like
    rho^k: by the lag that process_sample_pos has at the mirrored frequency. *)
Theorem C65_sine (cs : list RA) rho : (0 < rho <= 1)%R -> Forall (fun c : R => 0 <= c < rho)%R cs ->
  exists K, forall sse o m us vs ps qs amp f p, i_nc o = size cs -> passes sse o cs m us vs ps qs ->
  (forall k, 0 <= k < size us -> smp us k = (amp * sin (f * IZR k + p))%R) -> us = vs ->
  forall k, 0 <= k < size us ->
  (Rabs (smp ps k - amp * sin (f * IZR k + (p - lags (evens cs) (f + PI)))) <= K * Rabs amp * rho ^ Z.to_nat k /\
   Rabs (smp qs k - amp * sin (f * IZR k + (p - lags (odds cs) (f + PI)))) <= K * Rabs amp * rho ^ Z.to_nat k)%R.
Proof.
  intros Hr Hc. destruct (evens_all _ _ Hc) as [FE FO]. exists (chain_gain rho (evens cs) + chain_gain rho (odds cs))%R.
  pose proof (chain_gain_ge rho (evens cs) (proj2 Hr) FE) as GE. pose proof (chain_gain_ge rho (odds cs) (proj2 Hr) FO) as GO.
  intros sse o m us vs ps qs amp f p HN H Hx <- k Hk. destruct (C65_mirror sse o cs m us us ps qs HN H) as [-> ->]. rewrite <- !nchain_mirror.
  assert (P : (0 <= Rabs amp * rho ^ Z.to_nat k)%R) by (apply Rmult_le_pos; [apply Rabs_pos | apply pow_le; lra]).
  pose proof (nchain_sine (evens cs) us rho amp f p Hr FE Hx k Hk) as E. pose proof (nchain_sine (odds cs) us rho amp f p Hr FO Hx k Hk) as O.
  change (Arith.T RA) with R in *. rewrite Rmult_assoc in *. split; eapply Rle_trans; try eassumption; apply Rmult_le_compat_r; lra.
Qed.
Example C65_sine_case : exists m ps qs, (0 < / 2 <= 1)%R /\ Forall (fun c : R => 0 <= c < / 2)%R [/ 4; / 3; / 5]%R /\
  let us := map (fun i => (2 * sin (1 * IZR (Z.of_nat i) + 1))%R : RA) (seq 0 50) in
  passes (A := RA) false (Iir 3 0) [/ 4; / 3; / 5]%R m us us ps qs /\ forall k, 0 <= k < size us -> smp us k = (2 * sin (1 * IZR k + 1))%R.
Proof.
  set (us := map (fun i => (2 * sin (1 * IZR (Z.of_nat i) + 1))%R : RA) (seq 0 50)).
  destruct (passes_all (A := RA) false (Iir 3 0) [/ 4; / 3; / 5]%R eq_refl us us eq_refl) as (m & ps & qs & H). exists m, ps, qs.
  split; [lra|]. split; [repeat constructor; lra|]. split; [exact H|].
  intros k Hk. assert (Sx : size us = 50) by (unfold size, us; rewrite map_length, seq_length; reflexivity). rewrite Sx in Hk. unfold smp, us. replace (k <? 0) with false by lia.
  rewrite (nth_indep _ _ ((fun i => (2 * sin (1 * IZR (Z.of_nat i) + 1))%R : RA) 0%nat)) by (rewrite map_length, seq_length; lia).
  rewrite (map_nth (fun i => (2 * sin (1 * IZR (Z.of_nat i) + 1))%R : RA)), seq_nth by lia. replace (Z.of_nat (0 + Z.to_nat k)) with k by lia. reflexivity.
Qed.

Print Assumptions C65_sections.
Print Assumptions C65_mirror.
Print Assumptions C65_sine.
