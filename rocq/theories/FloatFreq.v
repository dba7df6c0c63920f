(** * Sinusoids in single precision: from exact results to rounded ones *)
From Coq Require Import ZArith Reals List Lia Lra Bool ZifyNat ZifyBool.
From Flocq Require Import Core BinarySingleNaN.
From Verif Require Import Arith ArithR ArithF Mem FirModel IirModel Tables ResamplerModel Wp Stage Cascade
  ResamplerProof ResamplerOk Spec SpecOk SpecR Client Feed StreamFacts DelayFacts TablesF TableFacts FirReal FloatComm FloatSum FloatFir FloatErr
  Cases PropsStream PropsFir PropsIir.
Import ListNotations.
Open Scope Z_scope.

(** ** For every input there is a program over R that gives it to an object with the same parameters *)
Lemma chunks {X} (c : nat) n (x : list X) : length x = (n * c)%nat -> exists bs : list (list X), List.Forall (fun b => length b = c) bs /\ concat bs = x.
Proof.
  revert x. induction n as [|n IH]; intros x Hx.
  - exists []. split; [constructor|]. destruct x; [reflexivity | discriminate].
  - destruct (IH (skipn c x)) as (bs & F & E); [rewrite skipn_length; lia|]. exists (firstn c x :: bs). split.
    + constructor; [rewrite firstn_length; lia | exact F].
    + cbn [concat]. rewrite E. apply firstn_skipn.
Qed.

Lemma twin_of plat st (m : mem F32) id o (x : list RA) : reach plat st m -> st id = Some o -> size x = size (o_in o) ->
  exists st' (m' : mem RA) o', reach plat st' m' /\ st' id = Some o' /\ o_res o' = o_res o /\ o_in o' = x.
Proof.
  intros H E Sx. destruct (reach_built plat _ _ _ _ H E) as [Bu V]. set (r := o_res o) in *.
  assert (R1 : 1 <= r_ratio r) by (destruct V as [V _]; unfold ratio_no in V; lia).
  set (c := match r_mode r with UP => 1 | DOWN => r_ratio r end).
  assert (Hc : 1 <= c) by (unfold c; destruct (r_mode r); lia).
  assert (Hm : size x mod c = 0).
  { unfold c. destruct (r_mode r) eqn:Em; [apply Z.mod_1_r|]. rewrite Sx. exact (reach_multiple plat _ _ _ _ H E Em). }
  destruct (chunks (Z.to_nat c) (Z.to_nat (size x / c)) x) as (bs & F & Ex).
  { pose proof (Z.div_mod (size x) c ltac:(lia)). assert (0 <= size x) by (unfold size; lia). pose proof (Z.div_pos (size x) c ltac:(lia) ltac:(lia)). unfold size in *. nia. }
  destruct (feed (A := RA) plat (r_mode r) (r_ratio r) (r_prec r) (r_use_sse r) (r_filter r) id (map (fun b => (0, b)) bs) V) as (st' & m' & o' & H' & E' & Er & Ei).
  { apply Forall_forall. intros sb Hin. apply in_map_iff in Hin. destruct Hin as (b & <- & Hb). cbn [fst snd]. split; [lia|].
    rewrite Forall_forall in F. specialize (F b Hb). assert (L : len b = c) by (unfold len; lia). rewrite L.
    destruct V as [V _]. unfold size_ok, c. unfold ratio_no in V.
    destruct V as [V|[V|[V|V]]]; rewrite V; destruct (r_filter r), (r_mode r); try exact I; try lia; try reflexivity; try (split; [lia | reflexivity]). }
  exists st', m', o'. split; [exact H'|]. split; [exact E'|]. split; [congruence|]. rewrite Ei, map_map. cbn [snd]. now rewrite map_id.
Qed.

(** ** The exact result for the rounded input, compared to the one for a given signal *)
Definition fir_bound (md : rmode) (ratio : Z) : R :=
  match md with
  | UP => if ratio =? 1 then 1 else if ratio =? 2 then 251 / 100 else if ratio =? 4 then 447 / 100 else 72 / 10
  | DOWN => if ratio =? 1 then 1 else if ratio =? 2 then 176 / 100 else if ratio =? 4 then 244 / 100 else 319 / 100
  end%R.
Definition filter_bound (f : rfilter) (md : rmode) (ratio : Z) : R :=
  match f with FILTER_FIR => fir_bound md ratio | FILTER_IIR => iir_bound ratio end.

Lemma exact_twin plat st (m : mem F32) id o (x : list RA) d : reach plat st m -> st id = Some o -> size x = size (o_in o) -> (0 <= d)%R ->
  (forall k, 0 <= k < size x -> (Rabs (B2R (smp (o_in o) k : b32) - smp x k) <= d)%R) ->
  exists st' (m' : mem RA) o', reach plat st' m' /\ st' id = Some o' /\ o_res o' = o_res o /\ o_in o' = x /\ size (o_out o') = size (o_out o) /\
    let r := o_res o in
    forall j, 0 <= j < size (o_out o) ->
    (Rabs (smp (resample (A := RA) (r_filter r) (r_mode r) (r_prec r) false (r_ratio r) (vals (o_in o))) j - smp (o_out o') j) <= filter_bound (r_filter r) (r_mode r) (r_ratio r) * d)%R.
Proof.
  intros H E Sx Hd Hx. pose proof (reach_size plat _ _ _ _ H E) as Sy.
  destruct (twin_of plat _ _ _ _ (vals (o_in o)) H E (size_vals _)) as (st1 & m1 & o1 & H1 & E1 & Er1 & Ei1).
  destruct (twin_of plat _ _ _ _ x H E Sx) as (st2 & m2 & o2 & H2 & E2 & Er2 & Ei2).
  assert (S0 : 0 <= size x) by (unfold size; lia).
  set (z := tab (A := RA) (size x) (fun k => (smp (vals (o_in o)) k - smp x k)%R : RA)).
  assert (Sz : size z = size (o_in o)) by (unfold z; rewrite size_tab; lia).
  destruct (twin_of plat _ _ _ _ z H E Sz) as (st3 & m3 & o3 & H3 & E3 & Er3 & Ei3).
  exists st2, m2, o2. split; [exact H2|]. split; [exact E2|]. split; [exact Er2|]. split; [exact Ei2|].
  split; [rewrite (reach_size plat _ _ _ _ H2 E2), Er2, Ei2, Sx; symmetry; exact Sy|].
  intros r j Hj.
  assert (Z0 : forall k, smp z k = (1 * smp (vals (o_in o)) k + -1 * smp x k)%R).
  { intros k. destruct (Z_lt_le_dec k 0); [rewrite !smp_neg by lia; cbn; lra|].
    destruct (Z_lt_le_dec k (size x)); [unfold z; rewrite smp_tab by lia; lra | rewrite !smp_over by (rewrite ?size_vals; lia); cbn; lra]. }
  pose proof (C26_linear plat _ _ _ _ plat _ _ _ _ plat _ _ _ _ 1 (-1) H1 E1 H2 E2 H3 E3) as L. cbn zeta in L. rewrite Er1, Er2, Er3, Ei1, Ei2, Ei3, size_vals in L.
  specialize (L eq_refl eq_refl ltac:(lia) ltac:(lia) Z0 j).
  pose proof (reach_R plat _ _ _ _ H1 E1) as R1. cbn zeta in R1. rewrite Er1, Ei1 in R1. fold r in R1. rewrite <- R1.
  replace (smp (o_out o1) j - smp (o_out o2) j)%R with (smp (o_out o3) j : R) by (rewrite L; change (T RA) with R; lra).
  assert (Bz : forall k, 0 <= k < size (o_in o3) -> (Rabs (smp (o_in o3) k) <= d)%R).
  { rewrite Ei3. intros k Hk. rewrite Z0, smp_vals. replace (1 * B2R (smp (o_in o) k : b32) + -1 * smp x k)%R with (B2R (smp (o_in o) k : b32) - smp x k)%R by (change (T RA) with R; lra). apply Hx. lia. }
  unfold filter_bound. destruct (r_filter r) eqn:Ef.
  - pose proof (C34_bounded plat _ _ _ _ d H3 E3) as B. rewrite Er3 in B. fold r in B. apply (B Ef Bz j).
    rewrite (reach_size plat _ _ _ _ H3 E3), Er3, Ei3, Sz, <- Sy. exact Hj.
  - pose proof (C27_bounded plat _ _ _ _ d H3 E3) as B. cbn zeta in B. rewrite Er3 in B. fold r in B. exact (B Ef Hd Bz j).
Qed.
