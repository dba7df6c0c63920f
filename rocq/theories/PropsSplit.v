(** * Properties: the band split of the IIR downsamplers *)
From Coq Require Import ZArith Reals List Lia Lra Bool ZifyNat ZifyBool.
From Flocq Require Import Core IEEE754.BinarySingleNaN.
From Verif Require Import Arith ArithR ArithF Mem IirModel Tables ResamplerModel Wp Stage ResamplerProof ResamplerOk Spec SpecOk SpecR Feed Twin TablesF
  FloatComm IirReal IirPhase IirCert IirLag IirFreq SplitModel SplitProof SplitReal.
Import ListNotations.
Open Scope Z_scope.

(** ** C64 *)

(** [splits sse o cs m x yl yh]: a program that constructed the object o of the class (with
    SSE instructions or without) with coefficients cs and called process_block_split any
    number of times (and clear_buffers, and changed other memory) is in state m; since the
    construction or the last clear_buffers x went in, and the samples yl and yh came out. *)

(** any stream can be split *)
Lemma splits_all {A : arith} sse o (cs x : list A) : i_nc o = size cs -> len x mod 2 = 0 -> exists m yl yh, splits sse o cs m x yl yh.
Proof.
  intros HN Ex. destruct (fed_new_progress sse o cs HN (fun _ _ => None)) as (m0 & E0 & _ & _).
  pose proof (splits_new sse o cs _ _ E0) as S0. destruct (Z.eq_dec (len x) 0) as [Z0|NZ].
  { destruct x as [|a x]; [|unfold len in Z0; cbn in Z0; lia]. exists m0, [], []. exact S0. }
  pose proof (len_nonneg x). assert (Hx : len x = 2 * (len x / 2)) by (pose proof (Z.div_mod (len x) 2); lia).
  assert (S1 : splits sse o cs (prepare x 2 (len x) m0) [] [] []).
  { eapply splits_other; [exact S0|]. intros b i Hb. unfold prepare. destruct b; try reflexivity. discriminate Hb. }
  destruct (splits_progress sse o cs _ [] [] [] (addr_ex 0 (len x)) false (Ptr (User 0) 0) (Ptr (User 1) 0) (Ptr (User 1) (len x / 2)) x HN S1)
    as (m' & y & z & _ & _ & _ & _ & _ & _ & S2).
  - apply addr_ex_ok.
  - assert (Sl : 0 <= d_slack sse <= 2) by (unfold d_slack; destruct sse; lia). constructor.
    + lia.
    + exact I.
    + exact I.
    + exact I.
    + intros k Hk. cbn [pb po prepare]. replace (_ && _) with true by lia. reflexivity.
    + intros k Hk. cbn [pb po padd prepare]. replace (_ && _) with true by lia. discriminate.
    + intros k Hk. cbn [pb po prepare]. replace (_ && _) with true by lia. discriminate.
    + intros k Hk. cbn [pb po prepare]. replace (_ && _) with true by lia. discriminate.
    + left. split; [left; discriminate | unfold asep, paddr; cbn [pb po addr_ex]; lia].
    + left. split; [left; discriminate | unfold asep, paddr; cbn [pb po addr_ex]; lia].
    + split; [right; cbn [pb po]; lia | unfold asep, paddr; cbn [pb po addr_ex]; lia].
  - exists m', y, z. exact S2.
Qed.

(** The functions succeed, write only their output, and continue the streams; the streams
    only depend on the samples, not on the sizes of the blocks, their addresses, or
    whether the outputs overwrite the input. *)
Theorem C64_split {A : arith} sse o (cs : list A) : i_nc o = size cs ->
  (forall m, exists m', d_construct sse o cs m = Ok (tt, m') /\ splits sse o cs m' [] [] [] /\
     forall b i, tag_of b <> Some (i_tag o) -> m' b i = m b i) /\
  (forall m x yl yh, splits sse o cs m x yl yh ->
     yl = bank sse cs (f_low sse) x /\ yh = bank sse cs (f_high sse) x /\
     (forall addr, addr_ok addr -> exists m', d_clear sse o addr m = Ok (tt, m') /\ splits sse o cs m' [] [] []) /\
     (forall addr ndebug inp outl outh b, addr_ok addr -> split_pre addr (d_slack sse) m inp outl outh b ->
        exists m' y z, d_split sse o addr ndebug outl outh inp (len b / 2) m = Ok (tt, m') /\
          len y = len b / 2 /\ len z = len b / 2 /\ has m' outl (len y) (nthZ y) /\ has m' outh (len z) (nthZ z) /\
          (forall b' i, ~ priv (i_tag o) b' -> ~ inr outl (len b / 2) b' i -> ~ inr outh (len b / 2) b' i -> m' b' i = m b' i) /\
          splits sse o cs m' (x ++ b) (yl ++ y) (yh ++ z))).
Proof.
  intros HN. split.
  - intros m. destruct (fed_new_progress sse o cs HN m) as (m' & E & _ & F). exists m'. split; [exact E|]. split; [eapply splits_new; exact E | exact F].
  - intros m x yl yh H. destruct (splits_fed sse o cs m x yl yh HN H) as (F & Hl & Hh). split; [exact Hl|]. split; [exact Hh|]. split.
    + intros addr AO. destruct (fed_clear_progress sse o cs HN m x addr F AO) as (m' & E & _). exists m'. split; [exact E|]. eapply splits_clear; eassumption.
    + intros. now apply splits_progress.
Qed.
Example C64_split_case : exists m yl yh, splits (A := RA) true (Iir 2 0) [/ 4; / 2]%R m (map (fun i => IZR (Z.of_nat i)) (seq 0 10)) yl yh.
Proof. apply splits_all; reflexivity. Qed.

(** the functions for one sample do what those for blocks do with a block of one *)
Lemma do_one {A : arith} (body : Z -> M A unit) m : do_while_pos 1 body m = body 0 m.
Proof. unfold do_while_pos, bind, ret. cbn. destruct (body 0 m) as [[[] m']|]; reflexivity. Qed.
Lemma for_one {A : arith} (body : Z -> unit -> M A unit) m : for_up (Z.to_nat 1) 0 body tt m = body 0 tt m.
Proof. change (Z.to_nat 1) with 1%nat. cbn [for_up]. unfold bind, ret. destruct (body 0 tt m) as [[[] m']|]; reflexivity. Qed.
Lemma padd_0 p : padd p 0 = p.
Proof. destruct p as [b i]. unfold padd. cbn. f_equal. lia. Qed.
Theorem C64_single {A : arith} addr o (m : mem A) l h inp :
  fpu_process_block_split addr true o l h inp 1 m = fpu_process_sample_split o l h inp m /\
  sse_process_block_split addr true o l h inp 1 m = sse_process_sample_split addr o l h inp m /\
  sse_down_process_block addr true o l inp 1 m = bind (sse_down_process_sample addr o inp) (store l) m /\
  sse_up_process_block addr true o l inp 1 m =
    bind (load inp) (fun v => bind (sse_up_process_sample addr o v) (fun r => bind (store l (fst r)) (fun _ => store (padd l 1) (snd r)))) m.
Proof.
  repeat split.
  - etransitivity; [apply do_one|]. change (0 * 2) with 0. now rewrite !padd_0.
  - etransitivity; [apply for_one|]. change (0 * 2) with 0. rewrite !padd_0. reflexivity.
  - etransitivity; [apply for_one|]. change (0 * 2) with 0. rewrite !padd_0. unfold sse_down_process_sample, bind, ret.
    destruct (loadu4 inp m) as [[v m1]|]; [|reflexivity]. destruct (stage_sse_pos addr o v m1) as [[x m2]|]; reflexivity.
  - etransitivity; [apply for_one|]. change (0 * 2 + 1) with 1. change (0 * 2) with 0. rewrite !padd_0. unfold sse_up_process_sample, bind, ret.
    destruct (load inp m) as [[v m1]|]; [|reflexivity]. destruct (stage_sse_pos addr o (vset1 v) m1) as [[x m2]|]; reflexivity.
Qed.

(** The low band is what process_block computes from the same samples: exactly without
    rounding, ... *)
Theorem C64_low_exact sse o (cs x : list RA) m yl yh : i_nc o = size cs -> splits sse o cs m x yl yh -> yl = iir_down2 cs x.
Proof.
  intros HN H. destruct (splits_fed _ _ _ _ _ _ _ HN H) as (_ & -> & _). rewrite bank_low. unfold iir_down2.
  apply zip_ext. intros a b. unfold r_low. raops. reflexivity.
Qed.
(** ... and bit for bit in single precision without SSE instructions: two objects, in any
    programs, which got the same samples x *)
Theorem C64_low_bit_exact o1 o2 (cs x b : list F32) m1 m2 addr1 addr2 nd1 nd2 inp1 out inp2 outl outh :
  i_nc o1 = size cs -> i_nc o2 = size cs -> fed false o1 cs m1 x -> fed false o2 cs m2 x -> addr_ok addr1 -> addr_ok addr2 ->
  block_pre false addr1 m1 inp1 out b -> split_pre addr2 0 m2 inp2 outl outh b ->
  exists y m1' m2', len y = len b / 2 /\
    fpu_down_process_block addr1 nd1 o1 out inp1 (len b / 2) m1 = Ok (tt, m1') /\ has m1' out (len y) (nthZ y) /\
    fpu_process_block_split addr2 nd2 o2 outl outh inp2 (len b / 2) m2 = Ok (tt, m2') /\ has m2' outl (len y) (nthZ y).
Proof.
  intros N1 N2 F1 F2 A1 A2 P1 P2.
  destruct (fed_block_progress false o1 cs N1 m1 x addr1 nd1 inp1 out b F1 A1 P1) as (m1' & y & E1 & L1 & B1 & H1 & _ & _).
  destruct (fed_split_progress false o2 cs N2 m2 x addr2 nd2 inp2 outl outh b F2 A2 P2) as (m2' & y' & z & E2 & L2 & _ & B2 & _ & H2 & _ & _).
  assert (Y : forall u, bank false cs (f_mean (A := F32) false) u = bank false cs (f_low false) u).
  { intros u. apply zip_ext. intros c d. apply b32_mult_comm. }
  rewrite !Y, B2 in B1. apply app_inv_head in B1. subst y'. exists y, m1', m2'. auto.
Qed.
Example C64_low_bit_exact_case : exists m1 m2 (cs x b : list F32) addr, size cs = 2 /\ len b = 2 /\ len x = 2 /\ 
  fed false (Iir 2 0) cs m1 x /\ fed false (Iir 2 0) cs m2 x /\ addr_ok addr /\ 
  block_pre false addr m1 (Ptr (User 0) 0) (Ptr (User 1) 0) b /\ split_pre addr 0 m2 (Ptr (User 0) 0) (Ptr (User 1) 0) (Ptr (User 1) 1) b.
Proof.
  set (cs := [fhalf; fhalf] : list F32). set (x := [f1; fhalf] : list F32).
  destruct (splits_all false (Iir 2 0) cs x eq_refl eq_refl) as (m & yl & yh & H). destruct (splits_fed false (Iir 2 0) cs _ _ _ _ eq_refl H) as (F & _ & _).
  set (m' := prepare x 0 2 m). assert (F' : fed false (Iir 2 0) cs m' x).
  { eapply fed_other; [exact F|]. intros b i Hb. unfold m', prepare. destruct b; try reflexivity. discriminate Hb. }
  exists m', m', cs, x, x, (addr_ex 0 2). split; [reflexivity|]. split; [reflexivity|]. split; [reflexivity|]. split; [exact F'|]. split; [exact F'|]. split; [apply addr_ex_ok|].
  change (len x) with 2 in *.
  split; constructor; change (len x) with 2; try change (d_slack false) with 0; try change (2 / 2) with 1; try exact I; try (split; reflexivity).
  all: try (intros k Hk; cbn [pb po padd prepare m']; change (len x) with 2; replace (_ && _) with true by lia; try reflexivity; discriminate).
  all: try (left; split; [left; discriminate | unfold asep, paddr; cbn [pb po addr_ex]; lia]).
  all: try (intros k Hk; lia).
  split; [right; cbn [pb po]; lia | unfold asep, paddr; cbn [pb po addr_ex]; lia].
Qed.

(** With SSE instructions, the low band halves before it adds, process_block after: they
    differ when the halves are not representable. *)
Theorem C64_low_sse_refuted : exists o (cs x : list F32) m yl yh, i_nc o = size cs /\ splits true o cs m x yl yh /\ yl <> iir_down2_sse cs x.
Proof.
  set (cs := [fhalf; fhalf] : list F32). set (x := [b32_dy 1 (-148); b32_dy 1 (-148)] : list F32).
  destruct (splits_all true (Iir 2 0) cs x eq_refl eq_refl) as (m & yl & yh & H). exists (Iir 2 0), cs, x, m, yl, yh.
  split; [reflexivity|]. split; [exact H|]. destruct (splits_fed true (Iir 2 0) cs _ _ _ _ eq_refl H) as (_ & -> & _).
  intros E. assert (V : map (fun v : F32 => is_finite_strict (v : b32)) (bank true cs (f_low true) x) = map (fun v : F32 => is_finite_strict (v : b32)) (iir_down2_sse cs x)) by now rewrite E.
  vm_compute in V. discriminate V.
Qed.

Lemma half_sum (a b : R) : (/ 2 * (a + b) + / 2 * (a - b) = a)%R. Proof. lra. Qed.
Lemma half_dif (a b : R) : (/ 2 * (a + b) - / 2 * (a - b) = b)%R. Proof. lra. Qed.
(** Without rounding: the sum of the bands is the filtered stream of the odd samples, the
    difference the filtered stream of the even samples. *)
Theorem C64_sum_difference sse o (cs x : list RA) m yl yh : i_nc o = size cs -> splits sse o cs m x yl yh ->
  zip (A := RA) Rplus yl yh = chain (evens cs) (odds x) /\ zip (A := RA) Rminus yl yh = chain (odds cs) (evens x).
Proof.
  intros HN H. destruct (splits_fed _ _ _ _ _ _ _ HN H) as (F & -> & ->). rewrite bank_low, bank_high.
  destruct (fed_inv sse o cs HN m x F) as [_ Ev].
  assert (L : length (chain (evens cs) (odds x)) = length (chain (odds cs) (evens x))).
  { rewrite !chain_length, odds_length, evens_length. unfold len in Ev.
    assert (length x = 2 * Z.to_nat (Z.of_nat (length x) / 2))%nat as ->.
    { pose proof (Z.div_mod (Z.of_nat (length x)) 2 ltac:(lia)). assert (0 <= Z.of_nat (length x) / 2) by (apply Z.div_pos; lia). lia. }
    rewrite Nat.div2_succ_double, Nat.div2_double. reflexivity. }
  revert L. generalize (chain (evens cs) (odds x)) (chain (odds cs) (evens x)). clear. intros u. induction u as [|a u IH]; intros [|b v] L; try discriminate L; [split; reflexivity|].
  destruct (IH v ltac:(injection L; trivial)) as [I1 I2]. cbn [zip]. split; f_equal; try assumption; unfold r_low, r_high.
  - exact (half_sum a b).
  - exact (half_dif a b).
Qed.

(** With stable coefficients, the energy of the two bands (at half the rate) is half that of
    the input, less what the sections still hold. *)
Theorem C64_energy sse o (cs x : list RA) m yl yh : i_nc o = size cs -> Forall (fun c : R => -1 < c < 1)%R cs -> splits sse o cs m x yl yh ->
  (energy yl + energy yh + / 2 * (chain_stored (evens cs) (odds x) + chain_stored (odds cs) (evens x)) = / 2 * energy x)%R /\
  (energy yl + energy yh <= / 2 * energy x)%R.
Proof.
  intros HN Hc H. destruct (splits_fed _ _ _ _ _ _ _ HN H) as (F & -> & ->). rewrite bank_low, bank_high.
  destruct (fed_inv sse o cs HN m x F) as [_ Ev]. pose proof (bank_energy cs x Hc Ev) as E.
  split; [exact E|]. destruct (evens_all _ _ Hc) as [FE FO].
  assert (P1 : (0 <= chain_stored (evens cs) (odds x))%R) by now apply chain_stored_pos.
  assert (P2 : (0 <= chain_stored (odds cs) (evens x))%R) by now apply chain_stored_pos.
  lra.
Qed.

(** The high band of a stream is minus the low band of its mirror image (every second
    sample negated, which exchanges the frequencies f and pi - f). *)
Theorem C64_mirror sse o (cs x : list RA) m yl yh o' m' yl' yh' : i_nc o = size cs -> i_nc o' = size cs ->
  splits sse o cs m x yl yh -> splits sse o' cs m' (mirror x) yl' yh' -> yh = map (Ropp : RA -> RA) yl'.
Proof.
  intros N1 N2 H H'. destruct (splits_fed _ _ _ _ _ _ _ N1 H) as (_ & _ & ->). destruct (splits_fed _ _ _ _ _ _ _ N2 H') as (_ & -> & _).
  rewrite bank_low, bank_high. apply high_mirror.
Qed.

(** For a sinusoid both bands are sinusoids of twice the frequency, after a transient that
    dies out like rho^k.  The squares of their gains add up to 1. *)
Theorem C64_sine (cs : list RA) rho f : (0 < rho <= 1)%R -> Forall (fun c : R => 0 <= c < rho)%R cs ->
  exists gl gh dl dh K, (gl * gl + gh * gh = 1)%R /\
  forall sse o m x yl yh amp p, i_nc o = size cs -> splits sse o cs m x yl yh ->
  (forall k, 0 <= k < size x -> smp x k = (amp * sin (f * IZR k + p))%R) ->
  forall k, 0 <= k < size x / 2 ->
  (Rabs (smp yl k - amp * gl * sin (2 * f * IZR k + (p - dl))) <= K * Rabs amp * rho ^ Z.to_nat k /\
   Rabs (smp yh k - amp * gh * sin (2 * f * IZR k + (p - dh))) <= K * Rabs amp * rho ^ Z.to_nat k)%R.
Proof.
  intros Hr Hc. exists (low_gain cs f), (- low_gain cs (f + PI))%R, (low_lag cs f), (low_lag cs (f + PI)), (settle cs rho). split.
  - unfold low_gain. pose proof (half_diff_odd cs 1 f eq_refl) as E. rewrite Rmult_1_l in E.
    assert (Q : forall a b : R, Rabs a = Rabs b -> (a * a = b * b)%R).
    { intros a b Eab. transitivity (Rabs a * Rabs a)%R; [rewrite <- Rabs_mult; symmetry; apply Rabs_pos_eq; nra|].
      rewrite Eab, <- Rabs_mult. apply Rabs_pos_eq. nra. }
    apply Q in E. rewrite Rmult_opp_opp. pose proof (sin2_cos2 (half_diff cs f)) as T1. unfold Rsqr in T1.
    change (Arith.T RA) with R in *. rewrite E. lra.
  - intros sse o m x yl yh amp p HN H Hx k Hk. destruct (splits_fed _ _ _ _ _ _ _ HN H) as (F & -> & ->). rewrite bank_low, bank_high.
    destruct (fed_inv sse o cs HN m x F) as [_ Ev]. split; [now apply low_sine | now apply high_sine].
Qed.
Example C64_sine_case : (0 < 95 / 100 <= 1)%R /\ Forall (fun c : R => 0 <= c < 95 / 100)%R (coeffs (A := RA) FILTER_IIR DOWN PREC_96DB 2).
Proof. split; [lra|]. apply (iir_stage_ok 95 2 PREC_96DB); unfold stage_no, iir_prec, PREC_96DB; auto. Qed.

(** With the coefficients of the library for the stage s of a resampler with precision p:
    frequencies below 18 kHz (for a base rate of 44.1 kHz) are missing from the high band,
    those as far below half the sample rate from the low band. *)
Theorem C64_bands s p sse o m (x : list RA) yl yh amp f ph : stage_no s -> iir_prec p ->
  let cs := coeffs (A := RA) FILTER_IIR DOWN p s in i_nc o = size cs -> splits sse o cs m x yl yh ->
  (forall k, 0 <= k < size x -> smp x k = (amp * sin (f * IZR k + ph))%R) ->
  forall k, 0 <= k < size x / 2 ->
  ((Rabs f <= iband / IZR s)%R -> (Rabs (smp yh k) <= (iir_error p + 96 * 0.95 ^ Z.to_nat k) * Rabs amp)%R) /\
  ((Rabs (PI - f) <= iband / IZR s)%R -> (Rabs (smp yl k) <= (iir_error p + 96 * 0.95 ^ Z.to_nat k) * Rabs amp)%R).
Proof.
  intros Hs Hp cs HN H Hx k Hk. destruct (iir_stage_ok 95 s p ltac:(auto) Hs Hp) as (Hc & GE & GO).
  change (coeffs (A := RA) FILTER_IIR UP p s) with cs in *.
  destruct (splits_fed _ _ _ _ _ _ _ HN H) as (F & -> & ->). rewrite bank_low, bank_high. destruct (fed_inv sse o cs HN m x F) as [_ Ev].
  assert (Hr : (0 < 95 / 100 <= 1)%R) by lra.
  pose proof (low_sine cs x (95 / 100) amp f ph Hr Hc Ev Hx k Hk) as L. pose proof (high_sine cs x (95 / 100) amp f ph Hr Hc Ev Hx k Hk) as U.
  assert (ST : (0 <= settle cs (95 / 100) <= 96)%R).
  { destruct (evens_all _ _ Hc) as [FE FO]. pose proof (chain_gain_ge (95 / 100) (evens cs) (proj2 Hr) FE) as G1. pose proof (chain_gain_ge (95 / 100) (odds cs) (proj2 Hr) FO) as G2.
    unfold settle. assert (B : (IZR (stage_K 95 s) <= 48)%R) by (apply IZR_le; destruct Hs as [->|[->| ->]]; vm_compute; discriminate). change (Arith.T RA) with R in *. lra. }
  assert (E : forall g, (iedge s <= cos g)%R -> (Rabs (sin (half_diff cs g)) <= iir_error p)%R).
  { intros g Hg. eapply Rle_trans; [exact (half_diff_small s p g Hs Hp Hg)|]. destruct (iir_error_eps p Hp) as [(E2 & E4 & E8 & _) E0].
    destruct Hs as [->|[->| ->]]; lra. }
  assert (B : forall g, (Rabs g <= iband / IZR s)%R -> (iedge s <= cos g)%R).
  { intros g Hg. assert (S0 : (0 < IZR s)%R) by (apply IZR_lt; destruct Hs as [->|[->| ->]]; lia).
    destruct (iedge_band (g * (IZR s / 2))) as [(B2 & B4 & B8) _].
    { rewrite Rabs_mult, (Rabs_pos_eq (IZR s / 2)) by lra. replace (iband / 2)%R with (iband / IZR s * (IZR s / 2))%R by (field; lra). apply Rmult_le_compat_r; lra. }
    destruct Hs as [->|[->| ->]].
    - replace (g * (2 / 2))%R with g in B2 by lra. exact B2.
    - replace (g * (4 / 2) / 2)%R with g in B4 by lra. exact B4.
    - replace (g * (8 / 2) / 4)%R with g in B8 by lra. exact B8. }
  assert (Fin : forall u v g w : R, (Rabs (u - amp * g * sin v) <= w)%R -> (w <= 96 * 0.95 ^ Z.to_nat k * Rabs amp)%R -> (Rabs g <= iir_error p)%R -> (Rabs u <= (iir_error p + 96 * 0.95 ^ Z.to_nat k) * Rabs amp)%R).
  { intros u v g w Hu Hw Hg. replace u with ((u - amp * g * sin v) + amp * g * sin v)%R by ring. eapply Rle_trans; [apply Rabs_triang|].
    assert (Rabs (amp * g * sin v) <= Rabs amp * iir_error p * 1)%R; [|lra].
    rewrite !Rabs_mult. pose proof (Rabs_pos amp). pose proof (Rabs_pos g). pose proof (Rabs_pos (sin v)).
    apply Rmult_le_compat; [apply Rmult_le_pos; lra | lra | apply Rmult_le_compat_l; lra | apply Rabs_le; pose proof (SIN_bound v); lra]. }
  assert (W : (settle cs (95 / 100) * Rabs amp * (95 / 100) ^ Z.to_nat k <= 96 * 0.95 ^ Z.to_nat k * Rabs amp)%R).
  { replace (95 / 100)%R with 0.95%R at 2 by lra. assert (0 < 0.95 ^ Z.to_nat k)%R by (apply pow_lt; lra). pose proof (Rabs_pos amp).
    rewrite (Rmult_assoc _ (Rabs amp)), (Rmult_assoc 96), (Rmult_comm (Rabs amp)). apply Rmult_le_compat_r; [apply Rmult_le_pos; lra | lra]. }
  split; intros Hf.
  - eapply Fin; [exact U | exact W|]. rewrite Rabs_Ropp. unfold low_gain. pose proof (half_diff_odd cs 1 f eq_refl) as Q. rewrite Rmult_1_l in Q.
    change (Arith.T RA) with R in *. rewrite Q. now apply E, B.
  - eapply Fin; [exact L | exact W|]. unfold low_gain. pose proof (half_diff_odd cs 1 (f - PI) eq_refl) as Q. rewrite Rmult_1_l in Q.
    change (Arith.T RA) with R in *. replace (f - PI + PI)%R with f in Q by ring. rewrite Q. apply E, B. now rewrite Rabs_minus_sym.
Qed.
Example C64_bands_case : exists m (x : list RA) yl yh, let cs := coeffs (A := RA) FILTER_IIR DOWN PREC_96DB 2 in
  splits true (Iir (size cs) 0) cs m x yl yh /\ size x = 2000 /\ (forall k, 0 <= k < size x -> smp x k = (3 * sin (1 * IZR k + 2))%R) /\ (Rabs 1 <= iband / IZR 2)%R.
Proof.
  set (x := map (fun i => (3 * sin (1 * IZR (Z.of_nat i) + 2))%R : RA) (seq 0 2000)). set (cs := coeffs (A := RA) FILTER_IIR DOWN PREC_96DB 2).
  assert (Sx : size x = 2000) by (unfold size, x; rewrite map_length, seq_length; reflexivity).
  destruct (splits_all true (Iir (size cs) 0) cs x eq_refl ltac:(change (len x) with (size x); rewrite Sx; reflexivity)) as (m & yl & yh & H).
  exists m, x, yl, yh. cbn zeta. split; [exact H|]. split; [exact Sx|]. split.
  - intros k Hk. rewrite Sx in Hk. unfold smp, x. replace (k <? 0) with false by lia.
    rewrite (nth_indep _ _ ((fun i => (3 * sin (1 * IZR (Z.of_nat i) + 2))%R : RA) 0%nat)) by (rewrite map_length, seq_length; lia).
    rewrite (map_nth (fun i => (3 * sin (1 * IZR (Z.of_nat i) + 2))%R : RA)), seq_nth by lia. replace (Z.of_nat (0 + Z.to_nat k)) with k by lia. reflexivity.
  - rewrite Rabs_pos_eq by lra. unfold iband. pose proof PI2_3_2. unfold PI2 in *. lra.
Qed.

(** The asserts only exclude equal output arrays: for arrays that overlap the function runs
    and the bands overwrite each other. *)
Definition o_ex := Iir 2 0.
Definition cs_ex : list F32 := [fhalf; fhalf].
Definition b_ex : list F32 := [f1; f0; f0; f0].
Definition m_ex : mem F32 := match d_construct false o_ex cs_ex (prepare b_ex 0 4 (fun _ _ => None)) with Ok (_, m) => m | _ => fun _ _ => None end.
Definition m_ex' : mem F32 :=
  match d_split false o_ex (addr_ex 0 4) false (Ptr (User 1) 0) (Ptr (User 1) 1) (Ptr (User 0) 0) 2 m_ex with Ok (_, m) => m | _ => fun _ _ => None end.
Theorem C64_overlap_refuted : exists o (cs : list F32) m addr inp outl outh b m', i_nc o = size cs /\ fed false o cs m [] /\ addr_ok addr /\
  has m inp (len b) (nthZ b) /\ mapped m outl (len b / 2) /\ mapped m outh (len b / 2) /\ outl <> outh /\
  disj inp (len b) outl (len b / 2) /\ disj inp (len b) outh (len b / 2) /\
  d_split false o addr false outl outh inp (len b / 2) m = Ok (tt, m') /\
  m' (pb outh) (po outh) <> Some (nthZ (bank false cs (f_high false) b) 0).
Proof.
  assert (E0 : d_construct false o_ex cs_ex (prepare b_ex 0 4 (fun _ _ => None)) = Ok (tt, m_ex)) by reflexivity.
  assert (R2 : forall k, 0 <= k < 2 -> k = 0 \/ k = 1) by lia. assert (R4 : forall k, 0 <= k < 4 -> k = 0 \/ k = 1 \/ k = 2 \/ k = 3) by lia.
  exists o_ex, cs_ex, m_ex, (addr_ex 0 4), (Ptr (User 0) 0), (Ptr (User 1) 0), (Ptr (User 1) 1), b_ex, m_ex'.
  change (len b_ex / 2) with 2. change (len b_ex) with 4.
  split; [reflexivity|]. split; [exact (fed_new _ _ _ _ _ E0)|]. split; [apply addr_ex_ok|].
  split; [intros k Hk; destruct (R4 k Hk) as [->|[->|[->| ->]]]; reflexivity|].
  split; [intros k Hk; destruct (R2 k Hk) as [->| ->]; discriminate|]. split; [intros k Hk; destruct (R2 k Hk) as [->| ->]; discriminate|].
  split; [discriminate|]. split; [left; discriminate|]. split; [left; discriminate|]. split; [reflexivity|].
  intros E. assert (V : option_map (fun v : F32 => Bsign (v : b32)) (m_ex' (User 1) 1) = Some (Bsign (nthZ (bank false cs_ex (f_high false) b_ex) 0 : b32))) by (cbn [pb po] in E; now rewrite E).
  vm_compute in V. discriminate V.
Qed.

Print Assumptions C64_split.
Print Assumptions C64_single.
Print Assumptions C64_low_exact.
Print Assumptions C64_low_bit_exact.
Print Assumptions C64_low_sse_refuted.
Print Assumptions C64_sum_difference.
Print Assumptions C64_energy.
Print Assumptions C64_mirror.
Print Assumptions C64_sine.
Print Assumptions C64_bands.
Print Assumptions C64_overlap_refuted.
