(** * The filter bank in exact arithmetic *)
From Coq Require Import ZArith Reals List Lia Lra Bool ZifyNat ZifyBool.
From Verif Require Import Arith ArithR Mem IirModel Tables ResamplerModel Spec SpecOk SpecR SplitModel SplitProof Twin IirReal IirPhase.
Import ListNotations.
Open Scope Z_scope.

Lemma bank_sse (cs : list RA) f x : bank true cs f x = bank false cs f x.
Proof. unfold bank, odd_branch, even_branch, d_cs. now rewrite chain_evens_up, chain_odds_up. Qed.

Definition r_low (a b : R) : R := (/ 2 * (a + b))%R.
Definition r_high (a b : R) : R := (/ 2 * (a - b))%R.
Lemma bank_low sse (cs : list RA) x : bank sse cs (f_low sse) x = zip (A := RA) r_low (chain (evens cs) (odds x)) (chain (odds cs) (evens x)).
Proof. destruct sse; [rewrite bank_sse|]; apply zip_ext; intros a b; unfold f_low, r_low; raops; lra. Qed.
Lemma bank_high sse (cs : list RA) x : bank sse cs (f_high sse) x = zip (A := RA) r_high (chain (evens cs) (odds x)) (chain (odds cs) (evens x)).
Proof. destruct sse; [rewrite bank_sse|]; apply zip_ext; intros a b; unfold f_high, r_high; raops; lra. Qed.
Lemma bank_mean sse (cs : list RA) x : bank sse cs (f_mean sse) x = zip (A := RA) r_low (chain (evens cs) (odds x)) (chain (odds cs) (evens x)).
Proof. destruct sse; [rewrite bank_sse|]; apply zip_ext; intros a b; unfold f_mean, r_low; raops; lra. Qed.

(** ** Mirror image *)

(** the samples with odd index negated: multiplication with cos (pi n), which exchanges
    the frequencies f and pi - f *)
Fixpoint mirror (x : list RA) : list RA := match x with a :: b :: r => a :: (- b)%R :: mirror r | _ => x end.
Definition negate (x : list RA) : list RA := map Ropp x.

Lemma mirror_parts : forall n x, (length x <= n)%nat -> evens (mirror x) = evens x /\ odds (mirror x) = negate (odds x).
Proof.
  induction n as [|n IH]; intros [|a [|b x]] L; cbn [length] in L; try lia; try (split; reflexivity).
  destruct (IH x ltac:(lia)) as [E O]. unfold negate in *. cbn [mirror evens odds map]. rewrite E, O. split; reflexivity.
Qed.
Lemma allpass_from_negate c (x : list RA) : forall x1 y1 : R, allpass_from (A := RA) c (- x1)%R (- y1)%R (negate x) = negate (allpass_from (A := RA) c x1 y1 x).
Proof.
  unfold negate. induction x as [|x0 x IH]; intros x1 y1; [reflexivity|]. cbn [allpass_from map]. cbn zeta. raops.
  replace ((- x0 - - y1) * c + - x1)%R with (- ((x0 - y1) * c + x1))%R by ring. now rewrite IH.
Qed.
Lemma chain_negate (cs x : list RA) : chain cs (negate x) = negate (chain cs x).
Proof.
  revert x. induction cs as [|c cs IH]; intros x; [reflexivity|].
  change (chain (c :: cs) (negate x)) with (chain cs (allpass c (negate x))). change (chain (c :: cs) x) with (chain cs (allpass c x)).
  rewrite <- IH. f_equal. unfold allpass. raops. rewrite <- (allpass_from_negate c x 0 0). now rewrite Ropp_0.
Qed.
Lemma zip_negate (x y : list RA) : zip (A := RA) r_high x y = negate (zip (A := RA) r_low (negate x) y).
Proof.
  unfold negate. revert y. induction x as [|a x IH]; intros [|b y]; try reflexivity. cbn [zip map]. rewrite IH. f_equal. unfold r_high, r_low. lra.
Qed.
Theorem high_mirror (cs x : list RA) : zip (A := RA) r_high (chain (evens cs) (odds x)) (chain (odds cs) (evens x)) =
  negate (zip (A := RA) r_low (chain (evens cs) (odds (mirror x))) (chain (odds cs) (evens (mirror x)))).
Proof. destruct (mirror_parts (length x) x (le_n _)) as [-> ->]. rewrite chain_negate. apply zip_negate. Qed.

(** ** Energy *)
Lemma energy_bands (x y : list RA) : length x = length y ->
  (energy (zip (A := RA) r_low x y) + energy (zip (A := RA) r_high x y) = / 2 * (energy x + energy y))%R.
Proof.
  revert y. induction x as [|a x IH]; intros [|b y] L; try discriminate; cbn [zip energy]; [lra|].
  specialize (IH y ltac:(injection L; trivial)). unfold r_low at 1 2, r_high at 1 2. lra.
Qed.
Theorem bank_energy (cs x : list RA) : Forall (fun c : R => -1 < c < 1)%R cs -> size x mod 2 = 0 ->
  (energy (zip (A := RA) r_low (chain (evens cs) (odds x)) (chain (odds cs) (evens x))) +
   energy (zip (A := RA) r_high (chain (evens cs) (odds x)) (chain (odds cs) (evens x))) +
   / 2 * (chain_stored (evens cs) (odds x) + chain_stored (odds cs) (evens x)) = / 2 * energy x)%R.
Proof.
  intros F He. destruct (evens_all _ _ F) as [FE FO].
  rewrite energy_bands.
  - rewrite (energy_split (length x) x) by lia.
    assert (E1 : (energy (chain (A := RA) (evens cs) (odds x)) + chain_stored (evens cs) (odds x) = energy (odds x))%R) by exact (chain_energy _ FE _).
    assert (E2 : (energy (chain (A := RA) (odds cs) (evens x)) + chain_stored (odds cs) (evens x) = energy (evens x))%R) by exact (chain_energy _ FO _). lra.
  - rewrite !chain_length, odds_length, evens_length. unfold size in He.
    assert (length x = 2 * Z.to_nat (Z.of_nat (length x) / 2))%nat as ->.
    { pose proof (Z.div_mod (Z.of_nat (length x)) 2 ltac:(lia)). assert (0 <= Z.of_nat (length x) / 2) by (apply Z.div_pos; lia). lia. }
    rewrite Nat.div2_succ_double, Nat.div2_double. reflexivity.
Qed.

(** ** Sinusoids *)
Lemma sign_neg (b : R) : (- b)%R = (-1 * b)%R.
Proof. ring. Qed.
Lemma sign_out (a b : R) : (-1 * (a * b) = a * - b)%R.
Proof. ring. Qed.
Lemma sign_zero (b : bool) : 0%R = ((if b then 1 else -1) * 0)%R.
Proof. destruct b; lra. Qed.
Lemma smp_mirror : forall n (x : list RA), (length x <= n)%nat -> forall k, 0 <= k -> smp (mirror x) k = ((if Z.even k then 1 else -1) * smp x k)%R.
Proof.
  assert (N : forall k, smp (A := RA) [] k = 0%R) by (intros k; unfold smp; destruct (k <? 0); [reflexivity | now destruct (Z.to_nat k)]).
  induction n as [|n IH]; intros [|a [|b x]] L k Hk; cbn [length] in L; try lia.
  - cbn [mirror]. rewrite N. apply sign_zero.
  - cbn [mirror]. rewrite N. apply sign_zero.
  - cbn [mirror]. destruct (Z.eq_dec k 0) as [->|]; [symmetry; exact (Rmult_1_l a)|].
    replace k with (k - 1 + 1) by lia. rewrite !smp_S by lia. rewrite N. apply sign_zero.
  - cbn [mirror]. destruct (Z.eq_dec k 0) as [->|]; [symmetry; exact (Rmult_1_l a)|].
    destruct (Z.eq_dec k 1) as [->|]; [exact (sign_neg b)|].
    replace k with (k - 1 + 1) by lia. rewrite !smp_S by lia. 
    replace (k - 1) with (k - 2 + 1) by lia. rewrite (smp_S (A := RA) b), (smp_S (A := RA) (- b)%R) by lia. rewrite IH by lia.
    replace (k - 2 + 1 + 1) with (k - 2 + 2) by lia. rewrite Z.even_add. change (Z.even 2) with true. destruct (Z.even (k - 2)); reflexivity.
Qed.
Lemma mirror_length (x : list RA) : length (mirror x) = length x.
Proof.
  enough (H : forall n y, (length y <= n)%nat -> length (mirror y) = length y) by exact (H _ x (le_n _)).
  induction n as [|n IH]; intros [|a [|b y]] L; cbn [length] in L; try lia; try reflexivity. cbn [mirror length]. rewrite IH by lia. reflexivity.
Qed.
Lemma mirror_sine (x : list RA) amp f p : (forall k, 0 <= k < size x -> smp x k = (amp * sin (f * IZR k + p))%R) ->
  forall k, 0 <= k < size (mirror x) -> smp (mirror x) k = (amp * sin ((f + PI) * IZR k + p))%R.
Proof.
  intros H k Hk. unfold size in Hk. rewrite mirror_length in Hk. rewrite (smp_mirror (length x)) by lia. rewrite H by (unfold size; lia).
  replace ((f + PI) * IZR k + p)%R with (f * IZR k + p + IZR k * PI)%R by ring. rewrite sin_parity. destruct (Z.even k); [exact (Rmult_1_l _) | exact (sign_out amp _)].
Qed.

(** gain and lag of the low band; the high band has those of the mirrored frequency *)
Definition low_gain (cs : list R) (f : R) : R := cos (half_diff cs f).
Definition low_lag (cs : list R) (f : R) : R := (mean_lag cs f - f)%R.
Definition settle (cs : list R) (rho : R) : R := (chain_gain rho (evens cs) + chain_gain rho (odds cs))%R.

Lemma low_sine (cs x : list RA) rho amp f p : (0 < rho <= 1)%R -> Forall (fun c => 0 <= c < rho)%R cs -> size x mod 2 = 0 ->
  (forall k, 0 <= k < size x -> smp x k = (amp * sin (f * IZR k + p))%R) ->
  forall k, 0 <= k < size x / 2 ->
  (Rabs (smp (zip (A := RA) r_low (chain (evens cs) (odds x)) (chain (odds cs) (evens x))) k - amp * low_gain cs f * sin (2 * f * IZR k + (p - low_lag cs f)))
   <= settle cs rho * Rabs amp * rho ^ Z.to_nat k)%R.
Proof.
  intros Hr F Ev Hx k Hk. destruct (evens_all _ _ F) as [FE FO].
  pose proof (chain_gain_ge rho (evens cs) (proj2 Hr) FE) as GE. pose proof (chain_gain_ge rho (odds cs) (proj2 Hr) FO) as GO.
  assert (S1 : (chain_gain rho (evens cs) <= settle cs rho /\ chain_gain rho (odds cs) <= settle cs rho /\ 1 <= settle cs rho)%R).
  { unfold settle. change (T RA) with R in *. lra. }
  destruct S1 as (S1 & S2 & S3).
  set (w := fun k => (rho ^ Z.to_nat (k / 2))%R).
  assert (P : forall n, (0 < rho ^ n <= 1)%R).
  { intros n. split; [apply pow_lt; lra|]. rewrite <- (pow1 n). apply pow_incr. lra. }
  assert (W2 : forall i, 0 <= i -> w (2 * i) = (rho ^ Z.to_nat i)%R) by (intros i Hi; unfold w; rewrite Z.mul_comm, Z.div_mul by lia; reflexivity).
  assert (N : near (iir_down2 (A := RA) cs x) [down_wave cs (Wave amp f p)] (settle cs rho * Rabs amp) (fun k => w (2 * k))).
  { apply (down_near cs rho (settle cs rho) x [Wave amp f p] (Rabs amp) w); try assumption; try lra.
    - intros i j Hij. unfold w. assert (i / 2 <= j / 2) by (apply Z.div_le_mono; lia). assert (0 <= i / 2) by (apply Z.div_pos; lia).
      replace (Z.to_nat (j / 2)) with (Z.to_nat (i / 2) + (Z.to_nat (j / 2) - Z.to_nat (i / 2)))%nat by lia. rewrite pow_add.
      pose proof (P (Z.to_nat (i / 2))). pose proof (P (Z.to_nat (j / 2) - Z.to_nat (i / 2))%nat). 
      rewrite <- (Rmult_1_r (rho ^ Z.to_nat (i / 2))) at 2. apply Rmult_le_compat_l; lra.
    - rewrite Zeven_mod. unfold size in Ev. apply Zeq_is_eq_bool. exact Ev.
    - intros i Hi. rewrite !W2 by lia. replace (Z.to_nat (i + 1)) with (S (Z.to_nat i)) by lia. cbn [pow]. pose proof (P (Z.to_nat i)). lra.
    - split; [split|].
      + apply Rabs_pos.
      + cbn [amps w_amp]. unfold w. cbn. lra.
      + intros j Hj. rewrite Hx by exact Hj. cbn [waves]. unfold wval. cbn [w_amp w_freq w_phase]. rewrite Rplus_0_r, Rminus_diag_eq by reflexivity. rewrite Rabs_R0.
        apply Rmult_le_pos; [apply Rabs_pos | unfold w; pose proof (P (Z.to_nat (j / 2))); lra]. }
  destruct N as [_ N]. specialize (N k). unfold iir_down2 in N. cbv beta in N. rewrite W2 in N by lia.
  replace (zip (A := RA) r_low (chain (evens cs) (odds x)) (chain (odds cs) (evens x))) with
    (zip (A := RA) (fun a b => fmul fhalf (fadd a b)) (chain (evens cs) (odds x)) (chain (odds cs) (evens x))) by (apply zip_ext; intros a b; unfold r_low; raops; reflexivity).
  unfold low_gain, low_lag. cbn [waves] in N. rewrite Rplus_0_r in N. unfold wval, down_wave in N. cbn [w_amp w_freq w_phase] in N.
  apply N. unfold size. rewrite zip_length, !chain_length, odds_length, evens_length. unfold size in Hk, Ev. 
  assert (length x = 2 * Z.to_nat (Z.of_nat (length x) / 2))%nat as E0.
  { pose proof (Z.div_mod (Z.of_nat (length x)) 2 ltac:(lia)). assert (0 <= Z.of_nat (length x) / 2) by (apply Z.div_pos; lia). lia. }
  rewrite E0. rewrite Nat.div2_succ_double, Nat.div2_double. lia.
Qed.
Lemma smp_negate (x : list RA) k : smp (negate x) k = (- smp x k)%R.
Proof.
  unfold smp, negate. destruct (k <? 0); raops; [lra|]. rewrite <- Ropp_0 at 1. apply map_nth.
Qed.
Lemma high_sine (cs x : list RA) rho amp f p : (0 < rho <= 1)%R -> Forall (fun c => 0 <= c < rho)%R cs -> size x mod 2 = 0 ->
  (forall k, 0 <= k < size x -> smp x k = (amp * sin (f * IZR k + p))%R) ->
  forall k, 0 <= k < size x / 2 ->
  (Rabs (smp (zip (A := RA) r_high (chain (evens cs) (odds x)) (chain (odds cs) (evens x))) k - amp * (- low_gain cs (f + PI)) * sin (2 * f * IZR k + (p - low_lag cs (f + PI))))
   <= settle cs rho * Rabs amp * rho ^ Z.to_nat k)%R.
Proof.
  intros Hr F Ev Hx k Hk. rewrite high_mirror, smp_negate.
  assert (S : size (mirror x) = size x) by (unfold size; now rewrite mirror_length).
  pose proof (low_sine cs (mirror x) rho amp (f + PI) p Hr F ltac:(rewrite S; exact Ev) (mirror_sine x amp f p Hx) k ltac:(rewrite S; exact Hk)) as L.
  replace (2 * (f + PI) * IZR k + (p - low_lag cs (f + PI)))%R with (2 * f * IZR k + (p - low_lag cs (f + PI)) + IZR (2 * k) * PI)%R in L by (rewrite mult_IZR; ring).
  rewrite sin_parity in L. replace (Z.even (2 * k)) with true in L by (symmetry; apply Z.even_spec; exists k; lia).
  set (u := smp _ k) in *. set (s := sin _) in *. set (g := low_gain _ _) in *.
  replace (- u - amp * - g * s)%R with (- (u - amp * g * s))%R by ring. rewrite Rabs_Ropp. exact L.
Qed.
