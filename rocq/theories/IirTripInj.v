(** * Upsampling and downsampling with IIR filters can be undone, in exact arithmetic: the first sample of the output is never zero for a 1 *)
From Coq Require Import ZArith Reals List Lia Lra Psatz Bool ZifyNat ZifyBool Permutation.
From Flocq Require Import Core.
From Verif Require Import Arith ArithR ArithF Mem FirModel IirModel Tables ResamplerModel Wp Stage Cascade
  ResamplerProof ResamplerOk Spec SpecOk SpecR Client Feed StreamFacts DelayFacts Twin TablesF TableFacts FirReal IirReal Cases PropsFir PropsIir
  IirPhase IirCert IirLag IirFreq IirDelay IirSine IirTones PropsIirTones LinFacts.
Import ListNotations.
Open Scope Z_scope.

(** ** Exact computations with numbers m / 2^e *)
Definition DA : arith := {|
  T := Z * Z;
  f0 := (0, 0);
  f1 := (1, 0);
  fhalf := (1, 1);
  fadd := fun a b => if snd a <=? snd b then (fst a * 2 ^ (snd b - snd a) + fst b, snd b) else (fst a + fst b * 2 ^ (snd a - snd b), snd a);
  fsub := fun a b => if snd a <=? snd b then (fst a * 2 ^ (snd b - snd a) - fst b, snd b) else (fst a - fst b * 2 ^ (snd a - snd b), snd a);
  fmul := fun a b => (fst a * fst b, snd a + snd b);
  fdy := fun m e => (m, - e) |}.
Definition real (a : DA) : RA := (IZR (fst a) * bpow radix2 (- snd a))%R.
Lemma shift_real m k e : 0 <= k -> (IZR (m * 2 ^ k) * bpow radix2 (- (e + k)) = IZR m * bpow radix2 (- e))%R.
Proof.
  intros Hk. rewrite mult_IZR. replace (IZR (2 ^ k)) with (bpow radix2 k) by (symmetry; apply (IZR_Zpower radix2); exact Hk).
  rewrite Rmult_assoc, <- bpow_plus. do 2 f_equal. lia.
Qed.
Lemma add_real (a b : DA) : real (fadd a b) = fadd (real a) (real b).
Proof.
  destruct a as [m e], b as [n g]. unfold real. cbn [fadd DA fst snd RA]. destruct (Z.leb_spec e g); cbn [fst snd]; rewrite plus_IZR, Rmult_plus_distr_r.
  - f_equal. replace (- g) with (- (e + (g - e))) by lia. apply shift_real. lia.
  - f_equal. replace (- e) with (- (g + (e - g))) by lia. apply shift_real. lia.
Qed.
Lemma sub_real (a b : DA) : real (fsub a b) = fsub (real a) (real b).
Proof.
  destruct a as [m e], b as [n g]. unfold real. cbn [fsub DA fst snd RA]. destruct (Z.leb_spec e g); cbn [fst snd]; rewrite minus_IZR; unfold Rminus; rewrite Rmult_plus_distr_r, <- Ropp_mult_distr_l.
  - f_equal. replace (- g) with (- (e + (g - e))) by lia. apply shift_real. lia.
  - do 2 f_equal. replace (- e) with (- (g + (e - g))) by lia. apply shift_real. lia.
Qed.
Lemma four (a b c d : R) : (a * b * (c * d) = a * c * (b * d))%R.
Proof. ring. Qed.
Lemma mul_real (a b : DA) : real (fmul a b) = fmul (real a) (real b).
Proof.
  destruct a as [m e], b as [n g]. unfold real. cbn [fmul DA fst snd RA]. rewrite mult_IZR. replace (- (e + g)) with (- e + - g) by lia. rewrite bpow_plus. apply four.
Qed.
Lemma zero_real : real f0 = f0. Proof. unfold real. cbn. apply Rmult_0_l. Qed.
Lemma half_real : real fhalf = fhalf. Proof. unfold real. cbn. apply Rmult_1_l. Qed.

Definition reals : list DA -> list RA := @map (Arith.T DA) (Arith.T RA) real.
Lemma allpass_from_real c (x : list DA) : forall x1 y1, reals (allpass_from (A := DA) c x1 y1 x) = allpass_from (A := RA) (real c) (real x1) (real y1) (reals x).
Proof.
  induction x as [|a x IH]; intros x1 y1; [reflexivity|]. cbn [reals map allpass_from]. cbv zeta. unfold reals in IH. cbn [map]. rewrite IH, !add_real, !mul_real, !sub_real. reflexivity.
Qed.
Lemma chain_real (cs : list DA) : forall x, reals (chain (A := DA) cs x) = chain (A := RA) (reals cs) (reals x).
Proof.
  induction cs as [|c cs IH]; intros x; [reflexivity|].
  change (reals (chain (A := DA) cs (allpass (A := DA) c x)) = chain (A := RA) (reals cs) (allpass (A := RA) (real c) (reals x))).
  rewrite IH. f_equal. unfold allpass. rewrite allpass_from_real, zero_real. reflexivity.
Qed.
Lemma weave_real (x : list DA) : forall y, reals (weave x y) = weave (reals x) (reals y).
Proof. induction x as [|a x IH]; intros [|b y]; try reflexivity. cbn [weave reals map]. do 2 f_equal. apply IH. Qed.
Lemma up_real (cs x : list DA) : reals (iir_up2 (A := DA) cs x) = iir_up2 (A := RA) (reals cs) (reals x).
Proof.
  unfold iir_up2. rewrite weave_real, !chain_real. destruct (evens_map (real : Arith.T DA -> Arith.T RA) _ cs (le_n _)) as [E1 E2]. unfold reals at 5 6. fold reals.
  unfold reals in *. rewrite E1, E2. reflexivity.
Qed.
Lemma zip_real (x : list DA) : forall y, reals (zip (A := DA) (fun a b => fmul fhalf (fadd a b)) x y) = zip (A := RA) (fun a b => fmul fhalf (fadd a b)) (reals x) (reals y).
Proof.
  induction x as [|a x IH]; intros [|b y]; try reflexivity. cbn [zip reals map]. rewrite mul_real, add_real, half_real. f_equal. apply IH.
Qed.
Lemma down_real (cs x : list DA) : reals (iir_down2 (A := DA) cs x) = iir_down2 (A := RA) (reals cs) (reals x).
Proof.
  unfold iir_down2. rewrite zip_real, !chain_real.
  destruct (evens_map (real : Arith.T DA -> Arith.T RA) _ cs (le_n _)) as [E1 E2]. destruct (evens_map (real : Arith.T DA -> Arith.T RA) _ x (le_n _)) as [E3 E4].
  unfold reals in *. rewrite E1, E2, E3, E4. reflexivity.
Qed.

Definition dys (s p : Z) : list DA := map (fun n => (n, 48) : DA) (iir_ints s p).
Lemma dys_real s p : stage_no s -> iir_prec p -> reals (dys s p) = cs_of p s.
Proof.
  intros Hs Hp. unfold cs_of. rewrite (iir_coeffs_R UP s p Hs Hp). unfold reals, dys. rewrite map_map. apply map_ext. intros n. unfold real. cbn [fst snd].
  unfold unit_of. change (- (48)) with (Z.opp 48). rewrite bpow_opp. f_equal.
Qed.
(** what comes out of a round trip first, for a 1 *)
Definition first_out (ratio p : Z) : list DA :=
  if ratio =? 2 then chain (A := DA) (dys 2 p) [f1]
  else if ratio =? 4 then iir_down2 (A := DA) (dys 2 p) (chain (A := DA) (dys 4 p) (iir_up2 (A := DA) (dys 2 p) [f1]))
  else iir_down2 (A := DA) (dys 2 p) (iir_down2 (A := DA) (dys 4 p) (chain (A := DA) (dys 8 p) (iir_up2 (A := DA) (dys 4 p) (iir_up2 (A := DA) (dys 2 p) [f1])))).
Lemma first_pos : forallb (fun ratio => forallb (fun p => match first_out ratio p with [a] => 0 <? fst a | _ => false end) [8; 12; 16; 20; 24]) [2; 4; 8] = true.
Proof. vm_compute. reflexivity. Qed.
Lemma real_pos (a : DA) : (0 <? fst a) = true -> (0 < real a)%R.
Proof. intros H. apply Rmult_lt_0_compat; [apply IZR_lt; lia | apply bpow_gt_0]. Qed.

(** ** Round trips *)
Definition trip (ratio p : Z) (x : list RA) : list RA := resample (A := RA) FILTER_IIR DOWN p false ratio (resample (A := RA) FILTER_IIR UP p false ratio x).
Lemma trip_one ratio p : valid FILTER_IIR ratio p -> exists h : R, trip ratio p [1%R] = [h] /\ (0 < h)%R.
Proof.
  intros [Hr V]. unfold trip. rewrite (resample_trip ratio p [1%R] Hr). destruct (Z.eqb_spec ratio 1) as [E1|N1]; [exists 1%R; split; [reflexivity | lra]|].
  assert (HP : iir_prec p) by (apply V; destruct Hr as [?|[?|[?|?]]]; lia).
  assert (S2 : stage_no 2) by (unfold stage_no; auto). assert (S4 : stage_no 4) by (unfold stage_no; auto). assert (S8 : stage_no 8) by (unfold stage_no; auto).
  pose proof first_pos as F. rewrite forallb_forall in F. specialize (F ratio ltac:(cbn; destruct Hr as [?|[?|[?|?]]]; lia)).
  rewrite forallb_forall in F. specialize (F p ltac:(cbn; unfold iir_prec in HP; lia)).
  assert (E : reals (first_out ratio p) = if ratio =? 2 then chain (A := RA) (cs_of p 2) [1%R]
    else if ratio =? 4 then iir_down2 (A := RA) (cs_of p 2) (chain (A := RA) (cs_of p 4) (iir_up2 (A := RA) (cs_of p 2) [1%R]))
    else iir_down2 (A := RA) (cs_of p 2) (iir_down2 (A := RA) (cs_of p 4) (chain (A := RA) (cs_of p 8) (iir_up2 (A := RA) (cs_of p 4) (iir_up2 (A := RA) (cs_of p 2) [1%R]))))).
  { assert (E1 : reals [f1] = [1%R]) by (unfold reals, real; cbn [map]; cbn; f_equal; apply Rmult_1_l).
    unfold first_out. destruct (ratio =? 2); [|destruct (ratio =? 4)]; rewrite ?down_real, ?chain_real, ?up_real, ?down_real, ?chain_real, ?up_real, ?dys_real, ?E1 by assumption; reflexivity. }
  rewrite <- E. destruct (first_out ratio p) as [|a [|b l]]; try discriminate. exists (real a). split; [reflexivity | now apply real_pos].
Qed.

(** the beginning of the input determines the beginning of the output *)
Definition begins {X} (x z : list X) : Prop := exists r, z = x ++ r.
Lemma allpass_begins (c : R) (x z : list RA) : begins x z -> begins (allpass (A := RA) c x) (allpass (A := RA) c z).
Proof.
  intros (r & ->). unfold allpass. generalize (f0 (a := RA)) at 1 3. generalize (f0 (a := RA)). induction x as [|a x IH]; intros y1 x1.
  - exists (allpass_from (A := RA) c x1 y1 r). reflexivity.
  - cbn [app allpass_from]. cbv zeta. destruct (IH (fadd (fmul (fsub a y1) c) x1) a) as (q & E). exists q. cbn [app]. now rewrite E.
Qed.
Lemma chain_begins (cs : list RA) : forall x z, begins x z -> begins (chain (A := RA) cs x) (chain (A := RA) cs z).
Proof.
  induction cs as [|c cs IH]; intros x z H; [exact H|]. change (begins (chain (A := RA) cs (allpass (A := RA) c x)) (chain (A := RA) cs (allpass (A := RA) c z))). now apply IH, allpass_begins.
Qed.
Lemma weave_begins {X} (a b a' b' : list X) : length a = length b -> begins a a' -> begins b b' -> begins (weave a b) (weave a' b').
Proof.
  intros L (r & ->) (q & ->). exists (weave r q). revert b L. induction a as [|u a IH]; intros [|v b] L; try discriminate; [reflexivity|].
  cbn [app weave]. rewrite (IH b) by (injection L; trivial). reflexivity.
Qed.
Lemma up_begins (cs x z : list RA) : begins x z -> begins (iir_up2 (A := RA) cs x) (iir_up2 (A := RA) cs z).
Proof. intros H. unfold iir_up2. apply weave_begins; [now rewrite !chain_length | now apply chain_begins ..]. Qed.
Lemma evens_begins {X} n : forall x z : list X, length x = (2 * n)%nat -> begins x z -> begins (evens x) (evens z) /\ begins (odds x) (odds z).
Proof.
  induction n as [|n IH]; intros x z L (r & ->).
  - destruct x; [|discriminate]. split; eexists; reflexivity.
  - destruct x as [|a [|b x]]; cbn [length] in L; try lia. destruct (IH x (x ++ r) ltac:(lia)) as [(p & E1) (q & E2)]; [eexists; reflexivity|].
    cbn [app evens odds]. rewrite E1, E2. split; eexists; reflexivity.
Qed.
Lemma zip_begins (f : RA -> RA -> RA) (a b a' b' : list RA) : length a = length b -> begins a a' -> begins b b' -> begins (zip (A := RA) f a b) (zip (A := RA) f a' b').
Proof.
  intros L (r & ->) (q & ->). exists (zip (A := RA) f r q). revert b L. induction a as [|u a IH]; intros [|v b] L; try discriminate; [reflexivity|].
  cbn [app zip]. rewrite (IH b) by (injection L; trivial). reflexivity.
Qed.
Lemma down_begins n (cs x z : list RA) : length x = (2 * n)%nat -> begins x z -> begins (iir_down2 (A := RA) cs x) (iir_down2 (A := RA) cs z).
Proof.
  intros L H. destruct (evens_begins n x z L H) as [H1 H2]. unfold iir_down2. apply zip_begins; [|now apply chain_begins ..].
  rewrite !chain_length, evens_length, odds_length, L. rewrite Nat.div2_succ_double, Nat.div2_double. reflexivity.
Qed.
Lemma up_len (cs x : list RA) : length (iir_up2 (A := RA) cs x) = (2 * length x)%nat.
Proof. unfold iir_up2. rewrite weave_length by now rewrite !chain_length. now rewrite chain_length. Qed.
Lemma down_len n (cs x : list RA) : length x = (2 * n)%nat -> length (iir_down2 (A := RA) cs x) = n.
Proof. intros L. unfold iir_down2. rewrite zip_length, !chain_length, evens_length, odds_length, L, Nat.div2_succ_double, Nat.div2_double. lia. Qed.
Lemma trip_begins ratio p (x z : list RA) : ratio = 1 \/ ratio = 2 \/ ratio = 4 \/ ratio = 8 -> begins x z -> begins (trip ratio p x) (trip ratio p z) /\ length (trip ratio p x) = length x.
Proof.
  intros Hr H. unfold trip. rewrite !resample_trip by exact Hr. destruct Hr as [->|[->|[->| ->]]]; cbn [Z.eqb Pos.eqb].
  - split; [exact H | reflexivity].
  - split; [now apply chain_begins | apply chain_length].
  - split; [apply (down_begins (length x)); [rewrite chain_length; apply up_len | now apply chain_begins, up_begins]|].
    apply down_len. rewrite chain_length. apply up_len.
  - assert (L4 : length (chain (A := RA) (cs_of p 8) (iir_up2 (A := RA) (cs_of p 4) (iir_up2 (A := RA) (cs_of p 2) x))) = (2 * (2 * length x))%nat) by (rewrite chain_length, !up_len; lia).
    assert (B4 : begins (chain (A := RA) (cs_of p 8) (iir_up2 (A := RA) (cs_of p 4) (iir_up2 (A := RA) (cs_of p 2) x))) (chain (A := RA) (cs_of p 8) (iir_up2 (A := RA) (cs_of p 4) (iir_up2 (A := RA) (cs_of p 2) z)))) by now apply chain_begins, up_begins, up_begins.
    split; [apply (down_begins (length x)); [now apply down_len | apply (down_begins (2 * length x)); [exact L4 | exact B4]]|]. apply down_len. now apply down_len.
Qed.

Lemma trip_lin ratio p a b (x z : list RA) : size x = size z -> trip ratio p (lin a b x z) = lin a b (trip ratio p x) (trip ratio p z).
Proof. intros E. unfold trip. rewrite resample_lin by exact E. apply resample_lin. now apply resample_same_size. Qed.
Lemma trip_zeros ratio p n (x : list RA) : valid FILTER_IIR ratio p -> 0 <= n -> trip ratio p (zeros n ++ x) = zeros n ++ trip ratio p x.
Proof.
  intros [Hr V] Hn. unfold trip. pose proof (resample_zeros FILTER_IIR UP p ratio n x Hr V Hn) as E1. cbn beta iota in E1. rewrite E1.
  exact (resample_zeros FILTER_IIR DOWN p ratio n _ Hr V Hn).
Qed.
Lemma trip_first ratio p : valid FILTER_IIR ratio p -> exists h : R, (0 < h)%R /\ forall (v : RA) (r : list RA), smp (trip ratio p (v :: r)) 0 = (v * h)%R.
Proof.
  intros V. destruct (trip_one ratio p V) as (h & E & P). exists h. split; [exact P|]. intros v r.
  destruct (trip_begins ratio p [v] (v :: r) (proj1 V)) as [(q & Eq) L]; [exists r; reflexivity|].
  assert (Ev : trip ratio p [v] = [(v * h)%R]).
  { assert (Lv : [v] = lin v 0 [1%R] [1%R]) by (unfold lin; cbn [zip]; f_equal; symmetry; change (v * 1 + 0 * 1 = v)%R; ring).
    rewrite Lv, trip_lin by reflexivity. rewrite E. unfold lin. cbn [zip]. f_equal. change (v * h + 0 * h = v * h)%R. ring. }
  rewrite Eq, Ev. reflexivity.
Qed.
Lemma trip_kernel ratio p : valid FILTER_IIR ratio p -> forall d : list RA, (forall k, 0 <= k -> smp (trip ratio p d) k = 0%R) -> forall k, 0 <= k -> smp d k = 0%R.
Proof.
  intros V. destruct (trip_first ratio p V) as (h & P & F). induction d as [|v r IH]; intros H k Hk.
  - unfold smp. destruct (k <? 0); [reflexivity|]. now destruct (Z.to_nat k).
  - pose proof (H 0 ltac:(lia)) as H0. rewrite F in H0. apply Rmult_integral in H0. destruct H0 as [H0|H0]; [|lra]. subst v.
    change (0%R :: r) with (zeros 1 ++ r) in H. rewrite trip_zeros in H by (assumption || lia).
    assert (H' : forall k, 0 <= k -> smp (trip ratio p r) k = 0%R).
    { intros j Hj. specialize (H (j + 1) ltac:(lia)). change (zeros 1 ++ trip ratio p r) with ((0%R : RA) :: trip ratio p r) in H. rewrite (smp_S (A := RA)) in H by lia. exact H. }
    destruct (Z.eq_dec k 0) as [->|]; [reflexivity|]. replace k with ((k - 1) + 1) by lia. rewrite (smp_S (A := RA)) by lia. apply (IH H'). lia.
Qed.
Theorem trip_inj ratio p (x z : list RA) : valid FILTER_IIR ratio p -> trip ratio p x = trip ratio p z -> x = z.
Proof.
  intros V E. assert (L : forall y, length (trip ratio p y) = length y) by (intros y; apply (trip_begins ratio p y y (proj1 V)); exists []; symmetry; apply app_nil_r).
  assert (S : size x = size z) by (unfold size; now rewrite <- (L x), <- (L z), E).
  apply smp_ext; [exact S|]. intros k Hk.
  assert (K : smp (lin 1 (-1) x z) k = 0%R).
  { apply (trip_kernel ratio p V); [|lia]. intros j _. rewrite trip_lin by exact S. rewrite E. rewrite smp_lin by reflexivity. set (a := smp (trip ratio p z) j). change (Arith.T RA) with R in a. clearbody a. lra. }
  rewrite smp_lin in K by exact S. set (a := smp x k) in *. set (b := smp z k) in *. change (Arith.T RA) with R in a, b. clearbody a b. lra.
Qed.
