(** * Energy of signals going through FIR stages: for every signal, not only sinusoids *)
From Coq Require Import ZArith Reals List Lia Lra Psatz Bool ZifyNat ZifyBool.
From Flocq Require Import Core.
From Verif Require Import Arith ArithR Tables ResamplerModel ResamplerProof ResamplerOk Spec SpecOk SpecR Client Feed TablesF TableFacts DelayFacts LinFacts FirReal TrigPoly FreqFir Tones IirReal.
Import ListNotations.
Open Scope Z_scope.

(** ** Sums *)
Lemma sumR_swap n m (f : Z -> Z -> R) : sumR n (fun i => sumR m (f i)) = sumR m (fun j => sumR n (fun i => f i j)).
Proof.
  induction n as [|n IH]; cbn [sumR]; [symmetry; apply sumR_0|]. rewrite IH, <- sumR_plus. reflexivity.
Qed.
Lemma sumR_scal_r n a f : sumR n (fun k => (f k * a)%R) = (sumR n f * a)%R.
Proof. rewrite (sumR_ext _ _ (fun k => (a * f k)%R)) by (intros; ring). rewrite sumR_scal. ring. Qed.
Lemma sumR_nonneg n f : (forall k, 0 <= k < Z.of_nat n -> (0 <= f k)%R) -> (0 <= sumR n f)%R.
Proof. intros H. rewrite <- (sumR_0 n). now apply sumR_le. Qed.
Lemma sumR_one n j f : 0 <= j < Z.of_nat n -> sumR n (fun k => if k =? j then f k else 0%R) = f j.
Proof.
  induction n as [|n IH]; intros H; [lia|]. cbn [sumR]. destruct (Z.eq_dec j (Z.of_nat n)) as [->|Ne].
  - rewrite Z.eqb_refl. rewrite (sumR_ext _ _ (fun _ => 0%R)) by (intros k Hk; replace (k =? Z.of_nat n) with false by lia; reflexivity).
    rewrite sumR_0. lra.
  - replace (Z.of_nat n =? j) with false by lia. rewrite IH by lia. lra.
Qed.

(** ** Parseval's identity for sums over n frequencies *)
Definition cpart (n : nat) (g : Z -> R) (w : R) : R := sumR n (fun k => (g k * cos (w * IZR k))%R).
Definition spart (n : nat) (g : Z -> R) (w : R) : R := sumR n (fun k => (g k * sin (w * IZR k))%R).
Definition power (n : nat) (g : Z -> R) (w : R) : R := (cpart n g w ^ 2 + spart n g w ^ 2)%R.
Definition grid (n : nat) (k : Z) : R := (2 * PI * IZR k / INR n)%R.

Lemma power_double n g w : power n g w = sumR n (fun i => sumR n (fun j => (g i * g j * cos (w * IZR (i - j)))%R)).
Proof.
  unfold power, cpart, spart. rewrite <- !Rsqr_pow2. unfold Rsqr.
  rewrite <- (sumR_scal_r n (sumR n (fun k => (g k * cos (w * IZR k))%R))), <- (sumR_scal_r n (sumR n (fun k => (g k * sin (w * IZR k))%R))).
  rewrite <- sumR_plus. apply sumR_ext. intros i Hi. rewrite <- !sumR_scal, <- sumR_plus. apply sumR_ext. intros j Hj.
  rewrite minus_IZR, Rmult_minus_distr_l, cos_minus. ring.
Qed.

Lemma dirichlet a n : (2 * sin (a / 2) * sumR n (fun k => cos (a * IZR k)) = sin (a / 2) + sin (a * INR n - a / 2))%R.
Proof.
  induction n as [|n IH].
  - cbn [sumR INR]. replace (a * 0 - a / 2)%R with (- (a / 2))%R by ring. rewrite sin_neg. ring.
  - cbn [sumR]. rewrite Rmult_plus_distr_l, IH, S_INR, <- INR_IZR_INZ.
    replace (a * (INR n + 1) - a / 2)%R with (a * INR n + a / 2)%R by field. rewrite sin_minus, sin_plus. ring.
Qed.
Lemma grid_sum n d : - Z.of_nat n < d < Z.of_nat n -> d <> 0 -> sumR n (fun k => cos (grid n k * IZR d)) = 0%R.
Proof.
  intros Hd Nd. assert (N0 : (0 < INR n)%R) by (apply lt_0_INR; lia).
  set (a := (2 * PI * IZR d / INR n)%R).
  rewrite (sumR_ext _ _ (fun k => cos (a * IZR k))) by (intros k Hk; f_equal; unfold a, grid; field; lra).
  pose proof (dirichlet a n) as D.
  replace (a * INR n - a / 2)%R with (- (a / 2) + 2 * IZR d * PI)%R in D by (unfold a; field; lra).
  rewrite sin_2kpi, sin_neg in D.
  assert (S0 : sin (a / 2) <> 0%R).
  { replace (a / 2)%R with (PI * (IZR d / INR n))%R by (unfold a; field; lra).
    assert (B : (-1 < IZR d / INR n < 1)%R).
    { assert (IZR (- Z.of_nat n) < IZR d < IZR (Z.of_nat n))%R by (split; apply IZR_lt; lia). rewrite opp_IZR, <- INR_IZR_INZ in H.
      split; [apply (Rmult_lt_reg_r (INR n)) | apply (Rmult_lt_reg_r (INR n))]; try exact N0; unfold Rdiv; rewrite Rmult_assoc, Rinv_l by lra; lra. }
    assert (Nz : (IZR d / INR n <> 0)%R).
    { intros E. apply (f_equal (fun v => (v * INR n)%R)) in E. unfold Rdiv in E. rewrite Rmult_assoc, Rinv_l in E by lra. rewrite Rmult_1_r, Rmult_0_l in E. apply eq_IZR in E. contradiction. }
    set (q := (IZR d / INR n)%R) in *. pose proof PI_RGT_0. destruct (Rlt_dec 0 q).
    - assert (0 < sin (PI * q))%R; [|lra]. apply sin_gt_0; nra.
    - assert (0 < sin (PI * (- q)))%R by (apply sin_gt_0; nra). replace (PI * - q)%R with (- (PI * q))%R in H0 by ring. rewrite sin_neg in H0. lra. }
  assert (P : (2 * sin (a / 2) * sumR n (fun k => cos (a * IZR k)) = 0)%R) by lra.
  apply Rmult_integral in P. destruct P as [P|P]; [lra | exact P].
Qed.
Lemma parseval n g : sumR n (fun k => power n g (grid n k)) = (INR n * sumR n (fun i => (g i * g i)%R))%R.
Proof.
  rewrite (sumR_ext _ _ (fun k => sumR n (fun i => sumR n (fun j => (g i * g j * cos (grid n k * IZR (i - j)))%R)))) by (intros; apply power_double).
  rewrite sumR_swap, <- sumR_scal. apply sumR_ext. intros i Hi. rewrite sumR_swap.
  rewrite (sumR_ext _ _ (fun j => if j =? i then (INR n * (g i * g j))%R else 0%R)).
  - apply (sumR_one n i (fun j => (INR n * (g i * g j))%R)). exact Hi.
  - intros j Hj. rewrite sumR_scal. destruct (Z.eqb_spec j i) as [->|Ne].
    + rewrite (sumR_ext _ _ (fun _ => 1%R)) by (intros k Hk; rewrite Z.sub_diag, Rmult_0_r; apply cos_0).
      assert (C : forall m, sumR m (fun _ => 1%R) = INR m) by (induction m as [|m IH]; [reflexivity | rewrite S_INR; cbn [sumR]; rewrite IH; reflexivity]).
      rewrite C. ring.
    + rewrite grid_sum by lia. ring.
Qed.

(** ** The energy of a filtered signal *)
Section Filter.
Variables (n : nat) (t : Z -> R) (G : R).
Hypothesis (sym : forall i, 0 <= i < Z.of_nat n -> t i = t (Z.of_nat n - 1 - i)).
Hypothesis (HG : forall w, (Rabs (sumR n (fun i => t i * cos (w * (IZR i - IZR (Z.of_nat n - 1) / 2)))) <= G)%R).
Variables (L : nat) (x : Z -> R).
Hypothesis (supp : forall k, k < 0 \/ Z.of_nat L <= k -> x k = 0%R).
Definition filtered (m : Z) : R := sumR n (fun i => (x (m - Z.of_nat n + 1 + i)%Z * t i)%R).
Let R_ (w : R) : R := sumR n (fun i => (t i * cos (w * (IZR i - IZR (Z.of_nat n - 1) / 2)))%R).

Lemma shifted c (f : Z -> R) : 0 <= c <= Z.of_nat n -> sumR (L + n) (fun m => (x (m - c)%Z * f m)%R) = sumR (L + n) (fun m => (x m * f (m + c)%Z)%R).
Proof using supp.
  clear R_ HG G sym t.
  intros Hc. replace (L + n)%nat with (Z.to_nat c + (L + n - Z.to_nat c))%nat at 1 by lia.
  replace (L + n)%nat with ((L + n - Z.to_nat c) + Z.to_nat c)%nat at 2 by lia. rewrite !sumR_add.
  rewrite (sumR_ext (Z.to_nat c) _ (fun _ => 0%R)) by (intros k Hk; rewrite supp by lia; ring).
  rewrite (sumR_ext (Z.to_nat c) (fun i => (x (Z.of_nat (L + n - Z.to_nat c) + i)%Z * _)%R) (fun _ => 0%R)) by (intros k Hk; rewrite supp by lia; ring).
  rewrite !sumR_0, Rplus_0_l, Rplus_0_r. apply sumR_ext. intros k Hk. f_equal; f_equal; lia.
Qed.
Lemma filtered_sine w th : sumR (L + n) (fun m => (filtered m * sin (th + w * IZR m))%R) =
  (R_ w * sumR (L + n) (fun m => x m * sin (th + w * (IZR (Z.of_nat n - 1) / 2) + w * IZR m)))%R.
Proof using sym supp.
  clear HG G.
  unfold filtered. rewrite (sumR_ext _ _ (fun m => sumR n (fun i => (x (m - Z.of_nat n + 1 + i)%Z * t i * sin (th + w * IZR m))%R))) by (intros; now rewrite sumR_scal_r).
  rewrite sumR_swap.
  rewrite (sumR_ext _ _ (fun i => sumR (L + n) (fun m => (x m * (t i * sin (th + w * IZR (m + (Z.of_nat n - 1 - i)))))%R))).
  2: { intros i Hi. rewrite <- (shifted (Z.of_nat n - 1 - i) (fun m => (t i * sin (th + w * IZR m))%R)) by lia. apply sumR_ext. intros m Hm.
       replace (m - Z.of_nat n + 1 + i) with (m - (Z.of_nat n - 1 - i)) by lia. ring. }
  rewrite sumR_swap, <- sumR_scal. apply sumR_ext. intros m Hm. rewrite sumR_scal, sumR_rev.
  rewrite (sumR_ext _ _ (fun i => (sin ((th + w * IZR m) + w * IZR i) * t i)%R)).
  2: { intros i Hi. rewrite <- sym by lia. replace (m + (Z.of_nat n - 1 - (Z.of_nat n - 1 - i))) with (m + i) by lia.
       rewrite plus_IZR. replace (th + w * (IZR m + IZR i))%R with (th + w * IZR m + w * IZR i)%R by ring. ring. }
  rewrite sine_sum by exact sym. fold (R_ w).
  replace (th + w * IZR m + w * (IZR (Z.of_nat n - 1) / 2))%R with (th + w * (IZR (Z.of_nat n - 1) / 2) + w * IZR m)%R by ring. ring.
Qed.
Lemma sine_parts N g w th : sumR N (fun m => (g m * sin (th + w * IZR m))%R) = (sin th * cpart N g w + cos th * spart N g w)%R.
Proof using.
  unfold cpart, spart. rewrite <- !sumR_scal, <- sumR_plus. apply sumR_ext. intros m Hm. rewrite sin_plus. ring.
Qed.
Lemma filtered_power w : power (L + n) filtered w = (R_ w ^ 2 * power (L + n) x w)%R.
Proof using sym supp.
  clear HG G.
  pose proof (filtered_sine w 0) as E0. pose proof (filtered_sine w (PI / 2)) as E1. rewrite !sine_parts in E0, E1.
  rewrite sin_0, cos_0 in E0. rewrite sin_PI2, cos_PI2 in E1. set (c := (w * (IZR (Z.of_nat n - 1) / 2))%R) in *. rewrite Rplus_0_l in E0.
  replace (PI / 2 + c)%R with (c + PI / 2)%R in E1 by ring.
  assert (Sc : sin (c + PI / 2) = cos c) by (rewrite sin_plus, sin_PI2, cos_PI2; ring).
  assert (Cc : cos (c + PI / 2) = (- sin c)%R) by (rewrite cos_plus, sin_PI2, cos_PI2; ring).
  rewrite Sc, Cc in E1. unfold power.
  replace (spart (L + n) filtered w) with (R_ w * (sin c * cpart (L + n) x w + cos c * spart (L + n) x w))%R by lra.
  replace (cpart (L + n) filtered w) with (R_ w * (cos c * cpart (L + n) x w + - sin c * spart (L + n) x w))%R by lra.
  set (p := cpart _ x w). set (q := spart _ x w). pose proof (sin2_cos2 c) as Q. rewrite !Rsqr_pow2 in Q.
  replace (R_ w ^ 2 * (p ^ 2 + q ^ 2))%R with (R_ w ^ 2 * (p ^ 2 + q ^ 2) * (sin c ^ 2 + cos c ^ 2))%R by (rewrite Q; ring). ring.
Qed.
Lemma power_pos N g w : (0 <= power N g w)%R.
Proof using. unfold power. pose proof (pow2_ge_0 (cpart N g w)). pose proof (pow2_ge_0 (spart N g w)). lra. Qed.

Lemma filtered_energy_all : (sumR (L + n) (fun m => filtered m * filtered m) <= G ^ 2 * sumR L (fun k => x k * x k))%R.
Proof.
  destruct (Nat.eq_dec (L + n) 0) as [E|Ne].
  { assert (L = 0%nat) by lia. rewrite E. subst L. cbn [sumR]. lra. }
  assert (N0 : (0 < INR (L + n))%R) by (apply lt_0_INR; lia).
  apply (Rmult_le_reg_l (INR (L + n))); [exact N0|]. rewrite <- parseval.
  rewrite (sumR_ext _ _ (fun k => (R_ (grid (L + n) k) ^ 2 * power (L + n) x (grid (L + n) k))%R)) by (intros; apply filtered_power).
  apply Rle_trans with (sumR (L + n) (fun k => (G ^ 2 * power (L + n) x (grid (L + n) k))%R)).
  - apply sumR_le. intros k Hk. apply Rmult_le_compat_r; [apply power_pos|]. rewrite <- (pow2_abs (R_ _)).
    apply pow_incr. split; [apply Rabs_pos | apply HG].
  - rewrite sumR_scal, parseval, sumR_add. rewrite (sumR_ext n _ (fun _ => 0%R)) by (intros k Hk; rewrite supp by lia; ring). rewrite sumR_0. lra.
Qed.
Lemma filtered_energy M : (sumR M (fun m => filtered m * filtered m) <= G ^ 2 * sumR L (fun k => x k * x k))%R.
Proof.
  eapply Rle_trans; [|apply filtered_energy_all].
  destruct (le_lt_dec M (L + n)) as [H|H].
  - replace (L + n)%nat with (M + (L + n - M))%nat by lia. rewrite sumR_add.
    assert (0 <= sumR (L + n - M) (fun i => filtered (Z.of_nat M + i)%Z * filtered (Z.of_nat M + i)%Z))%R; [|lra].
    apply sumR_nonneg. intros k Hk. apply Rle_0_sqr.
  - replace M with ((L + n) + (M - (L + n)))%nat by lia. rewrite sumR_add.
    rewrite (sumR_ext (M - (L + n)) _ (fun _ => 0%R)); [rewrite sumR_0; lra|].
    intros k Hk. unfold filtered. rewrite (sumR_ext n _ (fun _ => 0%R)); [rewrite sumR_0; ring|].
    intros i Hi. rewrite supp by lia. ring.
Qed.
End Filter.

(** ** One stage *)
Lemma smp_cons (a : RA) x k : 0 <= k -> smp (A := RA) (a :: x) (k + 1) = smp x k.
Proof. intros Hk. unfold smp. replace (k + 1 <? 0) with false by lia. replace (k <? 0) with false by lia. replace (Z.to_nat (k + 1)) with (S (Z.to_nat k)) by lia. reflexivity. Qed.
Lemma energy_sum (x : list RA) : energy x = sumR (length x) (fun k => (smp x k * smp x k)%R).
Proof.
  induction x as [|a x IH]; [reflexivity|]. cbn [energy length]. change (S (length x)) with (1 + length x)%nat. rewrite sumR_add. cbn [sumR].
  rewrite (sumR_ext (length x) _ (fun k => (smp x k * smp x k)%R)); [rewrite <- IH; change (smp (A := RA) (a :: x) (Z.of_nat 0)) with a; lra|].
  intros k Hk. rewrite (Z.add_comm (Z.of_nat 1)). change (Z.of_nat 1) with 1. rewrite smp_cons by lia. reflexivity.
Qed.
Lemma energy_tab n (f : Z -> RA) : 0 <= n -> energy (tab (A := RA) n f) = sumR (Z.to_nat n) (fun k => (f k * f k)%R).
Proof.
  intros Hn. rewrite energy_sum. replace (length (tab n f)) with (Z.to_nat n) by (pose proof (size_tab n f Hn); unfold size in *; lia).
  apply sumR_ext. intros k Hk. rewrite smp_tab by lia. reflexivity.
Qed.
Lemma sumR_pairs n f : sumR (2 * n) f = (sumR n (fun k => f (2 * k)%Z) + sumR n (fun k => f (2 * k + 1)%Z))%R.
Proof.
  induction n as [|n IH]; [cbn [sumR]; change (2 * 0)%nat with 0%nat; cbn [sumR]; lra|]. replace (2 * S n)%nat with (S (S (2 * n))) by lia. cbn [sumR]. rewrite IH.
  replace (Z.of_nat (2 * n)) with (2 * Z.of_nat n) by lia. replace (Z.of_nat (S (2 * n))) with (2 * Z.of_nat n + 1) by lia. lra.
Qed.
Lemma smp_out (x : list RA) k : k < 0 \/ Z.of_nat (length x) <= k -> smp x k = 0%R.
Proof. intros [H|H]; [now rewrite smp_neg | now rewrite smp_over by (unfold size; lia)]. Qed.
Lemma sumR_delay (L : nat) (x : Z -> R) c M : (forall k, k < 0 \/ Z.of_nat L <= k -> x k = 0%R) -> 0 <= c ->
  (sumR M (fun m => x (m - c)%Z * x (m - c)%Z) <= sumR L (fun k => x k * x k))%R.
Proof.
  intros supp Hc. apply Rle_trans with (sumR (M + Z.to_nat c) (fun m => x (m - c)%Z * x (m - c)%Z)%R).
  { rewrite sumR_add. assert (0 <= sumR (Z.to_nat c) (fun i => x (Z.of_nat M + i - c)%Z * x (Z.of_nat M + i - c)%Z))%R; [|lra].
    apply sumR_nonneg. intros k Hk. apply Rle_0_sqr. }
  replace (M + Z.to_nat c)%nat with (Z.to_nat c + M)%nat by lia. rewrite sumR_add.
  rewrite (sumR_ext (Z.to_nat c) _ (fun _ => 0%R)) by (intros k Hk; rewrite supp by lia; ring). rewrite sumR_0, Rplus_0_l.
  rewrite (sumR_ext M _ (fun k => (x k * x k)%R)) by (intros k Hk; replace (Z.of_nat (Z.to_nat c) + k - c) with k by lia; reflexivity).
  destruct (le_lt_dec M L) as [H|H].
  - replace L with (M + (L - M))%nat by lia. rewrite sumR_add.
    assert (0 <= sumR (L - M) (fun i => x (Z.of_nat M + i)%Z * x (Z.of_nat M + i)%Z))%R; [|lra]. apply sumR_nonneg. intros k Hk. apply Rle_0_sqr.
  - replace M with (L + (M - L))%nat by lia. rewrite sumR_add, (sumR_ext (M - L) _ (fun _ => 0%R)); [rewrite sumR_0; lra|].
    intros k Hk. rewrite supp by lia. ring.
Qed.

(** the gain of a stage is at most 1.006 for every frequency *)
Lemma response_max s p w : stage_no s -> fir_prec p -> (Rabs (response (coeffs (A := RA) FILTER_FIR UP p s) w) <= 1.006)%R.
Proof.
  intros Hs Hp. destruct (Z.eq_dec p 1) as [->|Ne].
  - rewrite response_linear by exact Hs. apply Rabs_le. pose proof (COS_bound (w / 2)). lra.
  - apply full_band; [exact Hs|]. unfold fir_prec, hq_prec in *. lia.
Qed.
Definition stage_power : R := 1.00602.

Theorem fir_up_energy s p (x : list RA) : stage_no s -> fir_prec p ->
  (energy (fir_up2 (coeffs (A := RA) FILTER_FIR UP p s) x) <= 2 * stage_power * energy x)%R.
Proof.
  intros Hs Hp. set (t := coeffs (A := RA) FILTER_FIR UP p s). destruct (ft_facts UP s p Hs Hp) as (_ & Ev & N2 & _). fold t in Ev, N2.
  unfold fir_up2. rewrite energy_tab by (unfold size; lia). replace (Z.to_nat (2 * size x)) with (2 * length x)%nat by (unfold size; lia). rewrite sumR_pairs, (energy_sum x).
  pose proof (filtered_energy (length t) (smp t) 1.006 (ft_sym UP s p Hs Hp) (fun w => response_max s p w Hs Hp) (length x) (smp x) (smp_out x) (length x)) as F.
  apply Z.even_spec in Ev. destruct Ev as [h Eh].
  pose proof (sumR_delay (length x) (smp x) (h - 1) (length x) (smp_out x) ltac:(lia)) as D.
  rewrite (sumR_ext (length x) (fun k => (fir_up_at t x (2 * k) * _)%R) (fun m => (filtered (length t) (smp t) (smp x) m * filtered (length t) (smp t) (smp x) m)%R)).
  2: { intros k Hk. assert (E : fir_up_at t x (2 * k) = filtered (length t) (smp t) (smp x) k); [|now rewrite E].
       unfold fir_up_at. rewrite Z.even_mul. cbn [Z.even orb]. rewrite Z.mul_comm, Z.div_mul by lia. rewrite mac_sum. reflexivity. }
  rewrite (sumR_ext (length x) (fun k => (fir_up_at t x (2 * k + 1) * _)%R) (fun m => (smp x (m - (h - 1)) * smp x (m - (h - 1)))%R)).
  2: { intros k Hk. assert (E : fir_up_at t x (2 * k + 1) = smp x (k - (h - 1))); [|now rewrite E].
       unfold fir_up_at. rewrite Z.even_add, Z.even_mul. cbn [Z.even orb Bool.eqb]. f_equal. rewrite Eh. Z.div_mod_to_equations. lia. }
  set (e := sumR (length x) (fun k => (smp x k * smp x k)%R)) in *.
  assert (0 <= e)%R by (apply sumR_nonneg; intros; apply Rle_0_sqr). unfold stage_power. change (T RA) with R in *. lra.
Qed.

Lemma square_sum (r u v : R) : (0 < r)%R -> ((u + v) * (u + v) <= (1 + / (4 * r * r)) * (u * u) + (1 + 4 * r * r) * (v * v))%R.
Proof.
  intros Hr. assert (E : ((1 + / (4 * r * r)) * (u * u) + (1 + 4 * r * r) * (v * v) - (u + v) * (u + v) = (u / (2 * r) - 2 * r * v) * (u / (2 * r) - 2 * r * v))%R) by (field; lra).
  pose proof (Rle_0_sqr (u / (2 * r) - 2 * r * v)) as Q. unfold Rsqr in Q. lra.
Qed.
Theorem fir_down_energy s p (x : list RA) : stage_no s -> fir_prec p ->
  (energy (fir_down2 (coeffs (A := RA) FILTER_FIR DOWN p s) x) <= stage_power / 2 * energy x)%R.
Proof.
  intros Hs Hp. set (t := coeffs (A := RA) FILTER_FIR DOWN p s). destruct (ft_facts DOWN s p Hs Hp) as (_ & Ev & N2 & _). fold t in Ev, N2.
  apply Z.even_spec in Ev. destruct Ev as [h Eh].
  assert (Sx : 0 <= size x) by (unfold size; lia). assert (0 <= size x / 2) by (apply Z.div_pos; lia).
  set (L := length x). unfold fir_down2. rewrite energy_tab by assumption. set (M := Z.to_nat (size x / 2)).
  set (xe := fun k => smp x (2 * k)). set (xo := fun k => smp x (2 * k + 1)).
  assert (supe : forall k, k < 0 \/ Z.of_nat L <= k -> xe k = 0%R) by (intros k Hk; apply smp_out; unfold L in *; lia).
  assert (supo : forall k, k < 0 \/ Z.of_nat L <= k -> xo k = 0%R) by (intros k Hk; apply smp_out; unfold L in *; lia).
  assert (RM : forall w, (Rabs (sumR (length t) (fun i => smp t i * cos (w * (IZR i - IZR (Z.of_nat (length t) - 1) / 2)))) <= 0.503)%R).
  { intros w. change (Rabs (response t w) <= 0.503)%R. unfold t. rewrite response_down by assumption. pose proof (response_max s p w Hs Hp) as R. unfold Rdiv. rewrite Rabs_mult, (Rabs_pos_eq (/ 2)) by lra. lra. }
  pose proof (filtered_energy (length t) (smp t) 0.503 (ft_sym DOWN s p Hs Hp) RM L xe supe M) as F.
  pose proof (sumR_delay L xo h M supo ltac:(lia)) as D.
  set (u := filtered (length t) (smp t) xe) in *.
  assert (Es : (sumR L (fun k => xe k * xe k) + sumR L (fun k => xo k * xo k) = energy x)%R).
  { rewrite energy_sum. fold L. pose proof (sumR_pairs L (fun k => (smp x k * smp x k)%R)) as P. cbv beta in P.
    unfold xe, xo. rewrite <- P. replace (2 * L)%nat with (L + L)%nat by lia. rewrite sumR_add.
    rewrite (sumR_ext L (fun i => (smp x (Z.of_nat L + i) * _)%R) (fun _ => 0%R)); [rewrite sumR_0; lra|].
    intros k Hk. rewrite smp_out by (fold L; lia). ring. }
  apply Rle_trans with (sumR M (fun k => ((1 + / (4 * 0.503 * 0.503)) * (u k * u k) + (1 + 4 * 0.503 * 0.503) * (/ 4 * (xo (k - h)%Z * xo (k - h)%Z)))%R)).
  - apply sumR_le. intros k Hk. assert (E : fir_down_at t x k = (u k + / 2 * xo (k - h)%Z)%R).
    { unfold fir_down_at. rewrite mac_sum. change (@fadd RA) with Rplus. change (@fmul RA) with Rmult. change (@fhalf RA) with (/ 2)%R.
      f_equal. unfold xo. do 2 f_equal. rewrite Eh. Z.div_mod_to_equations. lia. }
    rewrite E. pose proof (square_sum 0.503 (u k) (/ 2 * xo (k - h)%Z) ltac:(lra)) as Q. lra.
  - rewrite sumR_plus, !sumR_scal. set (a := sumR M (fun k => (u k * u k)%R)) in *. set (b := sumR M (fun k => (xo (k - h)%Z * xo (k - h)%Z)%R)) in *.
    set (e := sumR L (fun k => (xe k * xe k)%R)) in *. set (o := sumR L (fun k => (xo k * xo k)%R)) in *. rewrite <- Es.
    assert (0 <= e)%R by (apply sumR_nonneg; intros; apply Rle_0_sqr). assert (0 <= o)%R by (apply sumR_nonneg; intros; apply Rle_0_sqr).
    assert (K : ((1 + / (4 * 0.503 * 0.503)) * 0.503 ^ 2 <= stage_power / 2)%R) by (unfold stage_power; lra).
    unfold stage_power in *. apply Rplus_le_compat_l with (r := 0%R) in F.
    assert (F' : ((1 + / (4 * 0.503 * 0.503)) * a <= 1.00602 / 2 * e)%R).
    { apply Rle_trans with ((1 + / (4 * 0.503 * 0.503)) * (0.503 ^ 2 * e))%R; [apply Rmult_le_compat_l; lra|]. rewrite <- Rmult_assoc. apply Rmult_le_compat_r; lra. }
    lra.
Qed.

(** ** The whole resampler *)
Definition rms_gain (ratio : Z) : R := if ratio =? 1 then 1 else if ratio =? 2 then stage_power else if ratio =? 4 then stage_power ^ 2 else stage_power ^ 3.
Theorem fir_energy md ratio p (x : list RA) : valid FILTER_FIR ratio p ->
  (energy (resample (A := RA) FILTER_FIR md p false ratio x) <= rms_gain ratio * match md with UP => IZR ratio | DOWN => / IZR ratio end * energy x)%R.
Proof.
  intros [Hra HT].
  assert (S2 : stage_no 2) by (unfold stage_no; auto). assert (S4 : stage_no 4) by (unfold stage_no; auto).
  assert (S8 : stage_no 8) by (unfold stage_no; auto).
  destruct Hra as [->|Hra].
  - unfold resample, rms_gain. cbn [Z.eqb Pos.eqb]. destruct md; lra.
  - assert (HP : fir_prec p) by (apply HT; lia). clear HT.
    assert (U : forall s x, stage_no s -> (energy (stage (A := RA) FILTER_FIR UP p false s x) <= 2 * stage_power * energy x)%R) by (intros; now apply fir_up_energy).
    assert (D : forall s x, stage_no s -> (energy (stage (A := RA) FILTER_FIR DOWN p false s x) <= stage_power / 2 * energy x)%R) by (intros; now apply fir_down_energy).
    pose proof (energy_pos x) as E0.
    unfold stage_power, rms_gain in *. destruct md, Hra as [->|[->| ->]]; unfold resample; cbn [Z.eqb Pos.eqb]; change stage_power with 1.00602%R.
    + pose proof (U 2 x S2). lra.
    + pose proof (U 2 x S2). pose proof (U 4 (stage (A := RA) FILTER_FIR UP p false 2 x) S4). lra.
    + pose proof (U 2 x S2). pose proof (U 4 (stage (A := RA) FILTER_FIR UP p false 2 x) S4).
      pose proof (U 8 (stage (A := RA) FILTER_FIR UP p false 4 (stage (A := RA) FILTER_FIR UP p false 2 x)) S8). lra.
    + pose proof (D 2 x S2). lra.
    + pose proof (D 4 x S4). pose proof (D 2 (stage (A := RA) FILTER_FIR DOWN p false 4 x) S2). lra.
    + pose proof (D 8 x S8). pose proof (D 4 (stage (A := RA) FILTER_FIR DOWN p false 8 x) S4).
      pose proof (D 2 (stage (A := RA) FILTER_FIR DOWN p false 4 (stage (A := RA) FILTER_FIR DOWN p false 8 x)) S2). lra.
Qed.

(** ** Up and down again with ratio 2: no signal is lost *)
Lemma phase_power N y x w K c : (forall th, sumR N (fun m => y m * sin (th + w * IZR m)) = K * sumR N (fun m => x m * sin (th + c + w * IZR m)))%R ->
  power N y w = (K ^ 2 * power N x w)%R.
Proof.
  intros H. pose proof (H 0%R) as E0. pose proof (H (PI / 2)%R) as E1. rewrite !sine_parts in E0, E1.
  rewrite sin_0, cos_0, Rplus_0_l in E0. rewrite sin_PI2, cos_PI2 in E1.
  replace (PI / 2 + c)%R with (c + PI / 2)%R in E1 by ring.
  assert (Sc : sin (c + PI / 2) = cos c) by (rewrite sin_plus, sin_PI2, cos_PI2; ring).
  assert (Cc : cos (c + PI / 2) = (- sin c)%R) by (rewrite cos_plus, sin_PI2, cos_PI2; ring).
  rewrite Sc, Cc in E1. unfold power.
  replace (spart N y w) with (K * (sin c * cpart N x w + cos c * spart N x w))%R by lra.
  replace (cpart N y w) with (K * (cos c * cpart N x w + - sin c * spart N x w))%R by lra.
  set (p := cpart _ x w). set (q := spart _ x w). pose proof (sin2_cos2 c) as Q. rewrite !Rsqr_pow2 in Q.
  replace (K ^ 2 * (p ^ 2 + q ^ 2))%R with (K ^ 2 * (p ^ 2 + q ^ 2) * (sin c ^ 2 + cos c ^ 2))%R by (rewrite Q; ring). ring.
Qed.
Lemma filtered_out n t L x k : (forall k, k < 0 \/ Z.of_nat L <= k -> x k = 0%R) -> k < 0 \/ Z.of_nat (L + n) <= k -> filtered n t x k = 0%R.
Proof.
  intros supp Hk. unfold filtered. rewrite (sumR_ext n _ (fun _ => 0%R)); [apply sumR_0|]. intros i Hi. rewrite supp by lia. ring.
Qed.
Lemma trip_power s p L (x : Z -> R) w : stage_no s -> fir_prec p -> (forall k, k < 0 \/ Z.of_nat L <= k -> x k = 0%R) ->
  let tu := coeffs (A := RA) FILTER_FIR UP p s in let td := coeffs (A := RA) FILTER_FIR DOWN p s in let n := length td in
  let A := response tu w in
  power (L + n + n) (fun m => filtered n (smp td) (filtered n (smp tu) x) m + / 2 * x (m - (Z.of_nat n - 1))%Z)%R w = (((A * A + 1) / 2) ^ 2 * power (L + n + n) x w)%R.
Proof.
  intros Hs Hp supp tu td n A. apply (phase_power _ _ _ _ _ (w * IZR (Z.of_nat n - 1))%R). intros th.
  assert (Ln : length tu = n) by (unfold n; pose proof (size_len UP s p) as Q1; pose proof (size_len DOWN s p) as Q2; fold tu in Q1; fold td in Q2; unfold size in Q1, Q2; lia).
  assert (N2 : 2 <= size td) by apply (ft_facts DOWN s p Hs Hp).
  assert (supL : forall k, k < 0 \/ Z.of_nat (L + n) <= k -> x k = 0%R) by (intros k Hk; apply supp; lia).
  pose proof (ft_sym UP s p Hs Hp) as Su. fold tu in Su. unfold size in Su. rewrite Ln in Su.
  pose proof (ft_sym DOWN s p Hs Hp) as Sd. fold td in Sd. unfold size in Sd. fold n in Sd.
  set (u := filtered n (smp tu) x).
  assert (supu : forall k, k < 0 \/ Z.of_nat (L + n) <= k -> u k = 0%R) by (intros k Hk; unfold u; now apply (filtered_out n _ L)).
  set (h := (IZR (Z.of_nat n - 1) / 2)%R).
  pose proof (filtered_sine n (smp td) Sd (L + n) u supu w th) as E1.
  pose proof (filtered_sine n (smp tu) Su (L + n) x supL w (th + w * h)) as E2. fold u h in E1, E2.
  pose proof (shifted n (L + n) x supL (Z.of_nat n - 1) (fun m => sin (th + w * IZR m)) ltac:(unfold size in N2; fold n in N2; lia)) as E3.
  rewrite (sumR_ext _ _ (fun m => (filtered n (smp td) u m * sin (th + w * IZR m) + / 2 * (x (m - (Z.of_nat n - 1))%Z * sin (th + w * IZR m)))%R)) by (intros; ring).
  rewrite sumR_plus, sumR_scal, E1, E2, E3.
  rewrite (sumR_ext (L + n + n) (fun m => (x m * sin (th + w * IZR (m + (Z.of_nat n - 1))))%R) (fun m => (x m * sin (th + w * IZR (Z.of_nat n - 1) + w * IZR m))%R)).
  2: { intros m Hm. rewrite plus_IZR. do 2 f_equal. ring. }
  replace (th + w * h + w * h)%R with (th + w * IZR (Z.of_nat n - 1))%R by (unfold h; field).
  set (q := sumR (L + n + n) (fun m => (x m * sin (th + w * IZR (Z.of_nat n - 1) + w * IZR m))%R)).
  assert (Rd : (sumR n (fun i => smp td i * cos (w * (IZR i - h))) = A / 2)%R).
  { pose proof (response_down s p w Hs Hp) as R. fold tu td A in R. rewrite <- R. unfold response. fold n. unfold size. fold n. reflexivity. }
  assert (Ru : (sumR n (fun i => smp tu i * cos (w * (IZR i - h))) = A)%R).
  { unfold A, response, size. rewrite Ln. reflexivity. }
  rewrite Rd, Ru. field.
Qed.
Lemma trip_sample p (x : list RA) n : fir_prec p -> 0 <= n < size x ->
  let tu := coeffs (A := RA) FILTER_FIR UP p 2 in let td := coeffs (A := RA) FILTER_FIR DOWN p 2 in
  smp (fir_down2 td (fir_up2 tu x)) n = (filtered (length td) (smp td) (filtered (length td) (smp tu) (smp x)) n + / 2 * smp x (n - (size td - 1)))%R.
Proof.
  intros Hp Hn tu td. assert (S2 : stage_no 2) by (unfold stage_no; auto).
  assert (Ln : length tu = length td) by (pose proof (size_len UP 2 p) as Q1; pose proof (size_len DOWN 2 p) as Q2; fold tu in Q1; fold td in Q2; unfold size in Q1, Q2; lia).
  destruct (ft_facts DOWN 2 p S2 Hp) as (_ & Ev & N2 & _). fold td in Ev, N2. apply Z.even_spec in Ev. destruct Ev as [h Eh].
  assert (Su : size (fir_up2 tu x) = 2 * size x) by (unfold fir_up2; rewrite size_tab; unfold size; lia).
  assert (E : forall m, m < size x -> smp (fir_up2 tu x) (2 * m) = filtered (length td) (smp tu) (smp x) m).
  { intros m Hm. destruct (Z_lt_le_dec m 0) as [L|G].
    - rewrite smp_neg by lia. symmetry. apply (filtered_out _ _ (length x)); [apply smp_out | lia].
    - unfold fir_up2. rewrite smp_tab by lia. unfold fir_up_at. rewrite Z.even_mul. cbn [Z.even orb]. rewrite Z.mul_comm, Z.div_mul by lia. rewrite mac_sum. unfold filtered. unfold size. rewrite Ln. reflexivity. }
  assert (O : forall m, m < size x -> smp (fir_up2 tu x) (2 * m + 1) = smp x (m - h + 1)).
  { intros m Hm. destruct (Z_lt_le_dec m 0) as [L|G].
    - rewrite (smp_neg _ (m - h + 1)) by lia. destruct (Z.eq_dec m (-1)) as [->|]; rewrite smp_neg by lia; reflexivity.
    - unfold fir_up2. rewrite smp_tab by lia. unfold fir_up_at. rewrite Z.even_add, Z.even_mul. cbn [Z.even orb Bool.eqb]. f_equal. replace (size tu) with (2 * h) by (unfold size in *; lia). Z.div_mod_to_equations. lia. }
  unfold fir_down2. rewrite Su. rewrite (Z.mul_comm 2), Z.div_mul by lia. rewrite smp_tab by lia. unfold fir_down_at. rewrite mac_sum.
  change (@fadd RA) with Rplus. change (@fmul RA) with Rmult. change (@fhalf RA) with (/ 2)%R. f_equal.
  - unfold filtered at 1. apply sumR_ext. intros i Hi. change (size td) with (Z.of_nat (length td)). rewrite E by lia. reflexivity.
  - rewrite O by (Z.div_mod_to_equations; lia). do 2 f_equal. rewrite Eh. Z.div_mod_to_equations. lia.
Qed.
Theorem trip_energy p (x : list RA) n : fir_prec p -> 2 * (fir_len 2 p) <= n ->
  let z := x ++ repeat (0%R : RA) (Z.to_nat n) in
  (/ 4 * energy x <= energy (fir_down2 (coeffs (A := RA) FILTER_FIR DOWN p 2) (fir_up2 (coeffs (A := RA) FILTER_FIR UP p 2) z)))%R.
Proof.
  intros Hp Hn z. assert (S2 : stage_no 2) by (unfold stage_no; auto).
  set (tu := coeffs (A := RA) FILTER_FIR UP p 2). set (td := coeffs (A := RA) FILTER_FIR DOWN p 2).
  assert (N2 : 2 <= size td) by apply (ft_facts DOWN 2 p S2 Hp).
  rewrite <- (size_len DOWN) in Hn. fold td in Hn. set (N := length td) in *. unfold size in N2, Hn. fold N in N2, Hn.
  assert (Zs : forall k, smp z k = smp x k).
  { intros k. unfold z, smp. destruct (k <? 0); [reflexivity|]. destruct (le_lt_dec (length x) (Z.to_nat k)) as [H|H].
    - rewrite (nth_overflow x) by lia. rewrite app_nth2 by lia.
      destruct (nth_in_or_default (Z.to_nat k - length x) (repeat (0%R : RA) (Z.to_nat n)) f0) as [I|I]; [apply repeat_spec in I; exact I | exact I].
    - now rewrite app_nth1. }
  assert (Lz : (length z = length x + Z.to_nat n)%nat) by (unfold z; rewrite app_length, repeat_length; reflexivity).
  set (L := length x) in *. set (y := fir_down2 td (fir_up2 tu z)).
  assert (Ly : (L + N + N <= length y)%nat).
  { assert (size y = size z).
    { unfold y, fir_down2. rewrite size_tab; [|apply Z.div_pos; unfold size; lia]. unfold fir_up2. rewrite size_tab by (unfold size; lia). rewrite Z.mul_comm, Z.div_mul; lia. }
    unfold size in *. lia. }
  set (f := fun m => (filtered N (smp td) (filtered N (smp tu) (smp x)) m + / 2 * smp x (m - (Z.of_nat N - 1))%Z)%R).
  assert (Ef : forall k, 0 <= k < Z.of_nat (L + N + N) -> smp y k = f k).
  { intros k Hk. pose proof (trip_sample p z k Hp ltac:(unfold size; lia)) as Q. cbn zeta in Q. fold td tu in Q. fold y in Q. fold N in Q. rewrite Q. unfold f. rewrite Zs. change (size td) with (Z.of_nat N). f_equal.
    unfold filtered at 1 3. apply sumR_ext. intros i Hi. f_equal. unfold filtered. apply sumR_ext. intros j Hj. now rewrite Zs. }
  rewrite !energy_sum. fold L.
  apply Rle_trans with (sumR (L + N + N) (fun k => (smp y k * smp y k)%R)).
  2: { replace (length y) with (L + N + N + (length y - (L + N + N)))%nat by lia. rewrite (sumR_add (L + N + N)).
       match goal with |- (_ <= _ + ?u)%R => assert (0 <= u)%R by (apply sumR_nonneg; intros; apply Rle_0_sqr) end. lra. }
  rewrite (sumR_ext (L + N + N) _ (fun k => (f k * f k)%R)) by (intros k Hk; now rewrite Ef).
  assert (N0 : (0 < INR (L + N + N))%R) by (apply lt_0_INR; lia).
  apply (Rmult_le_reg_l (INR (L + N + N))); [exact N0|]. rewrite <- (parseval _ f).
  replace (sumR L (fun k => (smp x k * smp x k)%R)) with (sumR (L + N + N) (fun k => (smp x k * smp x k)%R)).
  2: { replace (L + N + N)%nat with (L + (N + N))%nat by lia. rewrite sumR_add, (sumR_ext (N + N) _ (fun _ => 0%R)); [rewrite sumR_0; lra|]. intros k Hk. rewrite smp_out by (fold L; lia). ring. }
  rewrite <- Rmult_assoc, (Rmult_comm _ (/ 4)), Rmult_assoc, <- (parseval _ (smp x)), <- sumR_scal. apply sumR_le. intros k Hk.
  unfold f. rewrite (trip_power 2 p L (smp x) _ S2 Hp (smp_out x)). apply Rmult_le_compat_r; [apply power_pos|].
  set (a := response _ _). pose proof (Rle_0_sqr a) as Q. unfold Rsqr in Q. set (b := (a * a)%R) in *. nra.
Qed.
