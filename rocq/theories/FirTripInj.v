(** * FIR resampling can be undone in exact arithmetic: the outermost coefficients are not zero *)
From Coq Require Import ZArith Reals List Lia Lra Psatz Bool ZifyNat ZifyBool.
From Verif Require Import Arith ArithR Mem FirModel IirModel Tables ResamplerModel Wp Stage Cascade
  ResamplerProof ResamplerOk Spec SpecOk SpecR Client Feed StreamFacts DelayFacts Twin TablesF TableFacts FirReal LinFacts.
Import ListNotations.
Open Scope Z_scope.

Lemma ends_nonzero : forallb (fun s => forallb (fun p => match rev (fir_ints s p) with n :: _ => negb (n =? 0) | [] => false end) [1; 8; 12; 16; 20; 24]) stages = true.
Proof. vm_compute. reflexivity. Qed.
Lemma last_tap md s p : stage_no s -> fir_prec p -> let t := coeffs (A := RA) FILTER_FIR md p s in smp t (size t - 1) <> 0%R.
Proof.
  intros Hs Hp t. unfold t. rewrite (fir_coeffs_R md s p Hs Hp). clear t. pose proof ends_nonzero as H. rewrite forallb_forall in H.
  specialize (H s ltac:(unfold stages; cbn; unfold stage_no in Hs; lia)). rewrite forallb_forall in H. specialize (H p ltac:(cbn; unfold fir_prec in Hp; lia)).
  set (l := fir_ints s p) in *. clearbody l. assert (E : exists k n, l = k ++ [n] /\ n <> 0).
  { destruct (rev l) as [|n k] eqn:R; [discriminate|]. exists (rev k), n. split; [rewrite <- (rev_involutive l), R; reflexivity | lia]. }
  destruct E as (k & n & -> & Hn). rewrite map_app. unfold size. rewrite app_length, map_length. cbn [map length].
  unfold smp. replace (Z.of_nat (length k + 1) - 1 <? 0) with false by lia. rewrite app_nth2 by (rewrite map_length; lia). rewrite map_length.
  replace (Z.to_nat (Z.of_nat (length k + 1) - 1) - length k)%nat with 0%nat by lia. cbn [nth].
  apply Rmult_integral_contrapositive. split; [now apply not_0_IZR|]. unfold unit_of. destruct md; apply Rinv_neq_0_compat; apply not_0_IZR; discriminate.
Qed.
Lemma absorb0 (v : R) : (0 + 0 * v = 0)%R.
Proof. ring. Qed.
Lemma mac_0 n (w t : Z -> RA) : (forall i, 0 <= i < Z.of_nat n -> w i = 0%R) -> mac (A := RA) n w t = 0%R.
Proof. induction n as [|n IH]; intros H; [reflexivity|]. cbn [mac]. rewrite IH by (intros; apply H; lia). rewrite H by lia. apply absorb0. Qed.
Lemma mac_last n (w t : Z -> RA) : (forall i, 0 <= i < Z.of_nat n -> w i = 0%R) -> mac (A := RA) (S n) w t = (w (Z.of_nat n) * t (Z.of_nat n))%R.
Proof. intros H. cbn [mac]. rewrite mac_0 by exact H. apply Rplus_0_l. Qed.

(** the first sample of the output of a stage *)
Lemma fir_up_first (t : list RA) v (r : list RA) : 2 <= size t -> smp (fir_up2 (A := RA) t (v :: r)) 0 = (v * smp t (size t - 1))%R.
Proof.
  intros Ht. unfold fir_up2. rewrite smp_tab by (unfold size; cbn [length]; lia). unfold fir_up_at. cbv zeta. cbn [Z.even]. rewrite Z.div_0_l by lia.
  set (w := fun i => smp (v :: r) (0 - size t + 1 + i)). assert (L : length t = S (Z.to_nat (size t - 1))) by (unfold size in *; lia). rewrite L.
  rewrite mac_last.
  - unfold w. replace (0 - size t + 1 + Z.of_nat (Z.to_nat (size t - 1))) with 0 by lia. replace (Z.of_nat (Z.to_nat (size t - 1))) with (size t - 1) by lia. reflexivity.
  - intros i Hi. unfold w, smp. replace (0 - size t + 1 + i <? 0) with true by lia. reflexivity.
Qed.
Lemma fir_down_first (t : list RA) v (r : list RA) : 2 <= size t -> 2 <= size (A := RA) (v :: r) -> smp (fir_down2 (A := RA) t (v :: r)) 0 = (v * smp t (size t - 1))%R.
Proof.
  intros Ht Hr. unfold fir_down2. rewrite smp_tab by (split; [lia | apply Z.div_str_pos; lia]). unfold fir_down_at. cbv zeta.
  set (w := fun i => smp (v :: r) (2 * (0 - size t + 1 + i))). assert (L : length t = S (Z.to_nat (size t - 1))) by (unfold size in *; lia). rewrite L.
  assert (H2 : 1 <= size t / 2) by (apply Z.div_le_lower_bound; lia).
  rewrite mac_last.
  - unfold w. replace (2 * (0 - size t + 1 + Z.of_nat (Z.to_nat (size t - 1)))) with 0 by lia. replace (Z.of_nat (Z.to_nat (size t - 1))) with (size t - 1) by lia.
    unfold smp at 3. replace (2 * (0 - size t / 2) + 1 <? 0) with true by lia. change (v * smp t (size t - 1) + / 2 * 0 = v * smp t (size t - 1))%R. rewrite Rmult_0_r. apply Rplus_0_r.
  - intros i Hi. unfold w, smp. replace (2 * (0 - size t + 1 + i) <? 0) with true by lia. reflexivity.
Qed.
(** samples 0 of both directions, for whole resamplers; y is not empty *)
Definition first_is (h : R) (F : list RA -> list RA) : Prop := forall v r, smp (F (v :: r)) 0 = (v * h)%R.
Lemma first_comp h k (F G : list RA -> list RA) : first_is h F -> (forall v r w q, F (v :: r) = w :: q -> smp (G (w :: q)) 0 = (w * k)%R) ->
  (forall v r, F (v :: r) <> []) -> first_is (h * k) (fun x => G (F x)).
Proof.
  intros H1 H2 N v r. specialize (H1 v r). destruct (F (v :: r)) as [|w q] eqn:E; [now destruct (N v r)|]. rewrite (H2 _ _ _ _ E).
  change (smp (w :: q) 0) with w in H1. rewrite H1. apply Rmult_assoc.
Qed.
Lemma stage_up_size p s (x : list RA) : size (stage (A := RA) FILTER_FIR UP p false s x) = 2 * size x.
Proof. cbn [stage]. unfold fir_up2. apply size_tab. unfold size. lia. Qed.
Lemma stage_down_size p s (x : list RA) : size (stage (A := RA) FILTER_FIR DOWN p false s x) = size x / 2.
Proof. cbn [stage]. unfold fir_down2. apply size_tab. apply Z.div_pos; unfold size; lia. Qed.
Lemma nonempty (x : list RA) : 1 <= size x -> x <> [].
Proof. intros H ->. unfold size in H. cbn in H. lia. Qed.
Lemma one_more v (r : list RA) : 1 <= size (A := RA) (v :: r).
Proof. unfold size. cbn [length]. lia. Qed.

Definition up_head (p s : Z) : R := smp (coeffs (A := RA) FILTER_FIR UP p s) (size (coeffs (A := RA) FILTER_FIR UP p s) - 1).
Definition down_head (p s : Z) : R := smp (coeffs (A := RA) FILTER_FIR DOWN p s) (size (coeffs (A := RA) FILTER_FIR DOWN p s) - 1).
Lemma stage_up_first p s : stage_no s -> fir_prec p -> first_is (up_head p s) (stage (A := RA) FILTER_FIR UP p false s).
Proof. intros Hs Hp v r. cbn [stage]. apply fir_up_first. apply (ft_facts UP s p Hs Hp). Qed.
Lemma stage_down_first p s : stage_no s -> fir_prec p -> forall w q, 2 <= size (A := RA) (w :: q) -> smp (stage (A := RA) FILTER_FIR DOWN p false s (w :: q)) 0 = (w * down_head p s)%R.
Proof. intros Hs Hp w q H. cbn [stage]. apply fir_down_first; [apply (ft_facts DOWN s p Hs Hp) | exact H]. Qed.

Lemma fir_up_first_all ratio p : valid FILTER_FIR ratio p -> exists h : R, h <> 0%R /\ first_is h (resample (A := RA) FILTER_FIR UP p false ratio).
Proof.
  assert (S2 : stage_no 2) by (unfold stage_no; auto). assert (S4 : stage_no 4) by (unfold stage_no; auto). assert (S8 : stage_no 8) by (unfold stage_no; auto).
  intros [[->|[->|[->| ->]]] V].
  - exists 1%R. split; [lra|]. intros v r. unfold resample. cbn [Z.eqb Pos.eqb]. rewrite Rmult_1_r. reflexivity.
  - specialize (V ltac:(lia)). exists (up_head p 2). split; [now apply last_tap | now apply stage_up_first].
  - specialize (V ltac:(lia)). exists (up_head p 2 * up_head p 4)%R. split; [apply Rmult_integral_contrapositive; split; now apply last_tap|].
    apply (first_comp _ _ (stage (A := RA) FILTER_FIR UP p false 2) (stage (A := RA) FILTER_FIR UP p false 4)); [now apply stage_up_first | intros; now apply stage_up_first|]. intros v r. apply nonempty. rewrite stage_up_size. pose proof (one_more v r). lia.
  - specialize (V ltac:(lia)). exists (up_head p 2 * up_head p 4 * up_head p 8)%R. split; [repeat (apply Rmult_integral_contrapositive; split); now apply last_tap|].
    apply (first_comp _ _ (fun x => stage (A := RA) FILTER_FIR UP p false 4 (stage (A := RA) FILTER_FIR UP p false 2 x)) (stage (A := RA) FILTER_FIR UP p false 8)).
    + apply (first_comp _ _ (stage (A := RA) FILTER_FIR UP p false 2) (stage (A := RA) FILTER_FIR UP p false 4)); [now apply stage_up_first | intros; now apply stage_up_first|]. intros v r. apply nonempty. rewrite stage_up_size. pose proof (one_more v r). lia.
    + intros; now apply stage_up_first.
    + intros v r. apply nonempty. rewrite !stage_up_size. pose proof (one_more v r). lia.
Qed.
Lemma fir_down_first_all ratio p : valid FILTER_FIR ratio p -> exists h : R, h <> 0%R /\
  forall w q, ratio <= size (A := RA) (w :: q) -> smp (resample (A := RA) FILTER_FIR DOWN p false ratio (w :: q)) 0 = (w * h)%R.
Proof.
  assert (S2 : stage_no 2) by (unfold stage_no; auto). assert (S4 : stage_no 4) by (unfold stage_no; auto). assert (S8 : stage_no 8) by (unfold stage_no; auto).
  assert (G : forall s (x : list RA) n a, stage_no s -> fir_prec p -> 1 <= n -> 2 * n <= size x -> smp x 0 = a ->
    n <= size (stage (A := RA) FILTER_FIR DOWN p false s x) /\ smp (stage (A := RA) FILTER_FIR DOWN p false s x) 0 = (a * down_head p s)%R).
  { intros s x n a Hs Hp Hn Hx Ha. split; [rewrite stage_down_size; apply Z.div_le_lower_bound; lia|].
    destruct x as [|w q]; [change (size (A := RA) []) with 0 in Hx; lia|]. change (smp (w :: q) 0) with w in Ha. rewrite <- Ha. apply stage_down_first; try assumption. lia. }
  intros [[->|[->|[->| ->]]] V].
  - exists 1%R. split; [lra|]. intros w q _. unfold resample. cbn [Z.eqb Pos.eqb]. rewrite Rmult_1_r. reflexivity.
  - specialize (V ltac:(lia)). exists (down_head p 2). split; [now apply last_tap|]. intros w q H. unfold resample. cbn [Z.eqb Pos.eqb]. now apply stage_down_first.
  - specialize (V ltac:(lia)). exists (down_head p 4 * down_head p 2)%R. split; [apply Rmult_integral_contrapositive; split; now apply last_tap|].
    intros w q H. unfold resample. cbn [Z.eqb Pos.eqb]. destruct (G 4 (w :: q) 2 w S4 V ltac:(lia) ltac:(lia) eq_refl) as [L4 E4].
    destruct (G 2 _ 1 _ S2 V ltac:(lia) L4 E4) as [_ E2]. rewrite E2. apply Rmult_assoc.
  - specialize (V ltac:(lia)). exists (down_head p 8 * (down_head p 4 * down_head p 2))%R. split; [repeat (apply Rmult_integral_contrapositive; split); now apply last_tap|].
    intros w q H. unfold resample. cbn [Z.eqb Pos.eqb]. destruct (G 8 (w :: q) 4 w S8 V ltac:(lia) ltac:(lia) eq_refl) as [L8 E8].
    destruct (G 4 _ 2 _ S4 V ltac:(lia) L8 E8) as [L4 E4].
    destruct (G 2 _ 1 _ S2 V ltac:(lia) L4 E4) as [_ E2]. rewrite E2. rewrite Rmult_assoc. apply Rmult_assoc.
Qed.


(** ** Whatever is linear, time invariant and starts like this can be undone *)
Lemma smp_past n (y : list RA) j : 0 <= n -> 0 <= j -> smp (zeros n ++ y) (n + j) = smp y j.
Proof.
  intros Hn Hj. unfold smp. replace (n + j <? 0) with false by lia. replace (j <? 0) with false by lia. rewrite app_nth2; unfold zeros; rewrite repeat_length; [f_equal; lia | lia].
Qed.
Section Undo.
  Context (F : list RA -> list RA) (h : R) (n : Z) (Hh : h <> 0%R) (Hn : 0 <= n).
  Context (first : forall v r, smp (F (v :: r)) 0 = (v * h)%R) (shift : forall x, F (zeros 1 ++ x) = zeros n ++ F x).
  Context (linear : forall a b x z, size x = size z -> F (lin a b x z) = lin a b (F x) (F z)).
  Lemma undo_kernel (d : list RA) : (forall k, 0 <= k -> smp (F d) k = 0%R) -> forall k, 0 <= k -> smp d k = 0%R.
  Proof.
    induction d as [|v r IH]; intros H k Hk.
    - unfold smp. destruct (k <? 0); [reflexivity|]. now destruct (Z.to_nat k).
    - pose proof (H 0 ltac:(lia)) as H0. rewrite first in H0. apply Rmult_integral in H0. destruct H0 as [H0|H0]; [|easy]. subst v.
      change (0%R :: r) with (zeros 1 ++ r) in H. rewrite shift in H.
      assert (H' : forall k, 0 <= k -> smp (F r) k = 0%R) by (intros j Hj; rewrite <- (smp_past n (F r) j Hn Hj); apply H; lia).
      destruct (Z.eq_dec k 0) as [->|]; [reflexivity|]. replace k with (1 + (k - 1)) by lia. change (0%R :: r) with (zeros 1 ++ r). rewrite smp_past by lia. apply (IH H'). lia.
  Qed.
  Lemma undo (x z : list RA) : size x = size z -> F x = F z -> x = z.
  Proof.
    intros S E. apply smp_ext; [exact S|]. intros k Hk.
    assert (K : smp (lin 1 (-1) x z) k = 0%R).
    { apply undo_kernel; [|lia]. intros j _. rewrite linear by exact S. rewrite E. rewrite smp_lin by reflexivity. set (a := smp (F z) j). change (Arith.T RA) with R in a. clearbody a. lra. }
    rewrite smp_lin in K by exact S. set (a := smp x k) in *. set (b := smp z k) in *. change (Arith.T RA) with R in a, b. clearbody a b. lra.
  Qed.
End Undo.

Lemma resample_up_size ratio p (x : list RA) : ratio = 1 \/ ratio = 2 \/ ratio = 4 \/ ratio = 8 -> size (resample (A := RA) FILTER_FIR UP p false ratio x) = ratio * size x.
Proof. intros [->|[->|[->| ->]]]; unfold resample; cbn [Z.eqb Pos.eqb]; rewrite ?stage_up_size; lia. Qed.
Theorem fir_up_inj ratio p (x z : list RA) : valid FILTER_FIR ratio p ->
  resample (A := RA) FILTER_FIR UP p false ratio x = resample (A := RA) FILTER_FIR UP p false ratio z -> x = z.
Proof.
  intros V E. destruct (fir_up_first_all ratio p V) as (h & Hh & Hf). destruct V as [Hr V]. unfold ratio_no in Hr.
  apply (undo (resample (A := RA) FILTER_FIR UP p false ratio) h (ratio * 1) Hh ltac:(lia) Hf); [| |pose proof (resample_up_size ratio p x Hr); pose proof (resample_up_size ratio p z Hr); rewrite E in *; nia | exact E].
  - intros y. exact (resample_zeros FILTER_FIR UP p ratio 1 y Hr V ltac:(lia)).
  - intros a b y w S. now apply resample_lin.
Qed.
Definition fir_trip (ratio p : Z) (x : list RA) : list RA := resample (A := RA) FILTER_FIR DOWN p false ratio (resample (A := RA) FILTER_FIR UP p false ratio x).
Lemma fir_trip_size ratio p (x : list RA) : ratio = 1 \/ ratio = 2 \/ ratio = 4 \/ ratio = 8 -> size (fir_trip ratio p x) = size x.
Proof.
  intros Hr. unfold fir_trip. pose proof (resample_up_size ratio p x Hr) as E. set (y := resample (A := RA) FILTER_FIR UP p false ratio x) in *. clearbody y.
  destruct Hr as [->|[->|[->| ->]]]; unfold resample; cbn [Z.eqb Pos.eqb]; rewrite ?stage_down_size; lia.
Qed.
Theorem fir_trip_inj ratio p (x z : list RA) : valid FILTER_FIR ratio p -> fir_trip ratio p x = fir_trip ratio p z -> x = z.
Proof.
  intros V E. destruct (fir_up_first_all ratio p V) as (h & Hh & Hf). destruct (fir_down_first_all ratio p V) as (k & Hk & Hg). destruct V as [Hr V]. unfold ratio_no in Hr.
  apply (undo (fir_trip ratio p) (h * k) 1 ltac:(apply Rmult_integral_contrapositive; now split) ltac:(lia)); [| | |rewrite <- (fir_trip_size ratio p x Hr), <- (fir_trip_size ratio p z Hr), E; reflexivity | exact E].
  - assert (G : first_is (h * k) (fir_trip ratio p)); [|exact G]. unfold fir_trip. apply (first_comp _ _ (resample (A := RA) FILTER_FIR UP p false ratio) (resample (A := RA) FILTER_FIR DOWN p false ratio)); [exact Hf | |].
    + intros v r w q Ew. apply Hg. rewrite <- Ew. rewrite resample_up_size by exact Hr. pose proof (one_more v r). nia.
    + intros v r. apply nonempty. rewrite resample_up_size by exact Hr. pose proof (one_more v r). nia.
  - intros y. unfold fir_trip. pose proof (resample_zeros FILTER_FIR UP p ratio 1 y Hr V ltac:(lia)) as E1. cbn beta iota in E1. rewrite E1.
    exact (resample_zeros FILTER_FIR DOWN p ratio 1 _ Hr V ltac:(lia)).
  - intros a b y w S. unfold fir_trip. rewrite resample_lin by exact S. apply resample_lin. now apply resample_same_size.
Qed.
