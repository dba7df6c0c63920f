(** * Linearity and time invariance of the specification, in exact arithmetic *)
From Coq Require Import ZArith Reals List Lia Lra Bool ZifyNat ZifyBool.
From Verif Require Import Arith ArithR Tables ResamplerModel ResamplerOk Spec SpecOk SpecR.
Import ListNotations.
Open Scope Z_scope.

(** ** a x + b z *)
Definition lin (a b : R) : list RA -> list RA -> list RA := zip (A := RA) (fun u v => (a * u + b * v)%R).

Section Lin.
Variables a b : R.
Notation L := (lin a b).
Implicit Types x y z : list RA.

Lemma lin_length x z : length x = length z -> length (L x z) = length x.
Proof. intros E. unfold lin. rewrite zip_length. lia. Qed.
Lemma lin_size x z : size x = size z -> size (L x z) = size x.
Proof. unfold size. intros E. rewrite lin_length; lia. Qed.

Lemma smp_lin x z k : size x = size z -> smp (L x z) k = (a * smp x k + b * smp z k)%R.
Proof.
  intros E. destruct (Z_lt_le_dec k 0); [rewrite !smp_neg by lia; cbn; lra|].
  destruct (Z_lt_le_dec k (size x)).
  - unfold smp. destruct (Z.ltb_spec k 0); [lia|]. unfold lin, size in *.
    now rewrite (zip_nth _ x z (Z.to_nat k) f0) by lia.
  - rewrite !smp_over by (rewrite ?lin_size by assumption; lia). cbn. lra.
Qed.

Lemma smp_lin_eq x z y : size x = size z -> size y = size x ->
  (forall k, 0 <= k < size x -> smp y k = (a * smp x k + b * smp z k)%R) -> y = L x z.
Proof.
  intros E Ey H. apply smp_ext; [now rewrite lin_size|]. intros k Hk. rewrite smp_lin by exact E. apply H. lia.
Qed.

Lemma fir_up2_lin t x z : size x = size z -> fir_up2 t (L x z) = L (fir_up2 t x) (fir_up2 t z).
Proof.
  intros E. assert (Hs : forall w : list RA, 0 <= 2 * size w) by (intros; unfold size; lia).
  apply smp_lin_eq; unfold fir_up2; rewrite ?size_tab by auto; rewrite ?lin_size by exact E; try lia.
  intros k Hk. rewrite !smp_tab by lia. unfold fir_up_at. destruct (Z.even k).
  - rewrite !mac_sum, <- !sumR_scal, <- sumR_plus. apply sumR_ext. intros i Hi. rewrite smp_lin by exact E. cbn. lra.
  - now apply smp_lin.
Qed.

Lemma fir_down2_lin t x z : size x = size z -> fir_down2 t (L x z) = L (fir_down2 t x) (fir_down2 t z).
Proof.
  intros E. assert (Hs : forall w : list RA, 0 <= size w / 2) by (intros; apply Z.div_pos; unfold size; lia).
  apply smp_lin_eq; unfold fir_down2; rewrite ?size_tab by auto; rewrite ?lin_size by exact E; try congruence.
  intros k Hk. rewrite !smp_tab by (rewrite <- ?E; lia). unfold fir_down_at. rewrite !mac_sum.
  rewrite smp_lin by exact E. cbn [fadd fmul fhalf RA].
  rewrite (sumR_ext _ (fun i => (smp (L x z) _ * smp t i)%R)
    (fun i => (a * (smp x (2 * (k - size t + 1 + i))%Z * smp t i) + b * (smp z (2 * (k - size t + 1 + i))%Z * smp t i))%R)).
  - rewrite sumR_plus, !sumR_scal. lra.
  - intros i Hi. rewrite smp_lin by exact E. cbn. lra.
Qed.

Lemma allpass_from_lin c (x1 y1 z1 w1 : R) x z : length x = length z ->
  allpass_from (A := RA) c (a * x1 + b * z1)%R (a * y1 + b * w1)%R (L x z) =
  L (allpass_from (A := RA) c x1 y1 x) (allpass_from (A := RA) c z1 w1 z).
Proof.
  revert x1 y1 z1 w1 z. induction x as [|u x IH]; intros x1 y1 z1 w1 [|v z] E; try discriminate; [reflexivity|].
  cbn [lin zip allpass_from]. unfold lin in *. cbn [zip]. cbn [fadd fsub fmul RA] in *.
  injection E as E. f_equal; [ring|]. etransitivity; [|apply IH; exact E]. f_equal. ring.
Qed.
Lemma allpass_lin c x z : length x = length z -> allpass (A := RA) c (L x z) = L (allpass (A := RA) c x) (allpass (A := RA) c z).
Proof.
  intros E. unfold allpass. rewrite <- allpass_from_lin by exact E. f_equal; cbn; ring.
Qed.
Lemma chain_lin cs x z : length x = length z -> chain cs (L x z) = L (chain cs x) (chain cs z).
Proof.
  revert x z. induction cs as [|c cs IH]; intros x z E; [reflexivity|].
  change (chain cs (allpass c (L x z)) = L (chain cs (allpass c x)) (chain cs (allpass c z))).
  rewrite allpass_lin by exact E. apply IH. now rewrite !allpass_length.
Qed.
Lemma evens_lin x z : length x = length z -> evens (L x z) = L (evens x) (evens z) /\ odds (L x z) = L (odds x) (odds z).
Proof.
  revert x z. fix IH 1. intros [|u [|u' x]] [|v [|v' z]] E; try discriminate; try (split; reflexivity).
  injection E as E. destruct (IH x z E) as [H1 H2]. unfold lin in *. cbn [evens odds zip]. now rewrite H1, H2.
Qed.
Lemma weave_lin x x' z z' : length x = length z -> length x' = length z' ->
  weave (L x z) (L x' z') = L (weave x x') (weave z z').
Proof.
  revert x' z z'. induction x as [|u x IH]; intros x' [|v z] z' E E'; try discriminate; [reflexivity|].
  destruct x' as [|u' x'], z' as [|v' z']; try discriminate; [reflexivity|].
  injection E as E. injection E' as E'. unfold lin in *. cbn [weave zip] in *. now rewrite IH.
Qed.
Lemma mean_lin (f : RA -> RA -> RA) x x' z z' :
  (forall u u' v v', f (a * u + b * v)%R (a * u' + b * v')%R = (a * f u u' + b * f v v')%R) ->
  length x = length z -> length x' = length z' -> zip f (L x z) (L x' z') = L (zip f x x') (zip f z z').
Proof.
  intros Hf. revert x' z z'. induction x as [|u x IH]; intros x' [|v z] z' E E'; try discriminate; [reflexivity|].
  destruct x' as [|u' x'], z' as [|v' z']; try discriminate; [reflexivity|].
  injection E as E. injection E' as E'. unfold lin in *. cbn [zip] in *. rewrite IH by assumption. f_equal. apply Hf.
Qed.

Lemma stage_lin f md prec s x z : size x = size z ->
  stage f md prec false s (L x z) = L (stage f md prec false s x) (stage f md prec false s z).
Proof.
  intros E. assert (El : length x = length z) by (unfold size in E; lia). unfold stage. destruct f, md.
  - unfold iir_up2. rewrite !chain_lin by exact El. apply weave_lin; now rewrite !chain_length.
  - unfold iir_down2. destruct (evens_lin x z El) as [-> ->].
    rewrite !chain_lin by (now rewrite ?evens_length, ?odds_length, El).
    apply mean_lin; [intros; cbn; ring | |]; rewrite !chain_length; now rewrite ?evens_length, ?odds_length, El.
  - now apply fir_up2_lin.
  - now apply fir_down2_lin.
Qed.
Lemma stage_size f md prec s x z : size x = size z -> size (stage f md prec false s x) = size (stage f md prec false s z).
Proof.
  intros E. assert (El : length x = length z) by (unfold size in E; lia). unfold stage. destruct f, md.
  - unfold size, iir_up2. rewrite !weave_length by (now rewrite !chain_length). now rewrite !chain_length, El.
  - unfold size, iir_down2. rewrite !zip_length, !chain_length, !evens_length, !odds_length. now rewrite El.
  - unfold fir_up2. rewrite E. rewrite !size_tab; unfold size; lia.
  - unfold fir_down2. rewrite E. unfold size, tab. now rewrite !map_length.
Qed.

Theorem resample_lin f md prec ratio x z : size x = size z ->
  resample f md prec false ratio (L x z) = L (resample f md prec false ratio x) (resample f md prec false ratio z).
Proof.
  intros E. unfold resample. destruct md; destruct (ratio =? 1); try reflexivity; destruct (ratio =? 2);
    try (now apply stage_lin); destruct (ratio =? 4); rewrite ?stage_lin; auto using stage_size.
Qed.
End Lin.

(** ** Delayed input *)
Definition zeros (n : Z) : list RA := repeat 0%R (Z.to_nat n).

Lemma zeros_size n : 0 <= n -> size (zeros n) = n.
Proof. intros. unfold size, zeros. rewrite repeat_length. lia. Qed.
Lemma zeros_app_size n (x : list RA) : 0 <= n -> size (zeros n ++ x) = n + size x.
Proof. intros. unfold size, zeros. rewrite app_length, repeat_length. lia. Qed.
Lemma smp_zeros n (x : list RA) k : 0 <= n -> smp (zeros n ++ x) k = smp x (k - n).
Proof.
  intros Hn. unfold smp, zeros. destruct (Z.ltb_spec k 0), (Z.ltb_spec (k - n) 0); try lia.
  - reflexivity.
  - rewrite app_nth1 by (rewrite repeat_length; lia).
    change (f0 (a := RA)) with 0%R. apply nth_repeat.
  - rewrite app_nth2 by (rewrite repeat_length; lia). f_equal. rewrite repeat_length. lia.
Qed.

Lemma fir_up2_zeros t n (x : list RA) : 2 <= size t -> 0 <= n -> fir_up2 t (zeros n ++ x) = zeros (2 * n) ++ fir_up2 t x.
Proof.
  intros Ht Hn. assert (0 <= size x) by (unfold size; lia).
  apply smp_ext; unfold fir_up2; rewrite ?zeros_app_size, ?size_tab; rewrite ?zeros_app_size; try lia.
  intros k Hk. rewrite smp_tab by lia. rewrite smp_zeros by lia. unfold fir_up_at.
  pose proof (Z.div_mod k 2 ltac:(lia)). pose proof (Z.mod_pos_bound k 2 ltac:(lia)).
  assert (Ek : Z.even (k - 2 * n) = Z.even k).
  { rewrite Z.even_sub, Z.even_mul. cbn. now destruct (Z.even k). }
  assert (Eq : (k - 2 * n) / 2 = k / 2 - n) by (symmetry; apply Z.div_unique with (k mod 2); lia).
  destruct (Z_lt_le_dec k (2 * n)).
  - rewrite (smp_neg _ (k - 2 * n)) by lia. destruct (Z.even k).
    + rewrite mac_sum, (sumR_ext _ _ (fun _ => 0%R)), sumR_0; [reflexivity|].
      intros i Hi. rewrite smp_zeros by lia. rewrite (smp_neg x) by (unfold size in *; lia). cbn. lra.
    + rewrite smp_zeros by lia. apply smp_neg.
      pose proof (Z.div_mod (size t) 2 ltac:(lia)). pose proof (Z.mod_pos_bound (size t) 2 ltac:(lia)). lia.
  - rewrite smp_tab by lia. rewrite Ek, Eq. destruct (Z.even k).
    + apply mac_ext; intros i Hi; [|reflexivity]. rewrite smp_zeros by lia. f_equal. lia.
    + rewrite smp_zeros by lia. f_equal. lia.
Qed.

Lemma fir_down2_zeros t n (x : list RA) : 2 <= size t -> 0 <= n ->
  fir_down2 t (zeros (2 * n) ++ x) = zeros n ++ fir_down2 t x.
Proof.
  intros Ht Hn. assert (0 <= size x) by (unfold size; lia). assert (0 <= size x / 2) by (apply Z.div_pos; lia).
  assert (Es : (2 * n + size x) / 2 = n + size x / 2).
  { rewrite Z.add_comm, Z.mul_comm, Z.div_add by lia. lia. }
  apply smp_ext; unfold fir_down2; rewrite ?zeros_app_size, ?size_tab; rewrite ?zeros_app_size, ?Es; try lia.
  intros k Hk. rewrite smp_tab by lia. rewrite smp_zeros by lia. unfold fir_down_at.
  pose proof (Z.div_mod (size t) 2 ltac:(lia)). pose proof (Z.mod_pos_bound (size t) 2 ltac:(lia)).
  destruct (Z_lt_le_dec k n).
  - rewrite (smp_neg _ (k - n)) by lia. rewrite mac_sum, (sumR_ext _ _ (fun _ => 0%R)), sumR_0.
    + rewrite smp_zeros by lia. rewrite smp_neg by lia. cbn. lra.
    + intros i Hi. rewrite smp_zeros by lia. rewrite (smp_neg x) by (unfold size in *; lia). cbn. lra.
  - rewrite smp_tab by lia. f_equal.
    + apply mac_ext; intros i Hi; [|reflexivity]. rewrite smp_zeros by lia. f_equal. lia.
    + rewrite smp_zeros by lia. do 2 f_equal. lia.
Qed.

Lemma zeros_S n : 0 <= n -> zeros (n + 1) = (0%R : RA) :: zeros n.
Proof. intros. unfold zeros. now replace (Z.to_nat (n + 1)) with (S (Z.to_nat n)) by lia. Qed.

Lemma allpass_zeros (c : RA) n x : 0 <= n -> allpass c (zeros n ++ x) = zeros n ++ allpass c x.
Proof.
  intros Hn. unfold zeros. induction (Z.to_nat n) as [|k IH]; [reflexivity|].
  cbn [repeat app]. unfold allpass in *. cbn [allpass_from].
  replace (fadd (fmul (fsub (0%R : RA) f0) c) f0) with (0%R : RA) by (cbn; ring).
  f_equal. exact IH.
Qed.
Lemma chain_zeros (cs : list RA) n x : 0 <= n -> chain cs (zeros n ++ x) = zeros n ++ chain cs x.
Proof.
  intros Hn. revert x. induction cs as [|c cs IH]; intros x; [reflexivity|].
  change (chain cs (allpass c (zeros n ++ x)) = zeros n ++ chain cs (allpass c x)). now rewrite allpass_zeros, IH.
Qed.
Lemma evens_zeros n (x : list RA) : 0 <= n ->
  evens (zeros (2 * n) ++ x) = zeros n ++ evens x /\ odds (zeros (2 * n) ++ x) = zeros n ++ odds x.
Proof.
  intros Hn. unfold zeros. replace (Z.to_nat (2 * n)) with (2 * Z.to_nat n)%nat by lia.
  induction (Z.to_nat n) as [|k [IH1 IH2]]; [split; reflexivity|].
  replace (2 * S k)%nat with (S (S (2 * k)))%nat by lia. cbn [repeat app evens odds]. split; f_equal; assumption.
Qed.
Lemma weave_zeros n (x y : list RA) : 0 <= n -> weave (zeros n ++ x) (zeros n ++ y) = zeros (2 * n) ++ weave x y.
Proof.
  intros Hn. unfold zeros. replace (Z.to_nat (2 * n)) with (2 * Z.to_nat n)%nat by lia.
  induction (Z.to_nat n) as [|k IH]; [reflexivity|].
  replace (2 * S k)%nat with (S (S (2 * k)))%nat by lia. cbn [repeat app weave]. do 2 f_equal. exact IH.
Qed.
Lemma zip_zeros (f : RA -> RA -> RA) n (x y : list RA) : f 0%R 0%R = (0%R : RA) -> zip f (zeros n ++ x) (zeros n ++ y) = zeros n ++ zip f x y.
Proof.
  intros Hf. unfold zeros. induction (Z.to_nat n) as [|k IH]; [reflexivity|].
  cbn [repeat app zip]. f_equal; [exact Hf | exact IH].
Qed.

Lemma stage_zeros f md prec s n x : stage_no s -> has_tables f prec -> 0 <= n ->
  match md with
  | UP => stage f md prec false s (zeros n ++ x) = zeros (2 * n) ++ stage f md prec false s x
  | DOWN => stage f md prec false s (zeros (2 * n) ++ x) = zeros n ++ stage f md prec false s x
  end.
Proof.
  intros Hs HT Hn. unfold stage. destruct f, md.
  - unfold iir_up2. rewrite !chain_zeros by exact Hn. now apply weave_zeros.
  - unfold iir_down2. destruct (evens_zeros n x Hn) as [-> ->]. rewrite !chain_zeros by exact Hn.
    apply zip_zeros. cbn. ring.
  - apply fir_up2_zeros; [|exact Hn]. now apply fir_size_even.
  - apply fir_down2_zeros; [|exact Hn]. now apply fir_size_even.
Qed.

Theorem resample_zeros f md prec ratio n x : ratio_no ratio -> (2 <= ratio -> has_tables f prec) -> 0 <= n ->
  match md with
  | UP => resample f md prec false ratio (zeros n ++ x) = zeros (ratio * n) ++ resample f md prec false ratio x
  | DOWN => resample f md prec false ratio (zeros (ratio * n) ++ x) = zeros n ++ resample f md prec false ratio x
  end.
Proof.
  intros Hr HT Hn. assert (S2 : stage_no 2) by (unfold stage_no; auto). assert (S4 : stage_no 4) by (unfold stage_no; auto).
  assert (S8 : stage_no 8) by (unfold stage_no; auto).
  pose proof (fun s k x Hs HT => stage_zeros f md prec s k x Hs HT) as Z. unfold resample.
  destruct Hr as [->|Hr].
  - cbn [Z.eqb Pos.eqb]. rewrite Z.mul_1_l. destruct md; reflexivity.
  - specialize (HT ltac:(lia)). destruct md, Hr as [->|[->| ->]]; cbn [Z.eqb Pos.eqb].
    + now apply Z.
    + rewrite Z, Z by (assumption || lia). do 2 f_equal. lia.
    + rewrite Z, Z, Z by (assumption || lia). do 2 f_equal. lia.
    + now apply Z.
    + replace (4 * n) with (2 * (2 * n)) by lia. now rewrite Z, Z by (assumption || lia).
    + replace (8 * n) with (2 * (2 * (2 * n))) by lia. now rewrite Z, Z, Z by (assumption || lia).
Qed.

Lemma resample_same_size f md prec ratio (x z : list RA) : size x = size z ->
  size (resample f md prec false ratio x) = size (resample f md prec false ratio z).
Proof.
  intros E. unfold resample. destruct md; destruct (ratio =? 1); try assumption; destruct (ratio =? 2);
    try (now apply stage_size); destruct (ratio =? 4); auto using stage_size.
Qed.
