(** * From stage contracts to the specification *)
From Coq Require Import ZArith List Lia Bool ZifyNat ZifyBool.
From Verif Require Import Arith Mem FirModel IirModel Tables ResamplerModel Wp FirKernel FirUpProof
  FirUpStage FirDownProof FirDownStage IirProof IirStage IirSseStage Stage Cascade
  ResamplerProof ResamplerOk Spec.
Import ListNotations.
Open Scope Z_scope.

Section Basic.
Context {A : arith}.
Implicit Types x y t : list A.

Lemma smp_sig x k : smp x k = sig x k. Proof. reflexivity. Qed.
Lemma size_len x : size x = len x. Proof. reflexivity. Qed.

Lemma tab_length n (f : Z -> A) : length (tab n f) = Z.to_nat n.
Proof. unfold tab. now rewrite map_length, seq_length. Qed.

Lemma size_tab n (f : Z -> A) : 0 <= n -> size (tab n f) = n.
Proof. intros. unfold size. rewrite tab_length. lia. Qed.

Lemma smp_tab n (f : Z -> A) k : 0 <= k < n -> smp (tab n f) k = f k.
Proof.
  intros Hk. unfold smp. destruct (Z.ltb_spec k 0); [lia|]. unfold tab.
  rewrite nth_indep with (d' := f (Z.of_nat 0)) by (rewrite map_length, seq_length; lia).
  rewrite (map_nth (fun i => f (Z.of_nat i))).
  rewrite seq_nth by lia. f_equal. lia.
Qed.

Lemma smp_ext x y : size x = size y -> (forall k, 0 <= k < size x -> smp x k = smp y k) -> x = y.
Proof.
  intros L E. apply nthZ_ext; [exact L|]. intros k Hk. specialize (E k Hk).
  rewrite !smp_sig, !sig_nonneg in E by lia. exact E.
Qed.

Lemma smp_neg x k : k < 0 -> smp x k = f0.
Proof. apply sig_neg. Qed.

Lemma smp_over x k : size x <= k -> smp x k = f0.
Proof.
  intros H. unfold smp. destruct (k <? 0); [reflexivity|]. apply nth_overflow. unfold size in H. lia.
Qed.

Lemma tab_ext n (f g : Z -> A) : (forall k, 0 <= k < n -> f k = g k) -> tab n f = tab n g.
Proof.
  intros E. unfold tab. apply map_ext_in. intros i Hi. apply in_seq in Hi. apply E. lia.
Qed.

Lemma mac_dot n (w t : Z -> A) : mac n w t = dot w t n.
Proof. induction n as [|n IH]; cbn [mac dot]; [reflexivity|]. now rewrite IH. Qed.

Lemma vmac_sse n (w t : Z -> A) j : 0 <= n -> 0 <= j <= 3 ->
  vmac n w t j = sse_out (fun i => w (i - j)) (sse_tap t n) n j.
Proof.
  intros Hn Hj. unfold vmac, sse_out, hsum, lanes, groups. cbn [l0 l1 l2 l3].
  assert (E : forall l g, 0 <= l <= 3 ->
    vlane n w t (l - j) g = lane_acc (fun i => w (i - j)) (sse_tap t n) j l g).
  { intros l g Hl. induction g as [|g IH]; cbn [vlane lane_acc].
    - unfold vterm, tap0. replace (4 * j + l) with (16 * 0 + 4 * j + l) by lia.
      rewrite sse_tap_at by lia. replace (4 * 0 + l - j) with (l - j) by lia. reflexivity.
    - rewrite IH. f_equal. unfold vterm, tap0.
      rewrite (sse_tap_at t n (Z.of_nat (S g)) j l) by lia.
      replace (4 * Z.of_nat (S g) + (l - j)) with (4 * Z.of_nat (S g) + l - j) by lia. reflexivity. }
  now rewrite !E by lia.
Qed.
End Basic.

(** ** FIR *)
Section FirSpec.
Context {A : arith}.
Implicit Types x y tl : list A.

Lemma nth_f_smp tl k : 0 <= k -> nth_f tl k = smp tl k.
Proof. intros. unfold nth_f, smp. destruct (Z.ltb_spec k 0); [lia|]. reflexivity. Qed.

Lemma mac_ext n (w w' t t' : Z -> A) :
  (forall k, 0 <= k < Z.of_nat n -> w k = w' k) -> (forall k, 0 <= k < Z.of_nat n -> t k = t' k) ->
  mac n w t = mac n w' t'.
Proof. intros H1 H2. rewrite !mac_dot. now apply dot_ext. Qed.

Lemma vmac_ext n (w w' t t' : Z -> A) j :
  (forall k, w k = w' k) -> (forall k, 0 <= k < n -> t k = t' k) -> vmac n w t j = vmac n w' t' j.
Proof.
  intros H1 H2.
  assert (ET : forall i, vterm n w t i = vterm n w' t' i).
  { intros i. unfold vterm, tap0. rewrite H1. destruct (Z.leb_spec 0 i), (Z.ltb_spec i n); cbn; try reflexivity.
    now rewrite H2 by lia. }
  assert (E : forall s g, vlane n w t s g = vlane n w' t' s g).
  { intros s g. induction g as [|g IH]; cbn [vlane]; now rewrite ?IH, ET. }
  unfold vmac. now rewrite !E.
Qed.

Lemma sum_of_ext vec n (w w' t t' : Z -> A) v :
  (forall k, w k = w' k) -> (forall k, 0 <= k < n -> t k = t' k) -> sum_of vec n w t v -> sum_of vec n w' t' v.
Proof.
  intros H1 H2 [->|(Hv & j & Hj & ->)].
  - left. apply mac_ext; intros; [apply H1 | apply H2; lia].
  - right. split; [exact Hv|]. exists j. split; [exact Hj|]. now apply vmac_ext.
Qed.

Lemma fir_val_sum o (t X : Z -> A) k n v : 0 <= f_order o ->
  fir_val o t X k n v -> sum_of (f_sse o) (f_order o) (fun i => X (k + i)) t v.
Proof.
  intros Ho [->|(Hs & j & Hj & Hk & Hn & ->)].
  - left. now rewrite mac_dot.
  - right. split; [exact Hs|]. exists j. split; [exact Hj|].
    rewrite vmac_sse by assumption. unfold sse_out, lanes. f_equal.
    assert (E : forall l g, lane_acc (fun i => X (k - j + i)) (sse_tap t (f_order o)) j l g =
      lane_acc (fun i => X (k + (i - j))) (sse_tap t (f_order o)) j l g).
    { intros l g. induction g as [|g IH]; cbn [lane_acc].
      - do 2 f_equal. lia.
      - rewrite IH. do 3 f_equal. lia. }
    now rewrite !E.
Qed.

Lemma fir_up_any_of o tl x y : f_order o = size tl -> Z.even (size tl) = true ->
  fir_up_rel o (nth_f tl) x y -> fir_up_any (f_sse o) tl x y.
Proof.
  intros Ho Ev [L H]. split; [exact L|]. intros m Hm. destruct (H m Hm) as [H1 H2].
  rewrite (smp_sig y), (smp_sig y (2 * m + 1)), !(sig_nonneg y) by lia. split.
  - apply fir_val_sum in H1; [|unfold size in Ho; lia]. rewrite Ho in H1. revert H1. apply sum_of_ext.
    + intros k. unfold win. change (smp x) with (sig x). rewrite Ho. f_equal. lia.
    + intros k Hk. apply nth_f_smp. lia.
  - rewrite H2. unfold win. change (smp x) with (sig x). rewrite Ho. f_equal.
    apply Z.even_spec in Ev. destruct Ev as [h Eh]. rewrite Eh. replace (2 * h) with (h * 2) at 1 2 by lia.
    rewrite !Z.div_mul by lia. lia.
Qed.

Lemma fir_down_any_of o tl x y : f_order o = size tl -> Z.even (size tl) = true ->
  fir_down_rel o (nth_f tl) x y -> fir_down_any (f_sse o) tl x y.
Proof.
  intros Ho Ev [L H]. split; [exact L|]. intros n Hn. destruct (H n Hn) as (v & H1 & H2).
  exists v. split.
  - apply fir_val_sum in H1; [|unfold size in Ho; lia]. rewrite Ho in H1. revert H1. apply sum_of_ext.
    + intros k. unfold winE. change (smp x) with (sig x). rewrite Ho. f_equal. lia.
    + intros k Hk. apply nth_f_smp. lia.
  - rewrite (smp_sig y), sig_nonneg by lia. rewrite H2. unfold winO. change (smp x) with (sig x). rewrite Ho. do 3 f_equal.
    apply Z.even_spec in Ev. destruct Ev as [h Eh]. rewrite Eh. replace (2 * h) with (h * 2) at 1 3 by lia.
    rewrite !Z.div_mul by lia. lia.
Qed.

Lemma sum_of_scalar n (w t : Z -> A) v : sum_of false n w t v -> v = mac (Z.to_nat n) w t.
Proof. intros [H|[H _]]; [exact H | discriminate]. Qed.

Lemma fir_up_any_scalar tl x y : fir_up_any false tl x y -> y = fir_up2 tl x.
Proof.
  intros [L H]. assert (0 <= size x) by (unfold size; lia). apply smp_ext.
  - unfold fir_up2. rewrite size_tab by lia. exact L.
  - intros j Hj. unfold fir_up2. rewrite smp_tab by lia. unfold fir_up_at.
    pose proof (Z.div_mod j 2 ltac:(lia)). pose proof (Z.mod_pos_bound j 2 ltac:(lia)).
    destruct (H (j / 2) ltac:(lia)) as [E1 E2]. rewrite Zeven_mod. unfold Zeq_bool.
    destruct (Z.compare_spec (j mod 2) 0); try lia.
    + apply sum_of_scalar in E1. unfold size in *. rewrite Nat2Z.id in E1. rewrite <- E1. f_equal. lia.
    + rewrite <- E2. f_equal. lia.
Qed.

Lemma fir_down_any_scalar tl x y : fir_down_any false tl x y -> y = fir_down2 tl x.
Proof.
  intros [L H]. assert (0 <= size y) by (unfold size; lia).
  assert (Lx : size x / 2 = size y) by (rewrite L, Z.mul_comm; apply Z.div_mul; lia).
  apply smp_ext.
  - unfold fir_down2. rewrite size_tab; lia.
  - intros n Hn. unfold fir_down2. rewrite smp_tab by lia. destruct (H n Hn) as (v & H1 & ->).
    apply sum_of_scalar in H1. unfold fir_down_at. unfold size in *. rewrite Nat2Z.id in H1. now rewrite <- H1.
Qed.
End FirSpec.

(** ** IIR *)
Section IirSpec.
Context {A : arith}.
Implicit Types x y cs : list A.

Lemma evens_length {X} (l : list X) : length (evens l) = Nat.div2 (S (length l)).
Proof.
  enough (H : length (evens l) = Nat.div2 (S (length l)) /\ forall a, length (evens (a :: l)) = Nat.div2 (S (S (length l)))) by apply H.
  induction l as [|b l [IH1 IH2]]; [split; reflexivity|]. split; [apply IH2|].
  intros a. cbn [evens length]. rewrite IH1. reflexivity.
Qed.
Lemma odds_length {X} (l : list X) : length (odds l) = Nat.div2 (length l).
Proof.
  enough (H : length (odds l) = Nat.div2 (length l) /\ forall a, length (odds (a :: l)) = Nat.div2 (S (length l))) by apply H.
  induction l as [|b l [IH1 IH2]]; [split; reflexivity|]. split; [apply IH2|].
  intros a. cbn [odds length]. rewrite IH1. reflexivity.
Qed.
Lemma evens_nth {X} (l : list X) d k : nth k (evens l) d = nth (2 * k) l d.
Proof.
  revert k. enough (H : (forall k, nth k (evens l) d = nth (2 * k) l d) /\
    forall a k, nth k (evens (a :: l)) d = nth (2 * k) (a :: l) d) by apply H.
  induction l as [|b l [IH1 IH2]].
  - split; [intros [|k]; reflexivity|]. intros a [|[|k]]; reflexivity.
  - split; [apply IH2|]. intros a [|k]; [reflexivity|]. cbn [evens nth]. rewrite IH1.
    replace (2 * S k)%nat with (S (S (2 * k))) by lia. reflexivity.
Qed.
Lemma odds_nth {X} (l : list X) d k : nth k (odds l) d = nth (2 * k + 1) l d.
Proof.
  revert k. enough (H : (forall k, nth k (odds l) d = nth (2 * k + 1) l d) /\
    forall a k, nth k (odds (a :: l)) d = nth (2 * k + 1) (a :: l) d) by apply H.
  induction l as [|b l [IH1 IH2]].
  - split; [intros [|k]; reflexivity|]. intros a [|[|k]]; reflexivity.
  - split; [apply IH2|]. intros a [|k]; [reflexivity|]. cbn [odds nth]. rewrite IH1.
    replace (2 * S k + 1)%nat with (S (S (2 * k + 1))) by lia. reflexivity.
Qed.

Lemma smp_evens x k : smp (evens x) k = smp x (2 * k).
Proof.
  unfold smp. destruct (Z.ltb_spec k 0), (Z.ltb_spec (2 * k) 0); try lia; [reflexivity|].
  rewrite evens_nth. f_equal. lia.
Qed.
Lemma smp_odds x k : smp (odds x) k = if k <? 0 then f0 else smp x (2 * k + 1).
Proof.
  unfold smp. destruct (Z.ltb_spec k 0), (Z.ltb_spec (2 * k + 1) 0); try lia; [reflexivity|].
  rewrite odds_nth. f_equal. lia.
Qed.

Lemma allpass_from_length c (x1 y1 : A) x : length (allpass_from c x1 y1 x) = length x.
Proof. revert x1 y1. induction x as [|x0 x IH]; intros; cbn [allpass_from length]; [reflexivity|]. now rewrite IH. Qed.
Lemma allpass_length c x : length (allpass c x) = length x.
Proof. apply allpass_from_length. Qed.
Lemma chain_length cs x : length (chain cs x) = length x.
Proof.
  revert x. induction cs as [|c cs IH]; intros x; cbn [chain fold_left]; [reflexivity|].
  change (length (chain cs (allpass c x)) = length x). now rewrite IH, allpass_length.
Qed.
Lemma chain_snoc cs c x : chain (cs ++ [c]) x = allpass c (chain cs x).
Proof. unfold chain. now rewrite fold_left_app. Qed.

Lemma allpass_from_nth c (x1 y1 : A) x k : (k < length x)%nat ->
  nth k (allpass_from c x1 y1 x) f0 =
  fadd (fmul (fsub (nth k x f0) (match k with O => y1 | S j => nth j (allpass_from c x1 y1 x) f0 end)) c)
       (match k with O => x1 | S j => nth j x f0 end).
Proof.
  revert x1 y1 k. induction x as [|x0 x IH]; intros x1 y1 k Hk; cbn [length] in Hk; [lia|].
  cbn [allpass_from]. destruct k as [|k]; [reflexivity|]. cbn [nth].
  rewrite IH by lia. destruct k; reflexivity.
Qed.

Lemma smp_allpass c x k : k < size x -> smp (allpass c x) k = apz c (smp x) k.
Proof.
  intros Hk. destruct (Z.ltb_spec k 0) as [Hn|Hn].
  { rewrite smp_neg by lia. unfold apz. destruct (Z.ltb_spec k 0); [reflexivity | lia]. }
  unfold smp, apz, size in *. destruct (Z.ltb_spec k 0); [lia|].
  assert (Hk' : (Z.to_nat k < length x)%nat) by lia. revert Hk'. generalize (Z.to_nat k). clear.
  intros n. induction n as [|n IH]; intros Hn; unfold allpass.
  - rewrite allpass_from_nth by lia. reflexivity.
  - rewrite allpass_from_nth by lia. cbn [ap]. fold (allpass c x). rewrite IH by lia.
    destruct (Z.ltb_spec (Z.of_nat (S n)) 0), (Z.ltb_spec (Z.of_nat n) 0); try lia.
    now rewrite !Nat2Z.id.
Qed.

Lemma apz_ext c (w w' : Z -> A) k : (forall j, 0 <= j <= k -> w j = w' j) -> apz c w k = apz c w' k.
Proof.
  intros E. unfold apz. destruct (Z.ltb_spec k 0); [reflexivity|]. apply ap_ext. intros. apply E. lia.
Qed.

Lemma smp_chain cs (coef : Z -> A) (X0 X1 : Z -> A) b x k :
  b = 0 \/ b = 1 ->
  (forall j, 0 <= j < size cs -> coef (2 * j + b) = smp cs j) ->
  (forall j, 0 <= j < size x -> smp x j = if b =? 0 then X0 j else X1 j) ->
  0 <= k < size x ->
  W coef X0 X1 (2 * size cs + b) k = smp (chain cs x) k.
Proof.
  intros Hb. revert k. induction cs as [|c cs IH] using rev_ind; intros k Hc Hx Hk.
  - cbn [chain fold_left]. rewrite Hx by lia. unfold W. destruct Hb as [-> | ->]; reflexivity.
  - rewrite chain_snoc, smp_allpass by (unfold size in *; rewrite chain_length; lia).
    unfold size in *. rewrite app_length in *. cbn [length] in *.
    replace (2 * Z.of_nat (length cs + 1) + b) with (2 * Z.of_nat (length cs) + b + 2) by lia.
    unfold W. replace (Z.to_nat (2 * Z.of_nat (length cs) + b + 2)) with (S (S (Z.to_nat (2 * Z.of_nat (length cs) + b)))) by lia.
    cbn [wsig]. rewrite Z2Nat.id by lia. rewrite Hc by lia.
    replace (smp (cs ++ [c]) (Z.of_nat (length cs))) with c.
    2:{ unfold smp. destruct (Z.ltb_spec (Z.of_nat (length cs)) 0); [lia|]. rewrite Nat2Z.id.
        rewrite app_nth2 by lia. rewrite Nat.sub_diag. reflexivity. }
    apply apz_ext. intros j Hj. apply IH; [|exact Hx | lia].
    intros i Hi. rewrite Hc by lia. rewrite !smp_sig. apply sig_app1. unfold len. lia.
Qed.

Lemma zip_length f x y : length (zip f x y) = Nat.min (length x) (length y).
Proof. revert y. induction x as [|a x IH]; intros [|b y]; cbn [zip length Nat.min]; auto. Qed.
Lemma zip_nth f x y k d : (k < length x)%nat -> (k < length y)%nat ->
  nth k (zip f x y) d = f (nth k x d) (nth k y d).
Proof.
  revert y k. induction x as [|a x IH]; intros [|b y] k Hx Hy; cbn [length] in *; try lia.
  destruct k as [|k]; cbn [zip nth]; [reflexivity|]. apply IH; lia.
Qed.
Lemma weave_length {X} (x y : list X) : length x = length y -> length (weave x y) = (2 * length x)%nat.
Proof.
  revert y. induction x as [|a x IH]; intros [|b y] H; cbn [weave length] in *; try lia.
  rewrite IH by lia. lia.
Qed.
Lemma weave_evens {X} (x y : list X) : length x = length y -> evens (weave x y) = x.
Proof.
  revert y. induction x as [|a x IH]; intros [|b y] H; cbn [weave length evens] in *; try lia; [reflexivity|].
  now rewrite IH by lia.
Qed.
Lemma weave_odds {X} (x y : list X) : length x = length y -> odds (weave x y) = y.
Proof.
  revert y. induction x as [|a x IH]; intros [|b y] H; cbn [weave length odds] in *; try lia; [reflexivity|].
  now rewrite IH by lia.
Qed.
Lemma weave_split {X} (l : list X) : Nat.even (length l) = true -> weave (evens l) (odds l) = l.
Proof.
  enough (H : (Nat.even (length l) = true -> weave (evens l) (odds l) = l) /\
    forall a, Nat.even (S (length l)) = true -> weave (evens (a :: l)) (odds (a :: l)) = a :: l) by apply H.
  induction l as [|b l [IH1 IH2]]; [split; [reflexivity | discriminate]|]. split; [intros; apply IH2; assumption|].
  intros a E. cbn [evens odds weave]. rewrite IH1; [reflexivity|exact E].
Qed.

(** the two outputs of the structure with coefficients cs (completed to [xc]) *)
Lemma W_even cs (coef : Z -> A) X0 X1 x k :
  (forall j, 0 <= j < size cs -> coef j = smp cs j) ->
  (forall j, 0 <= j < size x -> smp x j = X0 j) -> 0 <= k < size x ->
  W coef X0 X1 (2 * ((size cs + 1) / 2)) k = smp (chain (evens cs) x) k.
Proof.
  intros Hc Hx Hk. rewrite <- (smp_chain (evens cs) coef X0 X1 0 x k); [|auto| |auto|exact Hk].
  - f_equal. unfold size. rewrite evens_length. pose proof (Nat.div2_odd (S (length cs))) as E.
    destruct (Nat.odd (S (length cs))); cbn [Nat.b2n] in E; rewrite Z.add_0_r; f_equal; symmetry;
      [apply Z.div_unique with 1 | apply Z.div_unique with 0]; lia.
  - intros j Hj. rewrite smp_evens, Z.add_0_r. apply Hc.
    unfold size in *. rewrite evens_length in Hj. pose proof (Nat.div2_odd (S (length cs))) as E.
    destruct (Nat.odd (S (length cs))); cbn [Nat.b2n] in E; lia.
Qed.
Lemma W_odd cs (coef : Z -> A) X0 X1 x k :
  (forall j, 0 <= j < size cs -> coef j = smp cs j) ->
  (forall j, 0 <= j < size x -> smp x j = X1 j) -> 0 <= k < size x ->
  W coef X0 X1 (2 * (size cs / 2) + 1) k = smp (chain (odds cs) x) k.
Proof.
  intros Hc Hx Hk. rewrite <- (smp_chain (odds cs) coef X0 X1 1 x k); [|auto| |auto|exact Hk].
  - f_equal. unfold size. rewrite odds_length. pose proof (Nat.div2_odd (length cs)) as E.
    do 2 f_equal. destruct (Nat.odd (length cs)); cbn [Nat.b2n] in E; symmetry;
      [apply Z.div_unique with 1 | apply Z.div_unique with 0]; lia.
  - intros j Hj. rewrite smp_odds. destruct (Z.ltb_spec j 0); [lia|]. apply Hc.
    unfold size in *. rewrite odds_length in Hj. pose proof (Nat.div2_odd (length cs)) as E.
    destruct (Nat.odd (length cs)); cbn [Nat.b2n] in E; lia.
Qed.

Lemma iir_up_spec cs (coef : Z -> A) x y :
  (forall j, 0 <= j < size cs -> coef j = smp cs j) ->
  iir_up_rel coef (2 * ((size cs + 1) / 2)) (2 * (size cs / 2) + 1) x y -> y = iir_up2 cs x.
Proof.
  intros Hc [L H]. rewrite <- (weave_split y) by (apply Nat.even_spec; exists (length x); unfold len in L; lia).
  unfold iir_up2. f_equal; apply smp_ext.
  - unfold size. rewrite evens_length, chain_length. unfold len in L.
    replace (length y) with (2 * length x)%nat by lia. f_equal.
    pose proof (Nat.div2_odd (S (2 * length x))) as E. destruct (Nat.odd (S (2 * length x))); cbn [Nat.b2n] in E; lia.
  - intros k Hk.
    assert (Hk' : 0 <= k < size x).
    { unfold size in *. rewrite evens_length in Hk. unfold len in L.
      pose proof (Nat.div2_odd (S (length y))) as E. destruct (Nat.odd (S (length y))); cbn [Nat.b2n] in E; lia. }
    rewrite smp_evens. rewrite smp_sig, sig_nonneg by lia. rewrite (proj1 (H k Hk')).
    apply W_even; auto.
  - unfold size. rewrite odds_length, chain_length. unfold len in L.
    replace (length y) with (2 * length x)%nat by lia. f_equal.
    pose proof (Nat.div2_odd (2 * length x)) as E. destruct (Nat.odd (2 * length x)); cbn [Nat.b2n] in E; lia.
  - intros k Hk.
    assert (Hk' : 0 <= k < size x).
    { unfold size in *. rewrite odds_length in Hk. unfold len in L.
      pose proof (Nat.div2_odd (length y)) as E. destruct (Nat.odd (length y)); cbn [Nat.b2n] in E; lia. }
    rewrite smp_odds. destruct (Z.ltb_spec k 0); [lia|].
    rewrite smp_sig, sig_nonneg by lia. rewrite (proj2 (H k Hk')).
    apply W_odd; auto.
Qed.

Lemma iir_down_spec comb cs (coef : Z -> A) x y :
  (forall j, 0 <= j < size cs -> coef j = smp cs j) ->
  iir_down_rel coef (2 * ((size cs + 1) / 2)) (2 * (size cs / 2) + 1) comb x y ->
  y = zip comb (chain (evens cs) (odds x)) (chain (odds cs) (evens x)).
Proof.
  intros Hc [L H]. assert (Ly : length x = (2 * length y)%nat) by (unfold len in L; lia).
  assert (Lo : length (odds x) = length y).
  { rewrite odds_length, Ly. pose proof (Nat.div2_odd (2 * length y)) as E.
    destruct (Nat.odd (2 * length y)); cbn [Nat.b2n] in E; lia. }
  assert (Le : length (evens x) = length y).
  { rewrite evens_length, Ly. pose proof (Nat.div2_odd (S (2 * length y))) as E.
    destruct (Nat.odd (S (2 * length y))); cbn [Nat.b2n] in E; lia. }
  apply smp_ext.
  - unfold size. rewrite zip_length, !chain_length. lia.
  - intros k Hk. unfold size in Hk. rewrite smp_sig, sig_nonneg by lia.
    rewrite (H k ltac:(unfold len; lia)).
    rewrite (W_even cs coef _ _ (odds x)), (W_odd cs coef _ _ (evens x)); try assumption; try (unfold size; lia).
    + unfold smp. destruct (Z.ltb_spec k 0); [lia|].
      rewrite zip_nth; [reflexivity | rewrite chain_length; lia | rewrite chain_length; lia].
    + intros j Hj. rewrite smp_evens. reflexivity.
    + intros j Hj. rewrite smp_odds. destruct (Z.ltb_spec j 0); [lia|]. reflexivity.
Qed.

Lemma even_up_length cs : Nat.even (length (even_up cs)) = true.
Proof.
  unfold even_up. destruct (Nat.odd (length cs)) eqn:E.
  - rewrite app_length. cbn [length]. rewrite Nat.add_1_r, Nat.even_succ. exact E.
  - rewrite <- Nat.negb_odd, E. reflexivity.
Qed.
Lemma even_up_size cs : size (even_up cs) = 2 * ((size cs + 1) / 2).
Proof.
  unfold even_up, size. pose proof (Nat.div2_odd (length cs)) as E.
  destruct (Nat.odd (length cs)); cbn [Nat.b2n] in E.
  - rewrite app_length. cbn [length].
    replace ((Z.of_nat (length cs) + 1) / 2) with (Z.of_nat (Nat.div2 (length cs) + 1)); [lia|].
    apply Z.div_unique with 0; lia.
  - replace ((Z.of_nat (length cs) + 1) / 2) with (Z.of_nat (Nat.div2 (length cs))); [lia|].
    apply Z.div_unique with 1; lia.
Qed.
Lemma even_up_smp cs j : 0 <= j < size (even_up cs) ->
  smp (even_up cs) j = if j <? size cs then smp cs j else f1.
Proof.
  unfold even_up. destruct (Nat.odd (length cs)); intros Hj.
  - unfold size in *. rewrite app_length in Hj. cbn [length] in Hj.
    destruct (Z.ltb_spec j (Z.of_nat (length cs))).
    + rewrite !smp_sig. now apply sig_app1.
    + rewrite smp_sig. replace j with (len cs + 0) by (unfold len; lia). now rewrite sig_app2.
  - destruct (Z.ltb_spec j (size cs)); [reflexivity | lia].
Qed.
End IirSpec.

(** ** The stages of an object *)
Section StageSpec.
Context {A : arith} (plat : platform).

Lemma coeffs_even f md prec s : stage_no s -> fir_prec prec -> f = FILTER_FIR ->
  Z.even (size (coeffs (A := A) f md prec s)) = true.
Proof.
  intros Hs Hp ->. unfold coeffs, size.
  destruct Hs as [->|[->| ->]], Hp as [->|[->|[->|[->|[->| ->]]]]]; cbv [fir_table]; cbn [Z.eqb Pos.eqb andb]; rewrite map_length; reflexivity.
Qed.

Lemma stage_coefs_eq f md prec s : stage_coefs (A := A) f md prec s = nth_f (coeffs f md prec s) \/
  (forall k, stage_coefs (A := A) f md prec s k = f0).
Proof.
  unfold stage_coefs, coeffs. destruct f.
  - destruct (iir_table s prec) as [[t gd]|]; auto.
  - destruct (fir_table s prec) as [t|]; auto.
Qed.

Lemma stage_any_of id f md prec use_sse s x y : stage_no s -> has_tables f prec ->
  oR (stage_impl plat id f md prec use_sse s) (stage_coefs (A := A) f md prec s) x y ->
  stage_any f md prec (vector plat f use_sse) s x y.
Proof.
  intros Hs HT. destruct f; cbn [has_tables] in HT; unfold stage_any.
  - destruct (iir_table_some s prec Hs HT) as (t & gd & Et).
    unfold stage_impl, stage_coefs, stage, coeffs. rewrite Et. unfold vector. cbn [oR].
    set (cs := map (fun d => lit d 0) t : list A).
    assert (Hcs : size cs = Z.of_nat (length t)) by (unfold size, cs; now rewrite map_length).
    destruct (has_sse plat && use_sse), md; cbn [impl_rel i_nc].
    + intros H. unfold iir_up2_sse. apply (iir_up_spec (even_up cs) (xcoef (Iir (Z.of_nat (length t)) (16 * id + s)) (nth_f cs))).
      * intros j Hj. rewrite even_up_smp by exact Hj. unfold xcoef. cbn [i_nc]. rewrite Hcs.
        destruct (j <? Z.of_nat (length t)); [|reflexivity]. apply nth_f_smp. lia.
      * rewrite even_up_size, Hcs. set (h := (Z.of_nat (length t) + 1) / 2) in *.
        replace ((2 * h + 1) / 2) with h by (apply Z.div_unique with 1; lia).
        replace (2 * h / 2) with h by (apply Z.div_unique with 0; lia). exact H.
    + intros H. unfold iir_down2_sse. apply (iir_down_spec _ (even_up cs) (xcoef (Iir (Z.of_nat (length t)) (16 * id + s)) (nth_f cs))).
      * intros j Hj. rewrite even_up_smp by exact Hj. unfold xcoef. cbn [i_nc]. rewrite Hcs.
        destruct (j <? Z.of_nat (length t)); [|reflexivity]. apply nth_f_smp. lia.
      * rewrite even_up_size, Hcs. set (h := (Z.of_nat (length t) + 1) / 2) in *.
        replace ((2 * h + 1) / 2) with h by (apply Z.div_unique with 1; lia).
        replace (2 * h / 2) with h by (apply Z.div_unique with 0; lia). exact H.
    + intros H. apply (iir_up_spec cs (nth_f cs)); [intros j Hj; apply nth_f_smp; lia|]. rewrite Hcs. exact H.
    + intros H. apply (iir_down_spec _ cs (nth_f cs)); [intros j Hj; apply nth_f_smp; lia|]. rewrite Hcs. exact H.
  - pose proof (fun md => coeffs_even FILTER_FIR md prec s Hs HT eq_refl) as Ev.
    destruct (fir_table_some s prec Hs HT) as (t & Et & Lt).
    unfold coeffs in Ev. rewrite Et in Ev.
    unfold stage_impl, stage_coefs, coeffs. rewrite Et. unfold vector, sse_available.
    destruct md; cbn [oR impl_rel]; intros H.
    + refine (fir_up_any_of (Fir _ _ _) _ x y _ (Ev UP) H). unfold size. now rewrite map_length.
    + refine (fir_down_any_of (Fir _ _ _) _ x y _ (Ev DOWN) H). unfold size. now rewrite map_length.
Qed.

Lemma built_resample_any id md ratio prec use_sse f x y :
  ratio_no ratio -> (2 <= ratio -> has_tables f prec) ->
  res_R (built plat id md ratio prec use_sse f) (built_coefs (A := A) md prec f) x y ->
  resample_any f md prec (vector plat f use_sse) ratio x y.
Proof.
  intros Hr HT. unfold res_R, resample_any, built, built_coefs.
  cbn [r_ratio r_mode impl_x2 impl_x4 impl_x8].
  assert (S2 : stage_no 2) by (unfold stage_no; auto).
  assert (S4 : stage_no 4) by (unfold stage_no; auto).
  assert (S8 : stage_no 8) by (unfold stage_no; auto).
  destruct Hr as [->|[->|[->| ->]]].
  - cbn. intros ->. destruct md; reflexivity.
  - intros H. destruct md; apply (stage_any_of id); auto; apply HT; lia.
  - specialize (HT ltac:(lia)). destruct md; cbn; intros (a & H1 & H2); exists a;
      split; eapply stage_any_of; eauto.
  - specialize (HT ltac:(lia)). destruct md; cbn; intros (b & (a & H1 & H2) & H3); exists a, b;
      (split; [|split]); eapply stage_any_of; eauto.
Qed.

Lemma stage_any_fun f md prec vec s (x y : list A) : (f = FILTER_FIR -> vec = false) ->
  stage_any f md prec vec s x y -> y = stage f md prec vec s x.
Proof.
  intros Hv. unfold stage_any, stage. destruct f; [auto|]. rewrite (Hv eq_refl).
  destruct md; [apply fir_up_any_scalar | apply fir_down_any_scalar].
Qed.

Lemma resample_any_fun f md prec vec ratio (x y : list A) : (f = FILTER_FIR -> vec = false) ->
  resample_any f md prec vec ratio x y -> y = resample f md prec vec ratio x.
Proof.
  intros Hv. pose proof (fun s x y => stage_any_fun f md prec vec s x y Hv) as F.
  unfold resample_any, resample. destruct md.
  - destruct (ratio =? 1); [auto|]. destruct (ratio =? 2); [apply F|]. destruct (ratio =? 4).
    + intros (a & H1 & H2). apply F in H1. apply F in H2. now subst.
    + intros (a & b & H1 & H2 & H3). apply F in H1. apply F in H2. apply F in H3. now subst.
  - destruct (ratio =? 1); [auto|]. destruct (ratio =? 2); [apply F|]. destruct (ratio =? 4).
    + intros (a & H1 & H2). apply F in H1. apply F in H2. now subst.
    + intros (a & b & H1 & H2 & H3). apply F in H1. apply F in H2. apply F in H3. now subst.
Qed.

(** interface facts of the object constructed *)
Lemma fir_table_even s prec t : stage_no s -> fir_prec prec -> fir_table s prec = Some t ->
  Z.of_nat (length t) mod 2 = 0.
Proof.
  intros Hs Hp. destruct Hs as [->|[->| ->]], Hp as [->|[->|[->|[->|[->| ->]]]]]; cbv [fir_table];
    cbn [Z.eqb Pos.eqb andb]; intros E; injection E as <-; reflexivity.
Qed.

Lemma stage_impl_shape id f md prec use_sse s : stage_no s -> has_tables f prec ->
  exists i, stage_impl plat id f md prec use_sse s = Some i /\
    impl_slack i = over_read (vector plat f use_sse) f md 2 /\
    (forall n, impl_okn i n <-> size_ok f md 2 n) /\
    (in_place_ok (vector plat f use_sse) f md 2 -> impl_ip i).
Proof.
  intros Hs HT. destruct f; cbn [has_tables] in HT.
  - destruct (iir_table_some s prec Hs HT) as (t & gd & Et). unfold stage_impl. rewrite Et.
    eexists. split; [reflexivity|]. unfold vector, over_read. change (1 <? 2) with true.
    destruct (has_sse plat && use_sse), md; cbn; (split; [reflexivity | split; [intros; tauto|]]);
      intros [E _]; (discriminate || exact I).
  - destruct (fir_table_some s prec Hs HT) as (t & Et & Lt). unfold stage_impl. rewrite Et.
    eexists. split; [reflexivity|]. destruct md; cbn; (split; [reflexivity | split; [intros; tauto|]]);
      intros [E D]; [discriminate|]. destruct D as [D|[D|[_ D]]]; [discriminate..|]. split; [exact (D eq_refl)|].
    exact (fir_table_even s prec t Hs HT Et).
Qed.

Lemma built_size_ok id md ratio prec use_sse f n : ratio_no ratio -> (2 <= ratio -> has_tables f prec) ->
  size_ok f md ratio n -> res_okn (built plat id md ratio prec use_sse f) n.
Proof.
  intros Hr HT. unfold res_okn, built. cbn [r_ratio r_mode impl_x2].
  destruct Hr as [->|[->|[->| ->]]]; [reflexivity| |destruct f, md; cbn; auto..].
  change (2 =? 1) with false. change (2 =? 2) with true. change (2 <? 2) with false. cbv iota.
  destruct (stage_impl_shape id f md prec use_sse 2 ltac:(unfold stage_no; auto) (HT ltac:(lia))) as (i & -> & _ & H & _).
  apply H.
Qed.

Lemma built_ip id md ratio prec use_sse f : ratio_no ratio -> (2 <= ratio -> has_tables f prec) ->
  in_place_ok (vector plat f use_sse) f md ratio -> res_ip (built plat id md ratio prec use_sse f).
Proof.
  intros Hr HT D. unfold res_ip, built. cbn [r_ratio r_mode impl_x2].
  split; [apply D|]. split; [destruct D as [_ [->|[->|[-> _]]]]; discriminate|]. intros ->.
  change (2 <? 2) with false. cbv iota.
  destruct (stage_impl_shape id f md prec use_sse 2 ltac:(unfold stage_no; auto) (HT ltac:(lia))) as (i & -> & _ & _ & H).
  apply H, D.
Qed.

Lemma built_slack id md ratio prec use_sse f : ratio_no ratio -> (2 <= ratio -> has_tables f prec) ->
  res_slack (built plat id md ratio prec use_sse f) = over_read (vector plat f use_sse) f md ratio.
Proof.
  intros Hr HT. unfold res_slack, built. cbn [r_ratio r_mode impl_x2 impl_x4 impl_x8].
  destruct md; [destruct f; reflexivity|].
  assert (S2 : stage_no 2) by (unfold stage_no; auto).
  assert (S4 : stage_no 4) by (unfold stage_no; auto).
  assert (S8 : stage_no 8) by (unfold stage_no; auto).
  destruct Hr as [->|[->|[->| ->]]].
  - destruct f; cbn; rewrite ?andb_false_r; reflexivity.
  - destruct (stage_impl_shape id f DOWN prec use_sse 2 S2 (HT ltac:(lia))) as (i & E & H & _).
    cbn. rewrite E. exact H.
  - destruct (stage_impl_shape id f DOWN prec use_sse 4 S4 (HT ltac:(lia))) as (i & E & H & _).
    cbn. rewrite E. exact H.
  - destruct (stage_impl_shape id f DOWN prec use_sse 8 S8 (HT ltac:(lia))) as (i & E & H & _).
    cbn. rewrite E. exact H.
Qed.

Lemma built_outn id md ratio prec use_sse f n :
  res_outn (built plat id md ratio prec use_sse f) n = out_size md ratio n.
Proof. reflexivity. Qed.
End StageSpec.

Section Sizes.
Context {A : arith}.

Lemma coeffs_size f md prec s : size (coeffs (A := A) f md prec s) =
  match f with
  | FILTER_FIR => match fir_table s prec with Some t => Z.of_nat (length t) | None => 0 end
  | FILTER_IIR => match iir_table s prec with Some (t, _) => Z.of_nat (length t) | None => 0 end
  end.
Proof.
  unfold coeffs, size. destruct f.
  - destruct (iir_table s prec) as [[t gd]|]; [now rewrite map_length | reflexivity].
  - destruct (fir_table s prec) as [t|]; [now rewrite map_length | reflexivity].
Qed.

Lemma fir_size_even prec md s : fir_prec prec -> stage_no s ->
  let N := size (coeffs (A := A) FILTER_FIR md prec s) in Z.even N = true /\ 2 <= N.
Proof.
  intros Hp Hs N. split; [now apply coeffs_even|]. unfold N. rewrite coeffs_size.
  destruct (fir_table_some s prec Hs Hp) as (t & -> & Ht). lia.
Qed.

Lemma fir_up2_any vec (t x : list A) : fir_up_any vec t x (fir_up2 t x).
Proof.
  assert (0 <= size x) by (unfold size; lia). unfold fir_up2. split; [apply size_tab; lia|].
  intros k Hk. rewrite !smp_tab by lia. unfold fir_up_at.
  rewrite Z.even_mul, Z.even_add, Z.even_mul. cbn [Z.even orb xorb].
  replace (2 * k / 2) with k by (rewrite Z.mul_comm, Z.div_mul; lia).
  replace ((2 * k + 1) / 2) with k by (apply Z.div_unique with 1; lia). split; [|reflexivity].
  left. f_equal. unfold size. lia.
Qed.
Lemma fir_down2_any vec (t x : list A) : size x mod 2 = 0 -> fir_down_any vec t x (fir_down2 t x).
Proof.
  intros E. assert (0 <= size x / 2) by (apply Z.div_pos; unfold size; lia).
  unfold fir_down2. split; [rewrite size_tab by lia; pose proof (Z.div_mod (size x) 2); lia|].
  intros k Hk. rewrite size_tab in Hk by lia. rewrite smp_tab by lia. unfold fir_down_at. eexists. split; [|reflexivity].
  left. f_equal. unfold size. lia.
Qed.

(** sizes *)
Lemma stage_any_size f md prec vec s (x y : list A) : stage_any f md prec vec s x y ->
  match md with UP => size y = 2 * size x | DOWN => size y = size x / 2 end.
Proof.
  unfold stage_any, stage. destruct f.
  - intros ->. unfold size. destruct md, vec; unfold iir_up2_sse, iir_down2_sse, iir_up2, iir_down2;
      rewrite ?weave_length, ?zip_length, ?chain_length, ?evens_length, ?odds_length by (now rewrite ?chain_length);
      try lia; pose proof (Nat.div2_odd (length x)); pose proof (Nat.div2_odd (S (length x)));
      destruct (Nat.odd (length x)) eqn:O; rewrite Nat.odd_succ, <- Nat.negb_odd, O in *; cbn [negb Nat.b2n] in *; lia.
  - destruct md; intros [L _]; [exact L | lia].
Qed.

Lemma resample_any_size f md prec vec ratio (x y : list A) : ratio_no ratio ->
  resample_any f md prec vec ratio x y -> size y = out_size md ratio (size x).
Proof.
  intros Hr. pose proof (fun s a b => stage_any_size f md prec vec s a b) as S. unfold resample_any, out_size.
  destruct md, Hr as [->|[->|[->| ->]]]; cbn [Z.eqb Pos.eqb].
  - intros ->. lia.
  - intros H. apply S in H. lia.
  - intros (a & H1 & H2). apply S in H1, H2. lia.
  - intros (a & b & H1 & H2 & H3). apply S in H1, H2, H3. lia.
  - intros ->. now rewrite Z.div_1_r.
  - intros H. apply S in H. lia.
  - intros (a & H1 & H2). apply S in H1, H2. rewrite H2, H1. now rewrite Z.div_div by lia.
  - intros (a & b & H1 & H2 & H3). apply S in H1, H2, H3. rewrite H3, H2, H1. now rewrite !Z.div_div by lia.
Qed.
End Sizes.
