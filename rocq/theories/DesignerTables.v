(** * The IIR tables of pandaresampler.cc are what mkiir.cc computes *)
From Coq Require Import ZArith Reals List Lia Lra Psatz Bool.
From Interval Require Import Tactic.
From Verif Require Import Arith Tables DesignerModel DesignerProof.
Import ListNotations.
Open Scope R_scope.

(** the value of a decimal literal *)
Definition dec_val (d : dec) : R :=
  if Z.leb 0 (dexp d) then IZR (dmant d * 10 ^ dexp d) else IZR (dmant d) / IZR (10 ^ (- dexp d)).

Definition near12 (a : R) (d : dec) : Prop := Rabs (a - dec_val d) <= / 10 ^ 12.

(** ** The number of coefficients *)
Lemma nbr_coefs_is att t n : 0 < att -> 0 < t < 0.5 -> (0 < n)%Z ->
  IZR (n * 2 - 1) < order_bound att (tq t) <= IZR (n * 2 + 1) \/
  (n = 1%Z /\ -1 < order_bound att (tq t) <= 3) ->
  compute_nbr_coefs_from_proto att t = DOk n.
Proof.
  intros Ha Ht Hn H. destruct (nbr_coefs_ok att t Ha Ht) as (o & (Ho1 & Ho2 & Ho3) & E). rewrite E. f_equal.
  assert (Odd : exists m, o = (2 * m + 1)%Z) by now apply Z.odd_spec.
  destruct Odd as [m ->].
  assert (L : forall z, (z < m)%Z -> IZR (2 * z + 1) < order_bound att (tq t)).
  { intros z Hz. destruct (Rle_or_lt (order_bound att (tq t)) (IZR (2 * z + 1))) as [C|C]; [|exact C].
    exfalso. assert (2 * m + 1 <= 2 * z + 1)%Z by (apply Ho3; [now rewrite Z.odd_add, Z.odd_mul|exact C]). lia. }
  destruct H as [[H1 H2]|(-> & H1 & H2)].
  - assert (m <= n)%Z.
    { destruct (Z_le_dec m n); [assumption|]. specialize (L n ltac:(lia)). replace (2 * n + 1)%Z with (n * 2 + 1)%Z in L by lia. lra. }
    assert (n <= m)%Z.
    { destruct (Z_le_dec n m); [assumption|]. assert (C := Rle_trans _ _ _ (Rlt_le _ _ H1) Ho2).
      apply Rlt_le_trans with (2 := Ho2) in H1. apply lt_IZR in H1. lia. }
    assert (m = n) by lia. subst m. destruct (Z.eqb_spec (2 * n + 1) 1); [lia|].
    replace (2 * n + 1 - 1)%Z with (n * 2)%Z by lia. now rewrite Z.quot_mul.
  - assert (m <= 1)%Z.
    { destruct (Z_le_dec m 1); [assumption|]. specialize (L 1%Z ltac:(lia)). cbn in L. lra. }
    assert (0 <= m)%Z.
    { apply Rlt_le_trans with (2 := Ho2) in H1. apply lt_IZR in H1. lia. }
    assert (m = 0 \/ m = 1)%Z as [-> | ->] by lia; reflexivity.
Qed.

(** ** One coefficient *)
Definition coef_val (k q n d : R) : R :=
  let ww := n * exp (0.25 * ln q) / (d + 0.5) in
  let x := sqrt ((1 - ww * ww * k) * (1 - ww * ww / k)) / (1 + ww * ww) in (1 - x) / (1 + x).

(** the terms used: three of each sum; the rest is small *)
Lemma coef_near fuel c k q order d N D : (23 <= fuel)%nat -> (1 <= c)%Z -> ((c - 1) * 2 < order)%Z -> 0 < k < 1 -> 0 < q < 0.024 ->
  (tiny < Rabs (num_term q order c 0 1) /\ tiny < Rabs (num_term q order c 1 (-1)) /\ tiny < Rabs (num_term q order c 2 1)) ->
  (tiny < Rabs (den_term q order c 1 (-1)) /\ tiny < Rabs (den_term q order c 2 1) /\ tiny < Rabs (den_term q order c 3 (-1))) ->
  N = num_term q order c 0 1 + num_term q order c 1 (-1) + num_term q order c 2 1 ->
  D = den_term q order c 1 (-1) + den_term q order c 2 1 + den_term q order c 3 (-1) ->
  (forall n r, Rabs (n - N) <= / 10 ^ 19 -> Rabs (r - D) <= / 10 ^ 19 ->
    0 < r + 0.5 /\
    (let ww := n * exp (0.25 * ln q) / (r + 0.5) in 0 <= (1 - ww * ww * k) * (1 - ww * ww / k)) /\
    Rabs (coef_val k q n r - dec_val d) <= / 10 ^ 12) ->
  exists a, compute_coef fuel (c - 1) k q order = DOk a /\ near12 a d.
Proof.
  intros Hf Hc Ho Hk Hq (N0 & N1 & N2) (D1 & D2 & D3) -> -> H.
  unfold compute_coef, compute_acc_num, compute_acc_den.
  replace (c - 1 + 1)%Z with c by lia. cbv zeta.
  yes; [|lia]. yes; [|lia]. yes; [|lia]. yes; [|lia].
  destruct fuel as [|[|[|f]]]; [lia|lia|lia|].
  rewrite num_step by lia. destruct gt_dec as [_|X]; [|lra].
  rewrite num_step by lia. destruct gt_dec as [_|X]; [|cbn in X; lra].
  rewrite num_step by lia. destruct gt_dec as [_|X]; [|cbn in X; lra].
  cbn [Z.add Z.opp Pos.add Pos.succ].
  set (sn := 0 + num_term q order c 0 1 + num_term q order c 1 (-1) + num_term q order c 2 1).
  destruct (num_rest f q order c 3 (-1) sn) as (n & En & Bn); [lra|lia|lia|lia|].
  rewrite En. cbn [dbind].
  yes; [|lia]. yes; [|lia].
  rewrite den_step by lia. destruct gt_dec as [_|X]; [|cbn in X; lra].
  rewrite den_step by lia. destruct gt_dec as [_|X]; [|cbn in X; lra].
  rewrite den_step by lia. destruct gt_dec as [_|X]; [|cbn in X; lra].
  cbn [Z.add Z.opp Pos.add Pos.succ].
  set (sd := 0 + den_term q order c 1 (-1) + den_term q order c 2 1 + den_term q order c 3 (-1)).
  destruct (den_rest f q order c 4 1 sd) as (r & Er & Br); [lra|lia|lia|lia|].
  rewrite Er. cbn [dbind].
  assert (Q12 : q ^ Z.to_nat (3 * (3 + 1)) <= / 10 ^ 19 * 0.9).
  { change (Z.to_nat (3 * (3 + 1))) with 12%nat. clear - Hq. destruct Hq. interval with (i_prec 60). }
  assert (Q16 : q ^ Z.to_nat (4 * 4) <= / 10 ^ 19 * 0.9).
  { change (Z.to_nat (4 * 4)) with 16%nat. clear - Hq. destruct Hq. interval with (i_prec 60). }
  assert (P19 : 0 < / 10 ^ 19) by (clear; interval with (i_prec 60)).
  assert (Bn' : Rabs (n - sn) <= / 10 ^ 19) by (pose proof (Rabs_pos (n - sn)); nra).
  assert (Br' : Rabs (r - sd) <= / 10 ^ 19) by (pose proof (Rabs_pos (r - sd)); nra).
  destruct (H n r) as (H1 & H2 & H3).
  { replace (num_term q order c 0 1 + num_term q order c 1 (-1) + num_term q order c 2 1) with sn by (unfold sn; ring). exact Bn'. }
  { replace (den_term q order c 1 (-1) + den_term q order c 2 1 + den_term q order c 3 (-1)) with sd by (unfold sd; ring). exact Br'. }
  unfold need. destruct Rneq_dec as [_|X]; [|lra].
  unfold Rpower. cbv zeta in H2.
  destruct ge_dec as [_|X]; [|lra].
  eexists. split; [reflexivity|]. exact H3.
Qed.

(** ** All coefficients *)
Definition kq2 (k q : R) := 0.5569926413534314372769870 <= k <= 0.5569926413534314372769871 /\ 0.02319664531699615388536709 <= q <= 0.02319664531699615388536710.
Definition kq4 (k q : R) := 0.1102391897792586329501451 <= k <= 0.1102391897792586329501452 /\ 0.0007641948136611722862713926 <= q <= 0.0007641948136611722862713927.
Definition kq8 (k q : R) := 0.02613791476588918288896017 <= k <= 0.02613791476588918288896018 /\ 0.00004271400423023473255632699 <= q <= 0.00004271400423023473255632700.

Lemma kq2_ok : kq2 (tk (9/98)) (tq (9/98)).
Proof. unfold kq2, tq, te, tk, hiir_PI, Rpower. cbv zeta. repeat split; interval with (i_prec 120). Qed.
Lemma kq4_ok : kq4 (tk (29/98)) (tq (29/98)).
Proof. unfold kq4, tq, te, tk, hiir_PI, Rpower. cbv zeta. repeat split; interval with (i_prec 120). Qed.
Lemma kq8_ok : kq8 (tk (39/98)) (tq (39/98)).
Proof. unfold kq8, tq, te, tk, hiir_PI, Rpower. cbv zeta. repeat split; interval with (i_prec 120). Qed.

Ltac lits :=
  repeat match goal with
  | |- context [IZR ?z] => let z' := eval vm_compute in z in tryif constr_eq z z' then fail else (change (IZR z) with (IZR z'))
  | |- context [Z.to_nat ?z] => let z' := eval vm_compute in (Z.to_nat z) in change (Z.to_nat z) with z'
  end.

Lemma near_bounds x N lo hi e : Rabs (x - N) <= e -> lo <= N <= hi -> lo - e <= x <= hi + e.
Proof. unfold Rabs. destruct Rcase_abs; lra. Qed.

Ltac do_coef :=
  match goal with |- exists a, compute_coef _ _ _ _ _ = DOk a /\ near12 a ?d =>
    eapply coef_near; [assumption | lia | lia | lra | lra | | | reflexivity | reflexivity | ] end;
  [ unfold num_term, tiny, hiir_PI; lits; repeat split; interval with (i_prec 120)
  | unfold den_term, tiny, hiir_PI; lits; repeat split; interval with (i_prec 120)
  | unfold num_term, den_term, hiir_PI; unfold dec_val; cbn [dexp dmant]; cbn [Z.leb Z.compare]; lits;
    let n := fresh "n" in let r := fresh "r" in let Hn := fresh in let Hr := fresh in let HN := fresh in let w := fresh "w" in let Hw := fresh in
    intros n r Hn Hr;
    match type of Hn with Rabs (n - ?N) <= _ => interval_intro N with (i_prec 120) as HN; apply (near_bounds _ _ _ _ _ Hn) in HN; clear Hn end;
    match type of Hr with Rabs (r - ?N) <= _ => interval_intro N with (i_prec 120) as Hn; apply (near_bounds _ _ _ _ _ Hr) in Hn; clear Hr end;
    unfold coef_val; cbv zeta;
    match goal with |- context [exp (0.25 * ln ?x)] => interval_intro (exp (0.25 * ln x)) with (i_prec 120) as Hw; set (w := exp (0.25 * ln x)) in *; clearbody w end;
    match goal with |- context [n * w / (r + 0.5)] => interval_intro (n * w / (r + 0.5)) with (i_prec 120) as Hr end;
    split; [interval with (i_prec 100)|];
    let u := fresh "u" in set (u := n * w / (r + 0.5)) in *; clearbody u; clear HN Hn Hw;
    split; interval with (i_prec 100) ].

Lemma coef_cons fuel m c k q order d ds :
  (exists a, compute_coef fuel (c - 1) k q order = DOk a /\ near12 a d) ->
  (exists l, coef_loop fuel m (c + 1 - 1) k q order = DOk l /\ Forall2 near12 l ds) ->
  exists l, coef_loop fuel (S m) (c - 1) k q order = DOk l /\ Forall2 near12 l (d :: ds).
Proof.
  intros (a & Ea & Ha) (l & El & Hl). cbn [coef_loop]. rewrite Ea. cbn [dbind].
  replace (c - 1 + 1)%Z with (c + 1 - 1)%Z by lia. rewrite El. cbn [dbind]. eexists. split; [reflexivity|]. now constructor.
Qed.
Lemma coef_nil fuel c k q order : exists l, coef_loop fuel 0 c k q order = DOk l /\ Forall2 near12 l [].
Proof. eexists. split; [reflexivity|constructor]. Qed.

Ltac do_list :=
  match goal with |- exists l, coef_loop _ ?n _ _ _ _ = DOk l /\ _ =>
    let n' := eval vm_compute in n in change n with n' end;
  match goal with |- exists l, coef_loop _ _ ?c _ _ _ = DOk l /\ Forall2 _ _ ?t =>
    change c with (c + 1 - 1)%Z; let t' := eval hnf in t in change t with t' end;
  repeat first [apply coef_nil | apply coef_cons; [cbn [Z.add Pos.add Pos.succ]; do_coef|] ].
Lemma list2_8 fuel k q : (23 <= fuel)%nat -> kq2 k q -> exists l, coef_loop fuel (Z.to_nat 3) 0 k q (3 * 2 + 1) = DOk l /\ Forall2 near12 l iir_coeffs2_8.
Proof. intros Hf [Hk Hq]. do_list. Qed.
Lemma list2_12 fuel k q : (23 <= fuel)%nat -> kq2 k q -> exists l, coef_loop fuel (Z.to_nat 5) 0 k q (5 * 2 + 1) = DOk l /\ Forall2 near12 l iir_coeffs2_12.
Proof. intros Hf [Hk Hq]. do_list. Qed.
Lemma list2_16 fuel k q : (23 <= fuel)%nat -> kq2 k q -> exists l, coef_loop fuel (Z.to_nat 6) 0 k q (6 * 2 + 1) = DOk l /\ Forall2 near12 l iir_coeffs2_16.
Proof. intros Hf [Hk Hq]. do_list. Qed.
Lemma list2_20 fuel k q : (23 <= fuel)%nat -> kq2 k q -> exists l, coef_loop fuel (Z.to_nat 8) 0 k q (8 * 2 + 1) = DOk l /\ Forall2 near12 l iir_coeffs2_20.
Proof. intros Hf [Hk Hq]. do_list. Qed.
Lemma list2_24 fuel k q : (23 <= fuel)%nat -> kq2 k q -> exists l, coef_loop fuel (Z.to_nat 9) 0 k q (9 * 2 + 1) = DOk l /\ Forall2 near12 l iir_coeffs2_24.
Proof. intros Hf [Hk Hq]. do_list. Qed.
Lemma list4_8 fuel k q : (23 <= fuel)%nat -> kq4 k q -> exists l, coef_loop fuel (Z.to_nat 2) 0 k q (2 * 2 + 1) = DOk l /\ Forall2 near12 l iir_coeffs4_8.
Proof. intros Hf [Hk Hq]. do_list. Qed.
Lemma list4_12 fuel k q : (23 <= fuel)%nat -> kq4 k q -> exists l, coef_loop fuel (Z.to_nat 3) 0 k q (3 * 2 + 1) = DOk l /\ Forall2 near12 l iir_coeffs4_12.
Proof. intros Hf [Hk Hq]. do_list. Qed.
Lemma list4_16 fuel k q : (23 <= fuel)%nat -> kq4 k q -> exists l, coef_loop fuel (Z.to_nat 3) 0 k q (3 * 2 + 1) = DOk l /\ Forall2 near12 l iir_coeffs4_16.
Proof. intros Hf [Hk Hq]. do_list. Qed.
Lemma list4_20 fuel k q : (23 <= fuel)%nat -> kq4 k q -> exists l, coef_loop fuel (Z.to_nat 4) 0 k q (4 * 2 + 1) = DOk l /\ Forall2 near12 l iir_coeffs4_20.
Proof. intros Hf [Hk Hq]. do_list. Qed.
Lemma list4_24 fuel k q : (23 <= fuel)%nat -> kq4 k q -> exists l, coef_loop fuel (Z.to_nat 5) 0 k q (5 * 2 + 1) = DOk l /\ Forall2 near12 l iir_coeffs4_24.
Proof. intros Hf [Hk Hq]. do_list. Qed.
Lemma list8_8 fuel k q : (23 <= fuel)%nat -> kq8 k q -> exists l, coef_loop fuel (Z.to_nat 1) 0 k q (1 * 2 + 1) = DOk l /\ Forall2 near12 l iir_coeffs8_8.
Proof. intros Hf [Hk Hq]. do_list. Qed.
Lemma list8_12 fuel k q : (23 <= fuel)%nat -> kq8 k q -> exists l, coef_loop fuel (Z.to_nat 2) 0 k q (2 * 2 + 1) = DOk l /\ Forall2 near12 l iir_coeffs8_12.
Proof. intros Hf [Hk Hq]. do_list. Qed.
Lemma list8_16 fuel k q : (23 <= fuel)%nat -> kq8 k q -> exists l, coef_loop fuel (Z.to_nat 2) 0 k q (2 * 2 + 1) = DOk l /\ Forall2 near12 l iir_coeffs8_16.
Proof. intros Hf [Hk Hq]. do_list. Qed.
Lemma list8_20 fuel k q : (23 <= fuel)%nat -> kq8 k q -> exists l, coef_loop fuel (Z.to_nat 3) 0 k q (3 * 2 + 1) = DOk l /\ Forall2 near12 l iir_coeffs8_20.
Proof. intros Hf [Hk Hq]. do_list. Qed.
Lemma list8_24 fuel k q : (23 <= fuel)%nat -> kq8 k q -> exists l, coef_loop fuel (Z.to_nat 3) 0 k q (3 * 2 + 1) = DOk l /\ Forall2 near12 l iir_coeffs8_24.
Proof. intros Hf [Hk Hq]. do_list. Qed.

(** ** The whole program *)
Definition gd_sum (stage : Z) (l : list R) : R :=
  sum_list (map (fun a => gd1 a (2 * hiir_PI * (1000 / (44100 * IZR stage))) false) (evens l)).

Lemma near_range l t : Forall2 near12 l t -> List.forallb (fun d => (0 <? dmant d)%Z && (dexp d <? 0)%Z && (dmant d * 1000 <? 10 ^ (- dexp d) * 999)%Z && (10 ^ (- dexp d) <? dmant d * 1000)%Z) t = true ->
  Forall (fun a => 0 <= a <= 1) l.
Proof.
  intros H B. induction H as [|a d l t Hd _ IH]; [constructor|].
  cbn [forallb] in B. apply andb_prop in B. destruct B as [Bd Bt]. constructor; [|now apply IH].
  apply andb_prop in Bd. destruct Bd as [Bd B4]. apply andb_prop in Bd. destruct Bd as [Bd B3]. apply andb_prop in Bd. destruct Bd as [B1 B2].
  apply Z.ltb_lt in B1, B2, B3, B4. unfold near12, dec_val in Hd. destruct (Z.leb_spec 0 (dexp d)); [lia|].
  apply IZR_lt in B3, B4. rewrite mult_IZR in B4. rewrite 2 mult_IZR in B3.
  assert (P : 0 < IZR (10 ^ (- dexp d))) by (apply (IZR_lt 0), Z.pow_pos_nonneg; lia).
  set (x := IZR (dmant d)) in *. set (y := IZR (10 ^ (- dexp d))) in *.
  assert (/ 10 ^ 12 <= 0.001) by (clear; interval with (i_prec 60)).
  assert (0.001 < x / y < 0.999).
  { assert (Ex : x = x / y * y) by (field; now apply Rgt_not_eq). set (z := x / y) in *. clearbody z; clear - P B3 B4 Ex; split; nra. }
  revert Hd. unfold Rabs. destruct Rcase_abs; lra.
Qed.

(** every list of values near the literals has the group delay of the literal *)
Definition gd_fits (stage : Z) (t : list dec) (gd : dec) : Prop :=
  forall l, Forall2 near12 l t -> Forall (fun a => 0 <= a <= 1) l /\ Rabs (gd_sum stage l - dec_val gd) <= 0.00000051.

Lemma mkiir_of fuel bits stage n t tbw gd :
  (IZR (Z.quot (44100 * stage) 2) / 2 - 18000) / IZR (Z.quot (44100 * stage) 2) = tbw -> 0 < tbw < 0.5 ->
  compute_nbr_coefs_from_proto (IZR (bits * 6)) tbw = DOk (Z.of_nat n) -> (0 < n)%nat -> List.length t = n -> (1 <= stage)%Z ->
  (exists l, coef_loop fuel (Z.to_nat (Z.of_nat n)) 0 (tk tbw) (tq tbw) (Z.of_nat n * 2 + 1) = DOk l /\ Forall2 near12 l t) ->
  List.forallb (fun d => (0 <? dmant d)%Z && (dexp d <? 0)%Z && (dmant d * 1000 <? 10 ^ (- dexp d) * 999)%Z && (10 ^ (- dexp d) <? dmant d * 1000)%Z) t = true ->
  (forall l, Forall2 near12 l t -> Rabs (gd_sum stage l - dec_val gd) <= 0.00000051) ->
  exists l g, mkiir fuel bits stage = DOk (Z.of_nat (List.length t), l, g) /\ Forall2 near12 l t /\ Rabs (g - dec_val gd) <= 0.00000051 /\
  gd_fits stage t gd.
Proof.
  intros Et Ht En Hn Hl Hs (l & El & Nl) B Hg. exists l, (gd_sum stage l). split; [|split; [exact Nl|split; [now apply Hg|]]].
  2:{ intros l' Nl'. split; [now apply (near_range l' t)|now apply Hg]. }
  unfold mkiir. cbv zeta. rewrite Et, En. cbn [dbind].
  unfold compute_coefs_spec_order_tbw. yes; [|lia]. yes; [|lra]. yes; [|lra]. rewrite transition_ok by assumption. cbn [dbind].
  rewrite El. cbn [dbind]. unfold mk_group_delay.
  assert (L : List.length l = n) by (rewrite <- Hl; clear - Nl; induction Nl; cbn; congruence).
  rewrite <- L at 1. rewrite group_delay_ok; [|lia| |now apply (near_range l t)].
  - cbn [dbind]. now rewrite Hl.
  - apply IZR_le in Hs. set (s := IZR stage) in *. assert (Es : 1000 / (44100 * s) * (44100 * s) = 1000) by (field; lra).
    set (z := 1000 / (44100 * s)) in *. split; nra.
Qed.

Lemma Rabs_le_between x y e : Rabs (x - y) <= e -> y - e <= x <= y + e.
Proof. unfold Rabs. destruct Rcase_abs; lra. Qed.

Ltac do_gd :=
  let l := fresh "l" in let H := fresh in
  intros l H;
  repeat match goal with H : Forall2 near12 _ (_ :: _) |- _ => inversion H; clear H; subst end;
  match goal with H : Forall2 near12 _ [] |- _ => inversion H; clear H; subst end;
  unfold gd_sum, gd1, dec_val, hiir_PI; cbn [evens map sum_list dexp dmant]; cbn [Z.leb Z.compare]; lits;
  repeat match goal with H : near12 ?a ?d |- _ => unfold near12, dec_val in H; cbn [dexp dmant] in H; cbn [Z.leb Z.compare] in H;
    repeat match type of H with context [IZR ?z] => let z' := eval vm_compute in z in tryif constr_eq z z' then fail else (change (IZR z) with (IZR z') in H) end;
    apply Rabs_le_between in H end;
  interval with (i_prec 60).


Lemma mkiir2_8 fuel : (23 <= fuel)%nat -> exists t gd l g, iir_table 2 8 = Some (t, gd) /\
  mkiir fuel 8 2 = DOk (Z.of_nat (List.length t), l, g) /\ Forall2 near12 l t /\ Rabs (g - dec_val gd) <= 0.00000051 /\ gd_fits 2 t gd.
Proof.
  intros Hf. eexists. eexists. enough (E : exists l g, mkiir fuel 8 2 = DOk (Z.of_nat (List.length iir_coeffs2_8), l, g) /\ Forall2 near12 l iir_coeffs2_8 /\
    Rabs (g - dec_val (match iir_table 2 8 with Some (_, x) => x | None => Dec 0 0 end)) <= 0.00000051 /\ gd_fits 2 iir_coeffs2_8 (match iir_table 2 8 with Some (_, x) => x | None => Dec 0 0 end)).
  { destruct E as (l & g & E). exists l, g. split; [reflexivity|exact E]. }
  apply (mkiir_of fuel 8 2 3 iir_coeffs2_8 (9/98)); try reflexivity; try lia; try lra.
  - change (Z.quot (44100 * 2) 2) with 44100%Z. lra.
  - apply nbr_coefs_is; [cbn; lra|lra|lia|]. destruct kq2_ok as [_ Hq]. set (q := tq (9/98)) in *. clearbody q.
    unfold order_bound, Rpower. left. lits. split; interval with (i_prec 60).
  - apply list2_8; [exact Hf|exact kq2_ok].
  - cbn [iir_table Z.eqb Pos.eqb andb]. unfold iir_coeffs2_8. do_gd.
Qed.

Lemma mkiir2_12 fuel : (23 <= fuel)%nat -> exists t gd l g, iir_table 2 12 = Some (t, gd) /\
  mkiir fuel 12 2 = DOk (Z.of_nat (List.length t), l, g) /\ Forall2 near12 l t /\ Rabs (g - dec_val gd) <= 0.00000051 /\ gd_fits 2 t gd.
Proof.
  intros Hf. eexists. eexists. enough (E : exists l g, mkiir fuel 12 2 = DOk (Z.of_nat (List.length iir_coeffs2_12), l, g) /\ Forall2 near12 l iir_coeffs2_12 /\
    Rabs (g - dec_val (match iir_table 2 12 with Some (_, x) => x | None => Dec 0 0 end)) <= 0.00000051 /\ gd_fits 2 iir_coeffs2_12 (match iir_table 2 12 with Some (_, x) => x | None => Dec 0 0 end)).
  { destruct E as (l & g & E). exists l, g. split; [reflexivity|exact E]. }
  apply (mkiir_of fuel 12 2 5 iir_coeffs2_12 (9/98)); try reflexivity; try lia; try lra.
  - change (Z.quot (44100 * 2) 2) with 44100%Z. lra.
  - apply nbr_coefs_is; [cbn; lra|lra|lia|]. destruct kq2_ok as [_ Hq]. set (q := tq (9/98)) in *. clearbody q.
    unfold order_bound, Rpower. left. lits. split; interval with (i_prec 60).
  - apply list2_12; [exact Hf|exact kq2_ok].
  - cbn [iir_table Z.eqb Pos.eqb andb]. unfold iir_coeffs2_12. do_gd.
Qed.

Lemma mkiir2_16 fuel : (23 <= fuel)%nat -> exists t gd l g, iir_table 2 16 = Some (t, gd) /\
  mkiir fuel 16 2 = DOk (Z.of_nat (List.length t), l, g) /\ Forall2 near12 l t /\ Rabs (g - dec_val gd) <= 0.00000051 /\ gd_fits 2 t gd.
Proof.
  intros Hf. eexists. eexists. enough (E : exists l g, mkiir fuel 16 2 = DOk (Z.of_nat (List.length iir_coeffs2_16), l, g) /\ Forall2 near12 l iir_coeffs2_16 /\
    Rabs (g - dec_val (match iir_table 2 16 with Some (_, x) => x | None => Dec 0 0 end)) <= 0.00000051 /\ gd_fits 2 iir_coeffs2_16 (match iir_table 2 16 with Some (_, x) => x | None => Dec 0 0 end)).
  { destruct E as (l & g & E). exists l, g. split; [reflexivity|exact E]. }
  apply (mkiir_of fuel 16 2 6 iir_coeffs2_16 (9/98)); try reflexivity; try lia; try lra.
  - change (Z.quot (44100 * 2) 2) with 44100%Z. lra.
  - apply nbr_coefs_is; [cbn; lra|lra|lia|]. destruct kq2_ok as [_ Hq]. set (q := tq (9/98)) in *. clearbody q.
    unfold order_bound, Rpower. left. lits. split; interval with (i_prec 60).
  - apply list2_16; [exact Hf|exact kq2_ok].
  - cbn [iir_table Z.eqb Pos.eqb andb]. unfold iir_coeffs2_16. do_gd.
Qed.

Lemma mkiir2_20 fuel : (23 <= fuel)%nat -> exists t gd l g, iir_table 2 20 = Some (t, gd) /\
  mkiir fuel 20 2 = DOk (Z.of_nat (List.length t), l, g) /\ Forall2 near12 l t /\ Rabs (g - dec_val gd) <= 0.00000051 /\ gd_fits 2 t gd.
Proof.
  intros Hf. eexists. eexists. enough (E : exists l g, mkiir fuel 20 2 = DOk (Z.of_nat (List.length iir_coeffs2_20), l, g) /\ Forall2 near12 l iir_coeffs2_20 /\
    Rabs (g - dec_val (match iir_table 2 20 with Some (_, x) => x | None => Dec 0 0 end)) <= 0.00000051 /\ gd_fits 2 iir_coeffs2_20 (match iir_table 2 20 with Some (_, x) => x | None => Dec 0 0 end)).
  { destruct E as (l & g & E). exists l, g. split; [reflexivity|exact E]. }
  apply (mkiir_of fuel 20 2 8 iir_coeffs2_20 (9/98)); try reflexivity; try lia; try lra.
  - change (Z.quot (44100 * 2) 2) with 44100%Z. lra.
  - apply nbr_coefs_is; [cbn; lra|lra|lia|]. destruct kq2_ok as [_ Hq]. set (q := tq (9/98)) in *. clearbody q.
    unfold order_bound, Rpower. left. lits. split; interval with (i_prec 60).
  - apply list2_20; [exact Hf|exact kq2_ok].
  - cbn [iir_table Z.eqb Pos.eqb andb]. unfold iir_coeffs2_20. do_gd.
Qed.

Lemma mkiir2_24 fuel : (23 <= fuel)%nat -> exists t gd l g, iir_table 2 24 = Some (t, gd) /\
  mkiir fuel 24 2 = DOk (Z.of_nat (List.length t), l, g) /\ Forall2 near12 l t /\ Rabs (g - dec_val gd) <= 0.00000051 /\ gd_fits 2 t gd.
Proof.
  intros Hf. eexists. eexists. enough (E : exists l g, mkiir fuel 24 2 = DOk (Z.of_nat (List.length iir_coeffs2_24), l, g) /\ Forall2 near12 l iir_coeffs2_24 /\
    Rabs (g - dec_val (match iir_table 2 24 with Some (_, x) => x | None => Dec 0 0 end)) <= 0.00000051 /\ gd_fits 2 iir_coeffs2_24 (match iir_table 2 24 with Some (_, x) => x | None => Dec 0 0 end)).
  { destruct E as (l & g & E). exists l, g. split; [reflexivity|exact E]. }
  apply (mkiir_of fuel 24 2 9 iir_coeffs2_24 (9/98)); try reflexivity; try lia; try lra.
  - change (Z.quot (44100 * 2) 2) with 44100%Z. lra.
  - apply nbr_coefs_is; [cbn; lra|lra|lia|]. destruct kq2_ok as [_ Hq]. set (q := tq (9/98)) in *. clearbody q.
    unfold order_bound, Rpower. left. lits. split; interval with (i_prec 60).
  - apply list2_24; [exact Hf|exact kq2_ok].
  - cbn [iir_table Z.eqb Pos.eqb andb]. unfold iir_coeffs2_24. do_gd.
Qed.

Lemma mkiir4_8 fuel : (23 <= fuel)%nat -> exists t gd l g, iir_table 4 8 = Some (t, gd) /\
  mkiir fuel 8 4 = DOk (Z.of_nat (List.length t), l, g) /\ Forall2 near12 l t /\ Rabs (g - dec_val gd) <= 0.00000051 /\ gd_fits 4 t gd.
Proof.
  intros Hf. eexists. eexists. enough (E : exists l g, mkiir fuel 8 4 = DOk (Z.of_nat (List.length iir_coeffs4_8), l, g) /\ Forall2 near12 l iir_coeffs4_8 /\
    Rabs (g - dec_val (match iir_table 4 8 with Some (_, x) => x | None => Dec 0 0 end)) <= 0.00000051 /\ gd_fits 4 iir_coeffs4_8 (match iir_table 4 8 with Some (_, x) => x | None => Dec 0 0 end)).
  { destruct E as (l & g & E). exists l, g. split; [reflexivity|exact E]. }
  apply (mkiir_of fuel 8 4 2 iir_coeffs4_8 (29/98)); try reflexivity; try lia; try lra.
  - change (Z.quot (44100 * 4) 2) with 88200%Z. lra.
  - apply nbr_coefs_is; [cbn; lra|lra|lia|]. destruct kq4_ok as [_ Hq]. set (q := tq (29/98)) in *. clearbody q.
    unfold order_bound, Rpower. left. lits. split; interval with (i_prec 60).
  - apply list4_8; [exact Hf|exact kq4_ok].
  - cbn [iir_table Z.eqb Pos.eqb andb]. unfold iir_coeffs4_8. do_gd.
Qed.

Lemma mkiir4_12 fuel : (23 <= fuel)%nat -> exists t gd l g, iir_table 4 12 = Some (t, gd) /\
  mkiir fuel 12 4 = DOk (Z.of_nat (List.length t), l, g) /\ Forall2 near12 l t /\ Rabs (g - dec_val gd) <= 0.00000051 /\ gd_fits 4 t gd.
Proof.
  intros Hf. eexists. eexists. enough (E : exists l g, mkiir fuel 12 4 = DOk (Z.of_nat (List.length iir_coeffs4_12), l, g) /\ Forall2 near12 l iir_coeffs4_12 /\
    Rabs (g - dec_val (match iir_table 4 12 with Some (_, x) => x | None => Dec 0 0 end)) <= 0.00000051 /\ gd_fits 4 iir_coeffs4_12 (match iir_table 4 12 with Some (_, x) => x | None => Dec 0 0 end)).
  { destruct E as (l & g & E). exists l, g. split; [reflexivity|exact E]. }
  apply (mkiir_of fuel 12 4 3 iir_coeffs4_12 (29/98)); try reflexivity; try lia; try lra.
  - change (Z.quot (44100 * 4) 2) with 88200%Z. lra.
  - apply nbr_coefs_is; [cbn; lra|lra|lia|]. destruct kq4_ok as [_ Hq]. set (q := tq (29/98)) in *. clearbody q.
    unfold order_bound, Rpower. left. lits. split; interval with (i_prec 60).
  - apply list4_12; [exact Hf|exact kq4_ok].
  - cbn [iir_table Z.eqb Pos.eqb andb]. unfold iir_coeffs4_12. do_gd.
Qed.

Lemma mkiir4_16 fuel : (23 <= fuel)%nat -> exists t gd l g, iir_table 4 16 = Some (t, gd) /\
  mkiir fuel 16 4 = DOk (Z.of_nat (List.length t), l, g) /\ Forall2 near12 l t /\ Rabs (g - dec_val gd) <= 0.00000051 /\ gd_fits 4 t gd.
Proof.
  intros Hf. eexists. eexists. enough (E : exists l g, mkiir fuel 16 4 = DOk (Z.of_nat (List.length iir_coeffs4_16), l, g) /\ Forall2 near12 l iir_coeffs4_16 /\
    Rabs (g - dec_val (match iir_table 4 16 with Some (_, x) => x | None => Dec 0 0 end)) <= 0.00000051 /\ gd_fits 4 iir_coeffs4_16 (match iir_table 4 16 with Some (_, x) => x | None => Dec 0 0 end)).
  { destruct E as (l & g & E). exists l, g. split; [reflexivity|exact E]. }
  apply (mkiir_of fuel 16 4 3 iir_coeffs4_16 (29/98)); try reflexivity; try lia; try lra.
  - change (Z.quot (44100 * 4) 2) with 88200%Z. lra.
  - apply nbr_coefs_is; [cbn; lra|lra|lia|]. destruct kq4_ok as [_ Hq]. set (q := tq (29/98)) in *. clearbody q.
    unfold order_bound, Rpower. left. lits. split; interval with (i_prec 60).
  - apply list4_16; [exact Hf|exact kq4_ok].
  - cbn [iir_table Z.eqb Pos.eqb andb]. unfold iir_coeffs4_16. do_gd.
Qed.

Lemma mkiir4_20 fuel : (23 <= fuel)%nat -> exists t gd l g, iir_table 4 20 = Some (t, gd) /\
  mkiir fuel 20 4 = DOk (Z.of_nat (List.length t), l, g) /\ Forall2 near12 l t /\ Rabs (g - dec_val gd) <= 0.00000051 /\ gd_fits 4 t gd.
Proof.
  intros Hf. eexists. eexists. enough (E : exists l g, mkiir fuel 20 4 = DOk (Z.of_nat (List.length iir_coeffs4_20), l, g) /\ Forall2 near12 l iir_coeffs4_20 /\
    Rabs (g - dec_val (match iir_table 4 20 with Some (_, x) => x | None => Dec 0 0 end)) <= 0.00000051 /\ gd_fits 4 iir_coeffs4_20 (match iir_table 4 20 with Some (_, x) => x | None => Dec 0 0 end)).
  { destruct E as (l & g & E). exists l, g. split; [reflexivity|exact E]. }
  apply (mkiir_of fuel 20 4 4 iir_coeffs4_20 (29/98)); try reflexivity; try lia; try lra.
  - change (Z.quot (44100 * 4) 2) with 88200%Z. lra.
  - apply nbr_coefs_is; [cbn; lra|lra|lia|]. destruct kq4_ok as [_ Hq]. set (q := tq (29/98)) in *. clearbody q.
    unfold order_bound, Rpower. left. lits. split; interval with (i_prec 60).
  - apply list4_20; [exact Hf|exact kq4_ok].
  - cbn [iir_table Z.eqb Pos.eqb andb]. unfold iir_coeffs4_20. do_gd.
Qed.

Lemma mkiir4_24 fuel : (23 <= fuel)%nat -> exists t gd l g, iir_table 4 24 = Some (t, gd) /\
  mkiir fuel 24 4 = DOk (Z.of_nat (List.length t), l, g) /\ Forall2 near12 l t /\ Rabs (g - dec_val gd) <= 0.00000051 /\ gd_fits 4 t gd.
Proof.
  intros Hf. eexists. eexists. enough (E : exists l g, mkiir fuel 24 4 = DOk (Z.of_nat (List.length iir_coeffs4_24), l, g) /\ Forall2 near12 l iir_coeffs4_24 /\
    Rabs (g - dec_val (match iir_table 4 24 with Some (_, x) => x | None => Dec 0 0 end)) <= 0.00000051 /\ gd_fits 4 iir_coeffs4_24 (match iir_table 4 24 with Some (_, x) => x | None => Dec 0 0 end)).
  { destruct E as (l & g & E). exists l, g. split; [reflexivity|exact E]. }
  apply (mkiir_of fuel 24 4 5 iir_coeffs4_24 (29/98)); try reflexivity; try lia; try lra.
  - change (Z.quot (44100 * 4) 2) with 88200%Z. lra.
  - apply nbr_coefs_is; [cbn; lra|lra|lia|]. destruct kq4_ok as [_ Hq]. set (q := tq (29/98)) in *. clearbody q.
    unfold order_bound, Rpower. left. lits. split; interval with (i_prec 60).
  - apply list4_24; [exact Hf|exact kq4_ok].
  - cbn [iir_table Z.eqb Pos.eqb andb]. unfold iir_coeffs4_24. do_gd.
Qed.

Lemma mkiir8_8 fuel : (23 <= fuel)%nat -> exists t gd l g, iir_table 8 8 = Some (t, gd) /\
  mkiir fuel 8 8 = DOk (Z.of_nat (List.length t), l, g) /\ Forall2 near12 l t /\ Rabs (g - dec_val gd) <= 0.00000051 /\ gd_fits 8 t gd.
Proof.
  intros Hf. eexists. eexists. enough (E : exists l g, mkiir fuel 8 8 = DOk (Z.of_nat (List.length iir_coeffs8_8), l, g) /\ Forall2 near12 l iir_coeffs8_8 /\
    Rabs (g - dec_val (match iir_table 8 8 with Some (_, x) => x | None => Dec 0 0 end)) <= 0.00000051 /\ gd_fits 8 iir_coeffs8_8 (match iir_table 8 8 with Some (_, x) => x | None => Dec 0 0 end)).
  { destruct E as (l & g & E). exists l, g. split; [reflexivity|exact E]. }
  apply (mkiir_of fuel 8 8 1 iir_coeffs8_8 (39/98)); try reflexivity; try lia; try lra.
  - change (Z.quot (44100 * 8) 2) with 176400%Z. lra.
  - apply nbr_coefs_is; [cbn; lra|lra|lia|]. destruct kq8_ok as [_ Hq]. set (q := tq (39/98)) in *. clearbody q.
    unfold order_bound, Rpower. right; split; [reflexivity|]. lits. split; interval with (i_prec 60).
  - apply list8_8; [exact Hf|exact kq8_ok].
  - cbn [iir_table Z.eqb Pos.eqb andb]. unfold iir_coeffs8_8. do_gd.
Qed.

Lemma mkiir8_12 fuel : (23 <= fuel)%nat -> exists t gd l g, iir_table 8 12 = Some (t, gd) /\
  mkiir fuel 12 8 = DOk (Z.of_nat (List.length t), l, g) /\ Forall2 near12 l t /\ Rabs (g - dec_val gd) <= 0.00000051 /\ gd_fits 8 t gd.
Proof.
  intros Hf. eexists. eexists. enough (E : exists l g, mkiir fuel 12 8 = DOk (Z.of_nat (List.length iir_coeffs8_12), l, g) /\ Forall2 near12 l iir_coeffs8_12 /\
    Rabs (g - dec_val (match iir_table 8 12 with Some (_, x) => x | None => Dec 0 0 end)) <= 0.00000051 /\ gd_fits 8 iir_coeffs8_12 (match iir_table 8 12 with Some (_, x) => x | None => Dec 0 0 end)).
  { destruct E as (l & g & E). exists l, g. split; [reflexivity|exact E]. }
  apply (mkiir_of fuel 12 8 2 iir_coeffs8_12 (39/98)); try reflexivity; try lia; try lra.
  - change (Z.quot (44100 * 8) 2) with 176400%Z. lra.
  - apply nbr_coefs_is; [cbn; lra|lra|lia|]. destruct kq8_ok as [_ Hq]. set (q := tq (39/98)) in *. clearbody q.
    unfold order_bound, Rpower. left. lits. split; interval with (i_prec 60).
  - apply list8_12; [exact Hf|exact kq8_ok].
  - cbn [iir_table Z.eqb Pos.eqb andb]. unfold iir_coeffs8_12. do_gd.
Qed.

Lemma mkiir8_16 fuel : (23 <= fuel)%nat -> exists t gd l g, iir_table 8 16 = Some (t, gd) /\
  mkiir fuel 16 8 = DOk (Z.of_nat (List.length t), l, g) /\ Forall2 near12 l t /\ Rabs (g - dec_val gd) <= 0.00000051 /\ gd_fits 8 t gd.
Proof.
  intros Hf. eexists. eexists. enough (E : exists l g, mkiir fuel 16 8 = DOk (Z.of_nat (List.length iir_coeffs8_16), l, g) /\ Forall2 near12 l iir_coeffs8_16 /\
    Rabs (g - dec_val (match iir_table 8 16 with Some (_, x) => x | None => Dec 0 0 end)) <= 0.00000051 /\ gd_fits 8 iir_coeffs8_16 (match iir_table 8 16 with Some (_, x) => x | None => Dec 0 0 end)).
  { destruct E as (l & g & E). exists l, g. split; [reflexivity|exact E]. }
  apply (mkiir_of fuel 16 8 2 iir_coeffs8_16 (39/98)); try reflexivity; try lia; try lra.
  - change (Z.quot (44100 * 8) 2) with 176400%Z. lra.
  - apply nbr_coefs_is; [cbn; lra|lra|lia|]. destruct kq8_ok as [_ Hq]. set (q := tq (39/98)) in *. clearbody q.
    unfold order_bound, Rpower. left. lits. split; interval with (i_prec 60).
  - apply list8_16; [exact Hf|exact kq8_ok].
  - cbn [iir_table Z.eqb Pos.eqb andb]. unfold iir_coeffs8_16. do_gd.
Qed.

Lemma mkiir8_20 fuel : (23 <= fuel)%nat -> exists t gd l g, iir_table 8 20 = Some (t, gd) /\
  mkiir fuel 20 8 = DOk (Z.of_nat (List.length t), l, g) /\ Forall2 near12 l t /\ Rabs (g - dec_val gd) <= 0.00000051 /\ gd_fits 8 t gd.
Proof.
  intros Hf. eexists. eexists. enough (E : exists l g, mkiir fuel 20 8 = DOk (Z.of_nat (List.length iir_coeffs8_20), l, g) /\ Forall2 near12 l iir_coeffs8_20 /\
    Rabs (g - dec_val (match iir_table 8 20 with Some (_, x) => x | None => Dec 0 0 end)) <= 0.00000051 /\ gd_fits 8 iir_coeffs8_20 (match iir_table 8 20 with Some (_, x) => x | None => Dec 0 0 end)).
  { destruct E as (l & g & E). exists l, g. split; [reflexivity|exact E]. }
  apply (mkiir_of fuel 20 8 3 iir_coeffs8_20 (39/98)); try reflexivity; try lia; try lra.
  - change (Z.quot (44100 * 8) 2) with 176400%Z. lra.
  - apply nbr_coefs_is; [cbn; lra|lra|lia|]. destruct kq8_ok as [_ Hq]. set (q := tq (39/98)) in *. clearbody q.
    unfold order_bound, Rpower. left. lits. split; interval with (i_prec 60).
  - apply list8_20; [exact Hf|exact kq8_ok].
  - cbn [iir_table Z.eqb Pos.eqb andb]. unfold iir_coeffs8_20. do_gd.
Qed.

Lemma mkiir8_24 fuel : (23 <= fuel)%nat -> exists t gd l g, iir_table 8 24 = Some (t, gd) /\
  mkiir fuel 24 8 = DOk (Z.of_nat (List.length t), l, g) /\ Forall2 near12 l t /\ Rabs (g - dec_val gd) <= 0.00000051 /\ gd_fits 8 t gd.
Proof.
  intros Hf. eexists. eexists. enough (E : exists l g, mkiir fuel 24 8 = DOk (Z.of_nat (List.length iir_coeffs8_24), l, g) /\ Forall2 near12 l iir_coeffs8_24 /\
    Rabs (g - dec_val (match iir_table 8 24 with Some (_, x) => x | None => Dec 0 0 end)) <= 0.00000051 /\ gd_fits 8 iir_coeffs8_24 (match iir_table 8 24 with Some (_, x) => x | None => Dec 0 0 end)).
  { destruct E as (l & g & E). exists l, g. split; [reflexivity|exact E]. }
  apply (mkiir_of fuel 24 8 3 iir_coeffs8_24 (39/98)); try reflexivity; try lia; try lra.
  - change (Z.quot (44100 * 8) 2) with 176400%Z. lra.
  - apply nbr_coefs_is; [cbn; lra|lra|lia|]. destruct kq8_ok as [_ Hq]. set (q := tq (39/98)) in *. clearbody q.
    unfold order_bound, Rpower. left. lits. split; interval with (i_prec 60).
  - apply list8_24; [exact Hf|exact kq8_ok].
  - cbn [iir_table Z.eqb Pos.eqb andb]. unfold iir_coeffs8_24. do_gd.
Qed.

Lemma mkiir_ok fuel bits stage : (23 <= fuel)%nat -> In bits [8; 12; 16; 20; 24]%Z -> In stage [2; 4; 8]%Z ->
  exists t gd l g, iir_table stage bits = Some (t, gd) /\
  mkiir fuel bits stage = DOk (Z.of_nat (List.length t), l, g) /\ Forall2 near12 l t /\ Rabs (g - dec_val gd) <= 0.00000051 /\ gd_fits stage t gd.
Proof.
  intros Hf Hb Hs. cbn [In] in Hb, Hs.
  destruct Hb as [<-|[<-|[<-|[<-|[<-|[]]]]]]; destruct Hs as [<-|[<-|[<-|[]]]];
  [ now apply mkiir2_8 | now apply mkiir4_8 | now apply mkiir8_8 | now apply mkiir2_12 | now apply mkiir4_12 | now apply mkiir8_12 | now apply mkiir2_16 | now apply mkiir4_16 | now apply mkiir8_16 | now apply mkiir2_20 | now apply mkiir4_20 | now apply mkiir8_20 | now apply mkiir2_24 | now apply mkiir4_24 | now apply mkiir8_24 ].
Qed.
