(** * Intervals of fixed point numbers, with primitive integers

    An interval is a pair of integers, in units of 2^-K. *)
From Coq Require Import ZArith Reals List Lia Lra Bool.
From Bignums Require Import BigZ.
Import ListNotations.
Open Scope R_scope.

Definition K : Z := 448.
Definition unit_ : R := IZR (2 ^ K).
Lemma unit_pos : 0 < unit_.
Proof. apply IZR_lt. reflexivity. Qed.
Global Opaque unit_.

Notation toZ := BigZ.to_Z.
Definition ival := (bigZ * bigZ)%type.
Definition inside (i : ival) (v : R) : Prop := IZR (toZ (fst i)) <= v * unit_ <= IZR (toZ (snd i)).

Definition izero : ival := (0%bigZ, 0%bigZ).
Lemma izero_ok : inside izero 0.
Proof. unfold inside. cbn. lra. Qed.

Definition iadd (a b : ival) : ival := (BigZ.add (fst a) (fst b), BigZ.add (snd a) (snd b)).
Lemma iadd_ok a b u v : inside a u -> inside b v -> inside (iadd a b) (u + v).
Proof. unfold inside, iadd. cbn [fst snd]. rewrite !BigZ.spec_add, !plus_IZR. lra. Qed.

Definition isub (a b : ival) : ival := (BigZ.sub (fst a) (snd b), BigZ.sub (snd a) (fst b)).
Lemma isub_ok a b u v : inside a u -> inside b v -> inside (isub a b) (u - v).
Proof. unfold inside, isub. cbn [fst snd]. rewrite !BigZ.spec_sub, !minus_IZR. lra. Qed.

Definition ineg (a : ival) : ival := (BigZ.opp (snd a), BigZ.opp (fst a)).
Lemma ineg_ok a u : inside a u -> inside (ineg a) (- u).
Proof. unfold inside, ineg. cbn [fst snd]. rewrite !BigZ.spec_opp, !opp_IZR. lra. Qed.

(** times an integer that is not negative *)
Definition itimes (p : bigZ) (a : ival) : ival := (BigZ.mul p (fst a), BigZ.mul p (snd a)).
Lemma itimes_ok (p : bigZ) (a : ival) u : (0 <= toZ p)%Z -> inside a u -> inside (itimes p a) (IZR (toZ p) * u).
Proof.
  unfold inside, itimes. cbn [fst snd]. rewrite !BigZ.spec_mul, !mult_IZR. intros Hp H.
  assert (0 <= IZR (toZ p)) by now apply IZR_le. rewrite Rmult_assoc. split; apply Rmult_le_compat_l; lra.
Qed.

(** divided by a positive integer *)
Lemma IZR_div_lower a q : (0 < q)%Z -> IZR (a / q) <= IZR a / IZR q.
Proof.
  intros Hq. assert (0 < IZR q) by now apply IZR_lt. apply Rmult_le_reg_r with (IZR q); [assumption|].
  unfold Rdiv. rewrite Rmult_assoc, Rinv_l, Rmult_1_r, <- mult_IZR by lra. apply IZR_le. rewrite Z.mul_comm. apply Z.mul_div_le, Hq.
Qed.
Lemma IZR_div_upper a q : (0 < q)%Z -> IZR a / IZR q <= IZR (a / q + 1).
Proof.
  intros Hq. assert (0 < IZR q) by now apply IZR_lt. apply Rmult_le_reg_r with (IZR q); [assumption|].
  unfold Rdiv. rewrite Rmult_assoc, Rinv_l, Rmult_1_r, <- mult_IZR by lra. apply IZR_le.
  pose proof (Z.div_mod a q ltac:(lia)). pose proof (Z.mod_pos_bound a q Hq). nia.
Qed.
Definition iover (q : bigZ) (a : ival) : ival := (BigZ.div (fst a) q, BigZ.add (BigZ.div (snd a) q) 1%bigZ).
Lemma iover_ok (q : bigZ) (a : ival) u : (0 < toZ q)%Z -> inside a u -> inside (iover q a) (u / IZR (toZ q)).
Proof.
  unfold inside, iover. cbn [fst snd]. rewrite BigZ.spec_add, !BigZ.spec_div. change (toZ 1%bigZ) with 1%Z. intros Hq H.
  pose proof (IZR_div_lower (toZ (fst a)) _ Hq). pose proof (IZR_div_upper (toZ (snd a)) _ Hq).
  assert (P : 0 < / IZR (toZ q)) by (apply Rinv_0_lt_compat; now apply IZR_lt).
  replace (u / IZR (toZ q) * unit_) with (u * unit_ * / IZR (toZ q)) by (unfold Rdiv; ring). unfold Rdiv in *.
  split; [eapply Rle_trans; [eassumption|] | eapply Rle_trans; [|eassumption]]; apply Rmult_le_compat_r; lra.
Qed.

(** times an interval of positive numbers *)
Definition Kb : bigZ := BigZ.of_Z K.
Definition imul (x a : ival) : ival :=
  (BigZ.shiftr (if BigZ.leb 0%bigZ (fst a) then BigZ.mul (fst a) (fst x) else BigZ.mul (fst a) (snd x)) Kb,
   BigZ.add (BigZ.shiftr (if BigZ.leb 0%bigZ (snd a) then BigZ.mul (snd a) (snd x) else BigZ.mul (snd a) (fst x)) Kb) 1%bigZ).
Lemma imul_ok (x a : ival) u v : (0 <= toZ (fst x))%Z -> inside x u -> inside a v -> inside (imul x a) (u * v).
Proof.
  unfold inside, imul. cbn [fst snd]. intros Hx [X1 X2] [A1 A2]. assert (X0 : 0 <= IZR (toZ (fst x))) by now apply IZR_le.
  rewrite BigZ.spec_add, !BigZ.spec_shiftr. change (toZ 1%bigZ) with 1%Z. replace (toZ Kb) with K by (unfold Kb; now rewrite BigZ.spec_of_Z).
  rewrite !Z.shiftr_div_pow2 by (unfold K; lia).
  assert (HK : (0 < 2 ^ K)%Z) by reflexivity. pose proof unit_pos as UP.
  assert (HU : unit_ = IZR (2 ^ K)) by reflexivity.
  rewrite !BigZ.spec_leb. change (toZ 0%bigZ) with 0%Z.
  set (al := toZ (fst a)) in *. set (ah := toZ (snd a)) in *. set (xl := toZ (fst x)) in *. set (xh := toZ (snd x)) in *.
  assert (E : u * v * unit_ = (u * unit_) * (v * unit_) / unit_) by (field; lra).
  set (p := u * unit_) in *. set (q := v * unit_) in *. rewrite E. clear E.
  assert (P0 : 0 <= p) by lra.
  assert (I : 0 < / unit_) by now apply Rinv_0_lt_compat.
  split.
  - eapply Rle_trans; [apply IZR_div_lower, HK|]. rewrite <- HU. apply Rmult_le_compat_r; [lra|].
    destruct (Z.leb_spec 0 al) as [L|L].
    + rewrite BigZ.spec_mul. fold al xl. rewrite mult_IZR, (Rmult_comm p). assert (0 <= IZR al) by now apply IZR_le.
      apply Rmult_le_compat; assumption.
    + rewrite BigZ.spec_mul. fold al xh. rewrite mult_IZR. assert (N : IZR al <= 0) by (apply IZR_le; lia).
      apply Rle_trans with (IZR al * p); [apply Rmult_le_compat_neg_l; lra | rewrite Rmult_comm; apply Rmult_le_compat_l; lra].
  - eapply Rle_trans; [|apply IZR_div_upper, HK]. rewrite <- HU. apply Rmult_le_compat_r; [lra|].
    destruct (Z.leb_spec 0 ah) as [L|L].
    + rewrite BigZ.spec_mul. fold ah xh. rewrite mult_IZR. assert (0 <= IZR ah) by now apply IZR_le.
      apply Rle_trans with (p * IZR ah); [apply Rmult_le_compat_l; lra | rewrite Rmult_comm; apply Rmult_le_compat_l; lra].
    + rewrite BigZ.spec_mul. fold ah xl. rewrite mult_IZR. assert (N : IZR ah <= 0) by (apply IZR_le; lia).
      apply Rle_trans with (p * IZR ah); [apply Rmult_le_compat_l; lra | rewrite Rmult_comm; apply Rmult_le_compat_neg_l; lra].
Qed.

(** comparisons *)
Definition ilt (a b : ival) : bool := BigZ.ltb (snd a) (fst b).
Lemma ilt_ok a b u v : ilt a b = true -> inside a u -> inside b v -> u < v.
Proof.
  unfold ilt, inside. rewrite BigZ.spec_ltb. intros H A B. apply Z.ltb_lt, IZR_lt in H. apply Rmult_lt_reg_r with unit_; [apply unit_pos|]. lra.
Qed.
Definition ile (a b : ival) : bool := BigZ.leb (snd a) (fst b).
Lemma ile_ok a b u v : ile a b = true -> inside a u -> inside b v -> u <= v.
Proof.
  unfold ile, inside. rewrite BigZ.spec_leb. intros H A B. apply Z.leb_le, IZR_le in H. apply Rmult_le_reg_r with unit_; [apply unit_pos|]. lra.
Qed.
(** absolute value *)
Definition iabs (a : ival) : ival :=
  if BigZ.leb 0%bigZ (fst a) then a else if BigZ.leb (snd a) 0%bigZ then ineg a else (0%bigZ, BigZ.max (BigZ.opp (fst a)) (snd a)).
Lemma iabs_ok a u : inside a u -> inside (iabs a) (Rabs u).
Proof.
  intros H. unfold iabs. rewrite !BigZ.spec_leb. change (toZ 0%bigZ) with 0%Z. pose proof unit_pos.
  assert (P : 0 <= u * unit_ -> 0 <= u) by (intros; apply Rmult_le_reg_r with unit_; lra).
  assert (N : u * unit_ <= 0 -> u <= 0) by (intros; apply Rmult_le_reg_r with unit_; lra).
  destruct (Z.leb_spec 0 (toZ (fst a))) as [L|L].
  - apply IZR_le in L. unfold inside in H. rewrite Rabs_pos_eq by (apply P; lra). exact H.
  - destruct (Z.leb_spec (toZ (snd a)) 0) as [L'|L'].
    + apply IZR_le in L'. rewrite Rabs_left1 by (unfold inside in H; apply N; lra). now apply ineg_ok.
    + unfold inside in *. cbn [fst snd]. change (toZ 0%bigZ) with 0%Z. rewrite BigZ.spec_max, BigZ.spec_opp. split.
      * apply Rmult_le_pos; [apply Rabs_pos | lra].
      * assert (IZR (- toZ (fst a)) <= IZR (Z.max (- toZ (fst a)) (toZ (snd a)))) by (apply IZR_le; lia).
        assert (IZR (toZ (snd a)) <= IZR (Z.max (- toZ (fst a)) (toZ (snd a)))) by (apply IZR_le; lia). rewrite opp_IZR in *.
        unfold Rabs. destruct (Rcase_abs u); lra.
Qed.
(** an exact number *)
Definition ipoint (p : bigZ) : ival := (p, p).
Lemma ipoint_ok p : inside (ipoint p) (IZR (toZ p) / unit_).
Proof. unfold inside, ipoint. cbn [fst snd]. pose proof unit_pos. unfold Rdiv. rewrite Rmult_assoc, Rinv_l by lra. lra. Qed.
Definition ibetween (p q : bigZ) : ival := (p, q).
Lemma ibetween_ok p q v : IZR (toZ p) / unit_ <= v <= IZR (toZ q) / unit_ -> inside (ibetween p q) v.
Proof.
  unfold inside, ibetween. cbn [fst snd]. pose proof unit_pos. intros [A B].
  apply (Rmult_le_compat_r unit_) in A, B; try lra. unfold Rdiv in A, B. rewrite Rmult_assoc, Rinv_l in A, B by lra. lra.
Qed.
