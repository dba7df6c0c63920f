(** * Symmetry, sums and absolute sums of the FIR tables *)
From Coq Require Import ZArith Reals List Lia Lra Bool ZifyNat ZifyBool.
From Flocq Require Import Core.
From Verif Require Import Arith ArithR Tables ResamplerModel ResamplerProof ResamplerOk Spec SpecOk SpecR TablesF.
Import ListNotations.
Open Scope Z_scope.

Fixpoint sumZ (l : list Z) : Z := match l with [] => 0 | a :: r => a + sumZ r end.
Fixpoint eqbZ (l k : list Z) : bool :=
  match l, k with [], [] => true | a :: l', b :: k' => (a =? b) && eqbZ l' k' | _, _ => false end.
Lemma eqbZ_eq l : forall k, eqbZ l k = true -> l = k.
Proof.
  induction l as [|a l IH]; intros [|b k] H; cbn in H; try discriminate; [reflexivity|].
  apply andb_prop in H as [H1 H2]. apply Z.eqb_eq in H1. now rewrite H1, (IH k H2).
Qed.

(** bounds of the absolute sums in hundredths, relative to 2^47 *)
Definition gain100 (s : Z) : Z := if s =? 2 then 251 else if s =? 4 then 178 else 161.

Definition table_facts (s p : Z) : bool :=
  let l := fir_ints s p in
  eqbZ (rev l) l && Nat.even (length l) && (2 <=? Z.of_nat (length l)) && (Z.of_nat (length l) <=? 52) &&
  (if p =? 1 then sumZ l =? 2 ^ 47 else Z.abs (sumZ l - 2 ^ 47) * 2 ^ (p - 1) <=? 2 ^ 47) &&
  (sumZ (map Z.abs l) * 100 <=? gain100 s * 2 ^ 47).
Lemma table_facts_all : forallb (fun s => forallb (table_facts s) [1; 8; 12; 16; 20; 24]) stages = true.
Proof. vm_compute. reflexivity. Qed.
Lemma table_facts_ok s p : stage_no s -> fir_prec p -> table_facts s p = true.
Proof.
  intros Hs Hp. pose proof table_facts_all as H. rewrite forallb_forall in H.
  specialize (H s ltac:(unfold stages; cbn; unfold stage_no in Hs; lia)). rewrite forallb_forall in H.
  apply H. unfold fir_prec in Hp. cbn. lia.
Qed.

(** ** The same over the reals *)

(** how far the sum of the taps may be from 1 *)
Definition tolerance (p : Z) : R := if p =? 1 then 0%R else (/ IZR (2 ^ (p - 1)))%R.
Definition stage_gain (s : Z) : R := (IZR (gain100 s) / 100)%R.
Definition half (md : rmode) : R := match md with UP => 1%R | DOWN => (/ 2)%R end.

Lemma tolerance_pos p : fir_prec p -> (0 <= tolerance p)%R.
Proof.
  unfold tolerance, fir_prec. intros H. destruct (p =? 1) eqn:E; [lra|].
  apply Rlt_le, Rinv_0_lt_compat, IZR_lt. apply Z.pow_pos_nonneg; lia.
Qed.

Lemma smp_map (f : Z -> RA) l i : 0 <= i < Z.of_nat (length l) -> smp (map f l) i = f (nth (Z.to_nat i) l 0).
Proof.
  intros H. unfold smp. destruct (Z.ltb_spec i 0); [lia|].
  rewrite nth_indep with (d' := f 0) by (rewrite map_length; lia). apply map_nth.
Qed.
Lemma sumR_nth (g : Z -> R) l (h : Z -> R) : (forall i, 0 <= i < Z.of_nat (length l) -> h i = g (nth (Z.to_nat i) l 0)) ->
  sumR (length l) h = fold_right (fun a s => (g a + s)%R) 0%R l.
Proof.
  revert h. induction l as [|a l IH]; intros h E; [reflexivity|]. cbn [length fold_right].
  replace (S (length l)) with (1 + length l)%nat by lia. rewrite sumR_add. cbn [sumR]. rewrite E by (cbn; lia).
  rewrite (IH (fun i => h (Z.of_nat 1 + i))).
  - cbn. lra.
  - intros i Hi. rewrite E by (cbn [length]; lia). f_equal. replace (Z.to_nat (Z.of_nat 1 + i)) with (S (Z.to_nat i)) by lia. reflexivity.
Qed.
Lemma fold_sumZ u l : fold_right (fun a s => (IZR a * u + s)%R) 0%R l = (IZR (sumZ l) * u)%R.
Proof. induction l as [|a l IH]; cbn [fold_right sumZ]; [lra|]. rewrite IH, plus_IZR. lra. Qed.

Section Facts.
Variables (md : rmode) (s p : Z).
Hypotheses (Hs : stage_no s) (Hp : fir_prec p).
Let t : list RA := coeffs (A := RA) FILTER_FIR md p s.
Let l := fir_ints s p.

Lemma ft_eq : t = map (fun n => (IZR n * unit_of md)%R) l.
Proof. now apply fir_coeffs_R. Qed.
Lemma ft_size : size t = Z.of_nat (length l).
Proof. rewrite ft_eq. unfold size. now rewrite map_length. Qed.
Lemma ft_facts : rev l = l /\ Z.even (size t) = true /\ 2 <= size t /\ size t <= 52 /\
  (if p =? 1 then sumZ l = 2 ^ 47 else Z.abs (sumZ l - 2 ^ 47) * 2 ^ (p - 1) <= 2 ^ 47) /\
  sumZ (map Z.abs l) * 100 <= gain100 s * 2 ^ 47.
Proof.
  pose proof (table_facts_ok s p Hs Hp) as H. unfold table_facts in H. fold l in H. rewrite ft_size.
  repeat (apply andb_prop in H as [H ?]).
  split; [now apply eqbZ_eq|]. split; [rewrite <- H4; clear; induction l as [|a [|b k] IH]; try reflexivity|].
  - cbn [length Nat.even]. replace (Z.of_nat (S (S (length k)))) with (Z.succ (Z.succ (Z.of_nat (length k)))) by lia.
    rewrite Z.even_succ_succ. clear IH. destruct (Nat.even (length k)) eqn:E.
    + apply Nat.even_spec in E. destruct E as [q E]. rewrite E. replace (Z.of_nat (2 * q)) with (2 * Z.of_nat q) by lia. now rewrite Z.even_mul.
    + assert (O : Nat.odd (length k) = true) by (unfold Nat.odd; now rewrite E). apply Nat.odd_spec in O. destruct O as [q O].
      rewrite O. replace (Z.of_nat (2 * q + 1)) with (1 + 2 * Z.of_nat q) by lia. now rewrite Z.even_add, Z.even_mul.
  - split; [lia|]. split; [lia|]. split; [|lia]. destruct (p =? 1); lia.
Qed.

Lemma unit_ratio : (unit_of md * IZR (2 ^ 47) = half md)%R.
Proof.
  unfold unit_of, half. destruct md.
  - apply Rinv_l. apply IZR_neq. discriminate.
  - replace (2 ^ 48) with (2 * 2 ^ 47) by reflexivity. rewrite mult_IZR. field. apply IZR_neq. discriminate.
Qed.
Lemma unit_pos : (0 < unit_of md)%R.
Proof. unfold unit_of. destruct md; apply Rinv_0_lt_compat, IZR_lt; reflexivity. Qed.

Lemma ft_sym i : 0 <= i < size t -> smp t i = smp t (size t - 1 - i).
Proof.
  intros Hi. destruct ft_facts as (R & _). rewrite ft_size in *. rewrite ft_eq, !smp_map by lia. do 2 f_equal.
  rewrite <- R at 1. rewrite rev_nth by lia. f_equal. lia.
Qed.
Lemma ft_sum : (Rabs (sumR (length t) (smp t) - half md) <= half md * tolerance p)%R.
Proof.
  destruct ft_facts as (_ & _ & _ & _ & S & _).
  assert (L : length t = length l) by (rewrite ft_eq; apply map_length). rewrite L.
  rewrite (sumR_nth (fun n => (IZR n * unit_of md)%R) l) by (intros i Hi; rewrite ft_eq; now apply smp_map).
  rewrite fold_sumZ, <- unit_ratio. replace (IZR (sumZ l) * unit_of md - unit_of md * IZR (2 ^ 47))%R with (unit_of md * (IZR (sumZ l - 2 ^ 47)))%R
    by (rewrite minus_IZR; ring).
  rewrite Rabs_mult, (Rabs_pos_eq (unit_of md)) by (apply Rlt_le, unit_pos).
  rewrite Rmult_assoc. apply Rmult_le_compat_l; [apply Rlt_le, unit_pos|]. unfold tolerance.
  destruct (p =? 1) eqn:E1.
  - rewrite S. replace (2 ^ 47 - 2 ^ 47) with 0 by lia. rewrite Rabs_R0. lra.
  - assert (0 < 2 ^ (p - 1)) by (apply Z.pow_pos_nonneg; unfold fir_prec in Hp; lia).
    rewrite <- abs_IZR. apply Rmult_le_reg_r with (IZR (2 ^ (p - 1))); [now apply IZR_lt|].
    rewrite <- mult_IZR, Rmult_assoc, Rinv_l, Rmult_1_r by (apply not_0_IZR; lia). now apply IZR_le.
Qed.
Lemma ft_abs : (sumR (length t) (fun i => Rabs (smp t i)) <= half md * stage_gain s)%R.
Proof.
  destruct ft_facts as (_ & _ & _ & _ & _ & S).
  assert (L : length t = length l) by (rewrite ft_eq; apply map_length). rewrite L.
  rewrite (sumR_nth (fun n => (IZR (Z.abs n) * unit_of md)%R) l).
  2: { intros i Hi. rewrite ft_eq, smp_map by lia. rewrite Rabs_mult, <- abs_IZR. f_equal. apply Rabs_pos_eq, Rlt_le, unit_pos. }
  replace (fold_right _ _ l) with (IZR (sumZ (map Z.abs l)) * unit_of md)%R.
  2: { clear. induction l as [|a k IH]; cbn [fold_right map sumZ]; [lra|]. rewrite <- IH, plus_IZR. lra. }
  unfold stage_gain. rewrite <- unit_ratio. apply IZR_le in S. rewrite !mult_IZR in S.
  pose proof unit_pos as U. assert (E : (IZR (sumZ (map Z.abs l)) <= IZR (2 ^ 47) * (IZR (gain100 s) / 100))%R) by lra.
  apply (Rmult_le_compat_r (unit_of md)) in E; lra.
Qed.
End Facts.
