(** * The derivatives of ultraspherical polynomials *)
From Coq Require Import ZArith Reals List Lia Lra.
From Verif Require Import FirDesign.
Open Scope R_scope.

Fixpoint dgeg2 (mu : R) (N : nat) (x : R) : R * R :=
  match N with
  | O => (0, 0)
  | S M => let c := geg2 mu M x in let d := dgeg2 mu M x in
      ((2 * (INR M + mu) * (fst c + x * fst d) - (INR M + 2 * mu - 1) * snd d) / INR (S M), fst d)
  end.
Definition dgeg (mu : R) (N : nat) (x : R) : R := fst (dgeg2 mu N x).

Lemma lim_ext f g x l : (forall y, f y = g y) -> derivable_pt_lim f x l -> derivable_pt_lim g x l.
Proof. intros E H e He. destruct (H e He) as [d Hd]. exists d. intros h Hh Hl. rewrite <- !E. now apply Hd. Qed.

Lemma dgeg2_ok mu N x : derivable_pt_lim (fun y => fst (geg2 mu N y)) x (fst (dgeg2 mu N x)) /\
  derivable_pt_lim (fun y => snd (geg2 mu N y)) x (snd (dgeg2 mu N x)).
Proof.
  induction N as [|M [IH1 IH2]].
  - split; cbn; apply derivable_pt_lim_const.
  - split; [|exact IH1].
    set (a := 2 * (INR M + mu)). set (b := INR M + 2 * mu - 1). set (q := INR (S M)).
    replace (fst (dgeg2 mu (S M) x)) with (/ q * (a * (1 * fst (geg2 mu M x) + x * fst (dgeg2 mu M x)) - b * snd (dgeg2 mu M x)))
      by (unfold a, b, q; cbn [dgeg2 fst]; cbv zeta; unfold Rdiv; ring).
    apply lim_ext with (mult_real_fct (/ q) (minus_fct (mult_real_fct a (mult_fct id (fun y => fst (geg2 mu M y)))) (mult_real_fct b (fun y => snd (geg2 mu M y))))).
    { intros y. unfold mult_real_fct, minus_fct, mult_fct, id, a, b, q. cbn [geg2 fst]. cbv zeta. unfold Rdiv. ring. }
    apply derivable_pt_lim_scal, derivable_pt_lim_minus; apply derivable_pt_lim_scal; [|exact IH2].
    apply derivable_pt_lim_mult; [apply derivable_pt_lim_id | exact IH1].
Qed.
Lemma dgeg_ok mu N x : derivable_pt_lim (geg mu N) x (dgeg mu N x).
Proof. exact (proj1 (dgeg2_ok mu N x)). Qed.

Lemma geg_cont mu N : continuity (geg mu N).
Proof. intros x. apply derivable_continuous_pt. exists (dgeg mu N x). apply dgeg_ok. Qed.

Lemma dgeg2_cont mu N : continuity (fun x => fst (dgeg2 mu N x)) /\ continuity (fun x => snd (dgeg2 mu N x)).
Proof.
  induction N as [|M [IH1 IH2]].
  - split; intros x; apply continuity_pt_const; intros ? ?; reflexivity.
  - split; [|exact IH1].
    set (a := 2 * (INR M + mu)). set (b := INR M + 2 * mu - 1). set (q := INR (S M)).
    assert (C : continuity (mult_real_fct (/ q) (minus_fct (mult_real_fct a (plus_fct (geg mu M) (mult_fct id (fun y => fst (dgeg2 mu M y))))) (mult_real_fct b (fun y => snd (dgeg2 mu M y)))))).
    { apply continuity_scal, continuity_minus; apply continuity_scal; [|exact IH2].
      apply continuity_plus; [apply geg_cont|]. apply continuity_mult; [|exact IH1]. apply derivable_continuous, derivable_id. }
    intros x. eapply continuity_pt_locally_ext with (a := 1); [lra| |exact (C x)].
    intros y _. unfold mult_real_fct, minus_fct, plus_fct, mult_fct, id, geg, a, b, q. cbn [dgeg2 fst]. cbv zeta. unfold Rdiv. ring.
Qed.
Lemma dgeg_cont mu N : continuity (dgeg mu N).
Proof. exact (proj1 (dgeg2_cont mu N)). Qed.
