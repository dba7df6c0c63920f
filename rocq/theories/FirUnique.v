(** * The window that mkfir.sh asks for is unique: roots of polynomials and trigonometric sums *)
From Coq Require Import ZArith Reals List Lia Lra Bool.
From Verif Require Import FirDesign FirDesignDeriv.
Import ListNotations.
Open Scope R_scope.

(** ** Polynomials *)
Fixpoint pe (p : list R) (y : R) : R := match p with [] => 0 | c :: p => c + y * pe p y end.
Fixpoint quot (a : R) (p : list R) : list R :=
  match p with [] => [] | c :: p => match p with [] => [] | _ => pe p a :: quot a p end end.
Lemma quot_length a p : length (quot a p) = pred (length p).
Proof.
  induction p as [|c p IH]; [reflexivity|]. destruct p as [|d p]; [reflexivity|].
  change (quot a (c :: d :: p)) with (pe (d :: p) a :: quot a (d :: p)). cbn [length]. rewrite IH. reflexivity.
Qed.
Lemma quot_ok a p y : pe p y = pe p a + (y - a) * pe (quot a p) y.
Proof.
  induction p as [|c p IH]; [cbn; ring|]. destruct p as [|d p]; [cbn; ring|].
  change (quot a (c :: d :: p)) with (pe (d :: p) a :: quot a (d :: p)).
  set (q := quot a (d :: p)) in *. set (r := d :: p) in *. cbn [pe]. rewrite IH at 1. ring.
Qed.

Lemma roots_zero : forall l q, NoDup l -> (forall r, In r l -> 0 < r /\ pe q (r * r) = 0) -> (length q <= length l)%nat -> forall y, pe q y = 0.
Proof.
  induction l as [|r l IH]; intros q ND HR HL y.
  - destruct q; [reflexivity | cbn in HL; lia].
  - destruct (HR r (or_introl eq_refl)) as [Pr Zr]. inversion ND as [|? ? Nr ND']; subst.
    rewrite (quot_ok (r * r) q y), Zr. rewrite (IH (quot (r * r) q)); [ring | exact ND' | | rewrite quot_length; cbn in HL; lia].
    intros s Hs. destruct (HR s (or_intror Hs)) as [Ps Zs]. split; [exact Ps|].
    pose proof (quot_ok (r * r) q (s * s)) as Q. rewrite Zr, Zs in Q.
    assert (D : s * s - r * r <> 0). { intros E. assert ((s - r) * (s + r) = 0) as F by lra. apply Rmult_integral in F. destruct F; [apply Nr; replace r with s by lra; exact Hs | lra]. }
    rewrite Rplus_0_l in Q. symmetry in Q. apply Rmult_integral in Q. destruct Q; [contradiction | assumption].
Qed.

(** functions that are polynomials of x^2, or of x^2 multiplied by x *)
Definition evenp (k : nat) (f : R -> R) : Prop := exists p, (length p <= k)%nat /\ forall x, f x = pe p (x * x).
Definition oddp (k : nat) (f : R -> R) : Prop := exists p, (length p <= k)%nat /\ forall x, f x = x * pe p (x * x).

Fixpoint padd (p q : list R) : list R :=
  match p, q with [], _ => q | _, [] => p | a :: p, b :: q => (a + b) :: padd p q end.
Lemma padd_ok : forall p q y, pe (padd p q) y = pe p y + pe q y.
Proof. induction p as [|a p IH]; intros [|b q] y; cbn [padd pe]; try ring. rewrite IH. ring. Qed.
Lemma padd_length : forall p q k, (length p <= k)%nat -> (length q <= k)%nat -> (length (padd p q) <= k)%nat.
Proof. induction p as [|a p IH]; intros [|b q] k Hp Hq; cbn [padd length] in *; try lia. destruct k; [lia|]. specialize (IH q k). lia. Qed.
Lemma pscale_ok c : forall p y, pe (map (Rmult c) p) y = c * pe p y.
Proof. induction p as [|a p IH]; intros y; cbn [map pe]; [ring|]. rewrite IH. ring. Qed.

Lemma evenp_lin k f g a b : evenp k f -> evenp k g -> evenp k (fun x => a * f x + b * g x).
Proof.
  intros (p & Lp & Hp) (q & Lq & Hq). exists (padd (map (Rmult a) p) (map (Rmult b) q)). split.
  - apply padd_length; rewrite map_length; assumption.
  - intros x. rewrite padd_ok, !pscale_ok, Hp, Hq. reflexivity.
Qed.
Lemma oddp_lin k f g a b : oddp k f -> oddp k g -> oddp k (fun x => a * f x + b * g x).
Proof.
  intros (p & Lp & Hp) (q & Lq & Hq). exists (padd (map (Rmult a) p) (map (Rmult b) q)). split.
  - apply padd_length; rewrite map_length; assumption.
  - intros x. rewrite padd_ok, !pscale_ok, Hp, Hq. ring.
Qed.
Lemma evenp_x k f : evenp k f -> oddp k (fun x => x * f x).
Proof. intros (p & Lp & Hp). exists p. split; [exact Lp|]. intros x. now rewrite Hp. Qed.
Lemma oddp_x k f : oddp k f -> evenp (S k) (fun x => x * f x).
Proof. intros (p & Lp & Hp). exists (0 :: p). split; [cbn; lia|]. intros x. rewrite Hp. cbn [pe]. ring. Qed.
Lemma evenp_le k k' f : (k <= k')%nat -> evenp k f -> evenp k' f.
Proof. intros H (p & Lp & Hp). exists p. split; [lia | exact Hp]. Qed.
Lemma oddp_le k k' f : (k <= k')%nat -> oddp k f -> oddp k' f.
Proof. intros H (p & Lp & Hp). exists p. split; [lia | exact Hp]. Qed.
Lemma evenp_ext k f g : (forall x, f x = g x) -> evenp k f -> evenp k g.
Proof. intros E (p & Lp & Hp). exists p. split; [exact Lp|]. intros x. now rewrite <- E. Qed.
Lemma oddp_ext k f g : (forall x, f x = g x) -> oddp k f -> oddp k g.
Proof. intros E (p & Lp & Hp). exists p. split; [exact Lp|]. intros x. now rewrite <- E. Qed.

Lemma geg_poly mu M :
  evenp (S M) (fun x => fst (geg2 mu (2 * M) x)) /\ oddp M (fun x => snd (geg2 mu (2 * M) x)) /\
  oddp M (fun x => fst (dgeg2 mu (2 * M) x)) /\ evenp M (fun x => snd (dgeg2 mu (2 * M) x)).
Proof.
  induction M as [|M (I1 & I2 & I3 & I4)].
  - cbn [Nat.mul Nat.add geg2 dgeg2 fst snd]. split; [exists [1]; split; [cbn; lia | intros; cbn; ring]|].
    split; [exists []; split; [cbn; lia | intros; cbn; ring]|]. split; [exists []; split; [cbn; lia | intros; cbn; ring]|]. exists []; split; [cbn; lia | intros; cbn; ring].
  - replace (2 * S M)%nat with (S (S (2 * M))) by lia. set (N := (2 * M)%nat) in *.
    assert (J1 : oddp (S M) (fun x => fst (geg2 mu (S N) x))).
    { eapply oddp_ext; [|apply (oddp_lin (S M) (fun x => x * fst (geg2 mu N x)) (fun x => snd (geg2 mu N x)) (2 * (INR N + mu) / INR (S N)) (- (INR N + 2 * mu - 1) / INR (S N)))].
      - intros x. cbn [geg2 fst]. cbv zeta. unfold Rdiv. ring.
      - apply evenp_x, I1.
      - apply (oddp_le M); [lia | exact I2]. }
    assert (J3 : evenp (S M) (fun x => fst (dgeg2 mu (S N) x))).
    { eapply evenp_ext; [|apply (evenp_lin (S M) (fun x => 1 * fst (geg2 mu N x) + 1 * (x * fst (dgeg2 mu N x))) (fun x => snd (dgeg2 mu N x)) (2 * (INR N + mu) / INR (S N)) (- (INR N + 2 * mu - 1) / INR (S N)))].
      - intros x. cbn [dgeg2 fst]. cbv zeta. unfold Rdiv. ring.
      - apply evenp_lin; [exact I1 | apply oddp_x, I3].
      - apply (evenp_le M); [lia | exact I4]. }
    split; [|split; [|split]].
    + eapply evenp_ext; [|apply (evenp_lin (S (S M)) (fun x => x * fst (geg2 mu (S N) x)) (fun x => snd (geg2 mu (S N) x)) (2 * (INR (S N) + mu) / INR (S (S N))) (- (INR (S N) + 2 * mu - 1) / INR (S (S N))))].
      * intros x. change (geg2 mu (S (S N)) x) with ((2 * x * (INR (S N) + mu) * fst (geg2 mu (S N) x) - (INR (S N) + 2 * mu - 1) * snd (geg2 mu (S N) x)) / INR (S (S N)), fst (geg2 mu (S N) x)). cbn [fst]. unfold Rdiv. ring.
      * apply oddp_x, J1.
      * apply (evenp_le (S M)); [lia | exact I1].
    + exact J1.
    + eapply oddp_ext; [|apply (oddp_lin (S M) (fun x => 1 * fst (geg2 mu (S N) x) + 1 * (x * fst (dgeg2 mu (S N) x))) (fun x => snd (dgeg2 mu (S N) x)) (2 * (INR (S N) + mu) / INR (S (S N))) (- (INR (S N) + 2 * mu - 1) / INR (S (S N))))].
      * intros x. change (dgeg2 mu (S (S N)) x) with ((2 * (INR (S N) + mu) * (fst (geg2 mu (S N) x) + x * fst (dgeg2 mu (S N) x)) - (INR (S N) + 2 * mu - 1) * snd (dgeg2 mu (S N) x)) / INR (S (S N)), fst (dgeg2 mu (S N) x)). cbn [fst]. unfold Rdiv. ring.
      * apply oddp_lin; [exact J1 | apply evenp_x, J3].
      * apply (oddp_le M); [lia | exact I3].
    + exact J3.
Qed.

(** a list of n - 1 positive roots of the derivative contains all of them *)
Lemma all_roots mu n l : (0 < n)%nat -> NoDup l -> (forall r, In r l -> 0 < r /\ dgeg mu (2 * n) r = 0) -> length l = (n - 1)%nat ->
  (exists y, dgeg mu (2 * n) y <> 0) -> forall x, 0 < x -> dgeg mu (2 * n) x = 0 -> In x l.
Proof.
  intros Hn ND HR HL (y & Hy) x Hx Zx. destruct (geg_poly mu n) as (_ & _ & (q & Lq & Hq) & _).
  assert (E : forall z, 0 < z -> dgeg mu (2 * n) z = 0 -> pe q (z * z) = 0).
  { intros z Pz Zz. unfold dgeg in Zz. rewrite Hq in Zz. apply Rmult_integral in Zz. destruct Zz; [lra | assumption]. }
  destruct (in_dec Req_EM_T x l) as [I|I]; [exact I|]. exfalso. apply Hy. unfold dgeg. rewrite Hq.
  rewrite (roots_zero (x :: l) q); [ring | now constructor | | cbn [length]; lia].
  intros r [<-|Hr]; [now split; [|apply E] |]. destruct (HR r Hr). split; [assumption | now apply E].
Qed.

(** ** Trigonometric sums *)
Lemma twice_sum_lin f g c d n : twice_sum (fun k => c * f k + d * g k) n = c * twice_sum f n + d * twice_sum g n.
Proof. induction n as [|n IH]; cbn [twice_sum]; [ring|]. rewrite IH. ring. Qed.
Lemma twice_sum_ext f g n : (forall k, (1 <= k <= n)%nat -> f k = g k) -> twice_sum f n = twice_sum g n.
Proof. intros H. induction n as [|n IH]; cbn [twice_sum]; [reflexivity|]. rewrite IH by (intros; apply H; lia). now rewrite (H (S n)) by lia. Qed.

Lemma cos_differs k n : (k < n)%nat -> cos (INR k * (PI / INR n)) <> -1.
Proof.
  intros H. assert (0 < INR n) by (apply lt_0_INR; lia). assert (INR k < INR n) by now apply lt_INR. pose proof (pos_INR k). pose proof PI_RGT_0.
  assert (B : 0 <= INR k * (PI / INR n) < PI).
  { split; [apply Rmult_le_pos; [assumption|]; apply Rlt_le, Rmult_lt_0_compat; [assumption | now apply Rinv_0_lt_compat]|].
    apply Rmult_lt_reg_r with (INR n); [assumption|]. replace (INR k * (PI / INR n) * INR n) with (PI * INR k) by (field; lra). now apply Rmult_lt_compat_l. }
  rewrite <- cos_PI. apply Rgt_not_eq. apply cos_decreasing_1; lra.
Qed.

Lemma trig_zero : forall n (a : nat -> R), (forall th, a O + twice_sum (fun k => a k * cos (INR k * th)) n = 0) -> forall k, (k <= n)%nat -> a k = 0.
Proof.
  induction n as [|n IH]; intros a H k Hk.
  - replace k with O by lia. specialize (H 0). cbn [twice_sum] in H. lra.
  - set (dl := PI / INR (S n)).
    assert (Z : forall j, (j <= n)%nat -> a j * (cos (INR j * dl) + 1) = 0).
    { intros j Hj. apply (IH (fun j => a j * (cos (INR j * dl) + 1))); [|exact Hj]. intros th.
      pose proof (H (th + dl)) as H1. pose proof (H (th - dl)) as H2. pose proof (H th) as H3. cbn [twice_sum] in H1, H2, H3.
      assert (E : twice_sum (fun k => a k * (cos (INR k * dl) + 1) * cos (INR k * th)) n =
        / 2 * twice_sum (fun k => 1 * (a k * cos (INR k * (th + dl))) + 1 * (a k * cos (INR k * (th - dl)))) n + 1 * twice_sum (fun k => a k * cos (INR k * th)) n).
      { rewrite <- twice_sum_lin. apply twice_sum_ext. intros i _. rewrite (Rmult_plus_distr_l (INR i)), (Rmult_minus_distr_l (INR i)), cos_plus, cos_minus. field. }
      rewrite E, twice_sum_lin.
      assert (SE : INR (S n) * dl = PI) by (unfold dl; field; apply not_0_INR; discriminate).
      rewrite Rmult_plus_distr_l, cos_plus, SE, cos_PI, sin_PI in H1. rewrite Rmult_minus_distr_l, cos_minus, SE, cos_PI, sin_PI in H2.
      replace (INR 0 * dl) with 0 by (cbn; ring). rewrite cos_0.
      set (C := cos (INR (S n) * th)) in *. lra. }
    assert (L : forall j, (j <= n)%nat -> a j = 0).
    { intros j Hj. specialize (Z j Hj). apply Rmult_integral in Z. destruct Z as [Z|Z]; [exact Z|]. exfalso. apply (cos_differs j (S n)); [lia|]. fold dl. lra. }
    destruct (Nat.eq_dec k (S n)) as [->|Hne]; [|apply L; lia].
    specialize (H 0). cbn [twice_sum] in H. rewrite (L O) in H by lia. rewrite Rmult_0_r, cos_0 in H.
    rewrite (twice_sum_ext _ (fun _ => 0 * 0 + 0 * 0)) in H by (intros i Hi; rewrite (L i) by lia; ring).
    rewrite (twice_sum_lin (fun _ => 0) (fun _ => 0) 0 0) in H. lra.
Qed.

(** two windows with the same spectrum, up to a factor *)
Lemma window_unique n (w w' : nat -> R) g g' F : w O = 1 -> w' O = 1 -> g' <> 0 ->
  (forall th, F th = g * (w O + twice_sum (fun k => w k * cos (INR k * th)) n)) ->
  (forall th, F th = g' * (w' O + twice_sum (fun k => w' k * cos (INR k * th)) n)) ->
  forall k, (k <= n)%nat -> w k = w' k.
Proof.
  intros W W' G H H' k Hk.
  assert (Z : forall k, (k <= n)%nat -> g * w k - g' * w' k = 0).
  { intros j Hj. apply (trig_zero n (fun k => g * w k - g' * w' k)); [|exact Hj]. intros th.
    rewrite (twice_sum_ext _ (fun k => g * (w k * cos (INR k * th)) + - g' * (w' k * cos (INR k * th)))) by (intros; ring).
    rewrite twice_sum_lin. pose proof (H th). pose proof (H' th). lra. }
  pose proof (Z O ltac:(lia)) as Z0. rewrite W, W' in Z0. 
  specialize (Z k Hk). replace g with g' in Z by lra. apply (Rmult_eq_reg_l g'); [lra | exact G].
Qed.
