(** * The FIR tables are windowed sinc functions: certificates *)
From Coq Require Import ZArith Reals List Lia Lra Bool.
From Bignums Require Import BigZ.
From Verif Require Import Arith FirDesign FirDesignDeriv FirUnique FixInt LitProof.
Import ListNotations.
Open Scope R_scope.

(** ** The spectrum of the window *)

(** sum of p_j cos ((a + 2 j) f) *)
Fixpoint tr (p : list R) (a f : R) : R :=
  match p with [] => 0 | c :: p => c * cos (a * f) + tr p (a + 2) f end.
Fixpoint zip (f : R -> R -> R) (p q : list R) : list R :=
  match p, q with a :: p, b :: q => f a b :: zip f p q | _, _ => [] end.
Lemma tr_zip s t : forall p q a f, length p = length q -> tr (zip (fun u v => s * u + t * v) p q) a f = s * tr p a f + t * tr q a f.
Proof.
  induction p as [|c p IH]; intros [|d q] a f H; try discriminate; cbn [zip tr]; [ring|]. rewrite IH by (injection H; auto). ring.
Qed.
Lemma tr_snoc : forall p a f, tr (p ++ [0]) a f = tr p a f.
Proof. induction p as [|c p IH]; intros a f; cbn [app tr]; [ring|]. now rewrite IH. Qed.
Lemma tr_cons p a f : tr (0 :: p) a f = tr p (a + 2) f.
Proof. cbn [tr]. ring. Qed.
Lemma tr_cos : forall p a f, 2 * cos f * tr p a f = tr p (a + 1) f + tr p (a - 1) f.
Proof.
  induction p as [|c p IH]; intros a f; cbn [tr]; [ring|].
  specialize (IH (a + 2) f). replace (a + 1 + 2) with (a + 2 + 1) by ring. replace (a - 1 + 2) with (a + 2 - 1) by ring.
  rewrite Rmult_plus_distr_l, IH. replace ((a + 1) * f) with (a * f + f) by ring. replace ((a - 1) * f) with (a * f - f) by ring.
  rewrite cos_plus, cos_minus. ring.
Qed.

(** coefficients of C_N (x0 cos f) and C_(N-1) (x0 cos f), mu = 3/4 *)
Fixpoint vec (N : nat) (x0 : R) : list R * list R :=
  match N with
  | O => ([1], [])
  | S M => let v := vec M x0 in
      let p := fst v in let q := snd v in
      let up := zip (fun a b => 1 * a + 1 * b) (p ++ [0]) (0 :: p) in
      let down := match M with O => [0; 0] | _ => 0 :: q ++ [0] end in
      (zip (fun a b => ((4 * INR M + 3) * (x0 / 2) / (2 * INR (S M))) * a + (- (2 * INR M + 1) / (2 * INR (S M))) * b) up down, p)
  end.
Lemma zip_length f : forall p q, length p = length q -> length (zip f p q) = length p.
Proof. induction p as [|c p IH]; intros [|d q] H; try discriminate; cbn [zip length]; [reflexivity|]. now rewrite IH by (injection H; auto). Qed.
Lemma vec_length N x0 : length (fst (vec N x0)) = S N /\ length (snd (vec N x0)) = N.
Proof.
  induction N as [|M [IH1 IH2]]; [split; reflexivity|]. split; [|exact IH1]. cbn [vec fst]. cbv zeta.
  rewrite !zip_length; rewrite ?zip_length; rewrite ?app_length; cbn [length]; rewrite ?IH1; try lia.
  destruct M; cbn [length]; rewrite ?app_length; cbn [length]; lia.
Qed.
Lemma vec_ok N x0 f : tr (fst (vec N x0)) (- INR N) f = fst (geg2 (3/4) N (x0 * cos f)) /\
  tr (snd (vec N x0)) (- (INR N - 1)) f = snd (geg2 (3/4) N (x0 * cos f)).
Proof.
  induction N as [|M [IH1 IH2]].
  - cbn [vec fst snd geg2 tr]. split; [|reflexivity]. rewrite <- (cos_0) at 2. replace (- INR 0 * f) with 0 by (cbn; ring). rewrite cos_0. ring.
  - destruct (vec_length M x0) as [L1 L2]. split.
    + cbn [vec fst]. cbv zeta. set (p := fst (vec M x0)) in *. set (q := snd (vec M x0)) in *.
      set (up := zip (fun a b : R => 1 * a + 1 * b) (p ++ [0]) (0 :: p)).
      set (down := match M with O => [0; 0] | _ => 0 :: q ++ [0] end).
      assert (LU : length up = S (S M)) by (unfold up; rewrite zip_length; rewrite app_length; cbn [length]; lia).
      assert (LD : length down = S (S M)) by (unfold down; destruct M; cbn [length]; rewrite ?app_length; cbn [length]; lia).
      assert (TU : tr up (- INR (S M)) f = 2 * cos f * fst (geg2 (3/4) M (x0 * cos f))).
      { unfold up. rewrite tr_zip by (rewrite app_length; cbn [length]; lia). rewrite tr_snoc, tr_cons, <- IH1, tr_cos, S_INR.
        replace (- (INR M + 1) + 2) with (- INR M + 1) by ring. replace (- (INR M + 1)) with (- INR M - 1) by ring. ring. }
      assert (TD : tr down (- INR (S M)) f = snd (geg2 (3/4) M (x0 * cos f))).
      { unfold down. destruct M as [|M']; [cbn; ring|]. rewrite tr_cons, tr_snoc, <- IH2. f_equal. rewrite (S_INR (S M')). ring. }
      rewrite tr_zip by congruence. rewrite TU, TD. cbn [geg2 fst]. cbv zeta. assert (INR (S M) <> 0) by (apply not_0_INR; discriminate).
      set (c := fst (geg2 (3 / 4) M (x0 * cos f))). set (d := snd (geg2 (3 / 4) M (x0 * cos f))). field. assumption.
    + cbn [vec snd geg2]. rewrite <- IH1. f_equal. rewrite S_INR. ring.
Qed.

(** the sum, ordered by the distance from the centre *)
Fixpoint sumn (f : nat -> R) (n : nat) : R := match n with O => 0 | S m => sumn f m + f m end.
Lemma sumn_ext f g n : (forall k, (k < n)%nat -> f k = g k) -> sumn f n = sumn g n.
Proof. induction n as [|n IH]; intros H; [reflexivity|]. cbn [sumn]. rewrite IH by (intros; apply H; lia). now rewrite H by lia. Qed.
Lemma sumn_S f n : sumn f (S n) = f O + sumn (fun k => f (S k)) n.
Proof. induction n as [|n IH]; [cbn; ring|]. cbn [sumn] in *. rewrite <- Rplus_assoc, <- IH. reflexivity. Qed.
Lemma sumn_add f n : forall m, sumn f (n + m) = sumn f n + sumn (fun k => f (n + k)%nat) m.
Proof. induction m as [|m IH]; [rewrite Nat.add_0_r; cbn; ring|]. rewrite Nat.add_succ_r. cbn [sumn]. rewrite IH. ring. Qed.
Lemma tr_sum : forall p a f, tr p a f = sumn (fun j => nth j p 0 * cos ((a + 2 * INR j) * f)) (length p).
Proof.
  induction p as [|c p IH]; intros a f; [reflexivity|]. cbn [length]. rewrite sumn_S. cbn [tr nth]. rewrite IH.
  f_equal; [f_equal; f_equal; cbn; ring|]. apply sumn_ext. intros k _. do 3 f_equal. rewrite S_INR. ring.
Qed.
Lemma centre f n : sumn f (2 * n + 1) = f n + sumn (fun k => f (n - S k)%nat + f (n + S k)%nat) n.
Proof.
  assert (R : forall g m, sumn g m = sumn (fun k => g (m - S k)%nat) m).
  { intros g m. induction m as [|m IH]; [reflexivity|]. rewrite (sumn_S (fun k => g (S m - S k)%nat)). cbn [sumn]. rewrite IH, Rplus_comm.
    replace (S m - 1)%nat with m by lia. reflexivity. }
  assert (A : forall g h m, sumn (fun k => g k + h k) m = sumn g m + sumn h m) by (intros g h m; induction m as [|m IH]; cbn [sumn]; [ring | rewrite IH; ring]).
  replace (2 * n + 1)%nat with (n + S n)%nat by lia. rewrite sumn_add, sumn_S, A, <- R. rewrite Nat.add_0_r.
  assert (E : sumn (fun k => f (n + S k)%nat) n = sumn (fun k => f (n + S k)%nat) n) by reflexivity. lra.
Qed.
Lemma twice_sumn g n : twice_sum g n = sumn (fun k => 2 * g (S k)) n.
Proof. induction n as [|n IH]; [reflexivity|]. cbn [twice_sum sumn]. now rewrite IH. Qed.

Definition half (x0 : R) (n k : nat) : R := (nth (n - k) (fst (vec (2 * n) x0)) 0 + nth (n + k) (fst (vec (2 * n) x0)) 0) / 2.
Definition window (x0 : R) (n k : nat) : R := half x0 n k / half x0 n 0.
Lemma window_spectrum x0 n th : half x0 n 0 <> 0 ->
  geg (3/4) (2 * n) (x0 * cos (th / 2)) = half x0 n 0 * (window x0 n O + twice_sum (fun k => window x0 n k * cos (INR k * th)) n).
Proof.
  intros H0. unfold geg. rewrite <- (proj1 (vec_ok (2 * n) x0 (th / 2))), tr_sum. rewrite (proj1 (vec_length _ _)).
  replace (S (2 * n)) with (2 * n + 1)%nat by lia. rewrite centre, twice_sumn.
  set (p := fst (vec (2 * n) x0)) in *.
  assert (G : forall n m, (sumn (fun k => nth (n - S k) p 0 * cos ((- INR (2 * n) + 2 * INR (n - S k)) * (th / 2)) +
      nth (n + S k) p 0 * cos ((- INR (2 * n) + 2 * INR (n + S k)) * (th / 2))) m) = sumn (fun k => (nth (n - S k) p 0 + nth (n + S k) p 0) * cos (INR (S k) * th)) m \/ (n < m)%nat).
  { intros n' m. destruct (Nat.lt_ge_cases n' m) as [L|L]; [now right | left]. apply sumn_ext. intros k Hk.
    replace ((- INR (2 * n') + 2 * INR (n' - S k)) * (th / 2)) with (- (INR (S k) * th)) by (rewrite minus_INR, mult_INR by lia; cbn [INR]; field).
    replace ((- INR (2 * n') + 2 * INR (n' + S k)) * (th / 2)) with (INR (S k) * th) by (rewrite plus_INR, mult_INR; cbn [INR]; field).
    rewrite cos_neg. ring. }
  destruct (G n n) as [E|E]; [|lia]. rewrite E. clear G E.
  replace ((- INR (2 * n) + 2 * INR n) * (th / 2)) with 0 by (rewrite mult_INR; cbn [INR]; field). rewrite cos_0.
  rewrite Rmult_plus_distr_l. f_equal.
  - unfold window, half. rewrite Nat.sub_0_r, Nat.add_0_r. fold p. unfold half in H0. rewrite Nat.sub_0_r, Nat.add_0_r in H0. fold p in H0. field. lra.
  - assert (S : forall c g m, c * sumn g m = sumn (fun k => c * g k) m) by (intros c g m; induction m as [|m IH]; cbn [sumn]; [ring | rewrite <- IH; ring]).
    rewrite S. apply sumn_ext. intros k Hk. unfold window. replace (nth (n - Datatypes.S k) p 0 + nth (n + Datatypes.S k) p 0) with (2 * half x0 n (Datatypes.S k)) by (unfold half; fold p; field).
    field. assumption.
Qed.

(** ** Evaluation with intervals *)
Definition mu34 := 3 / 4.
Definition istep (M : bigZ) (a b : ival) : ival :=
  iover (BigZ.mul 2%bigZ (BigZ.succ M)) (isub (itimes (BigZ.add (BigZ.mul 4%bigZ M) 3%bigZ) a) (itimes (BigZ.add (BigZ.mul 2%bigZ M) 1%bigZ) b)).
Lemma istep_ok N M a b u v : toZ M = Z.of_nat N -> inside a u -> inside b v ->
  inside (istep M a b) (((4 * INR N + 3) * u - (2 * INR N + 1) * v) / (2 * INR (S N))).
Proof.
  intros HM Ha Hb. unfold istep.
  replace (2 * INR (S N)) with (IZR (toZ (BigZ.mul 2%bigZ (BigZ.succ M)))).
  2: { rewrite BigZ.spec_mul, BigZ.spec_succ, HM, INR_IZR_INZ, mult_IZR. f_equal. f_equal. lia. }
  apply iover_ok; [rewrite BigZ.spec_mul, BigZ.spec_succ, HM; change (toZ 2%bigZ) with 2%Z; lia|].
  apply isub_ok.
  - replace (4 * INR N + 3) with (IZR (toZ (BigZ.add (BigZ.mul 4%bigZ M) 3%bigZ))).
    2: { rewrite BigZ.spec_add, BigZ.spec_mul, HM, INR_IZR_INZ, plus_IZR, mult_IZR. reflexivity. }
    apply itimes_ok; [rewrite BigZ.spec_add, BigZ.spec_mul, HM; change (toZ 4%bigZ) with 4%Z; change (toZ 3%bigZ) with 3%Z; lia | exact Ha].
  - replace (2 * INR N + 1) with (IZR (toZ (BigZ.add (BigZ.mul 2%bigZ M) 1%bigZ))).
    2: { rewrite BigZ.spec_add, BigZ.spec_mul, HM, INR_IZR_INZ, plus_IZR, mult_IZR. reflexivity. }
    apply itimes_ok; [rewrite BigZ.spec_add, BigZ.spec_mul, HM; change (toZ 2%bigZ) with 2%Z; change (toZ 1%bigZ) with 1%Z; lia | exact Hb].
Qed.
Definition ione : ival := ipoint (BigZ.of_Z (2 ^ K)).
Lemma ione_ok : inside ione 1.
Proof.
  replace 1 with (IZR (toZ (BigZ.of_Z (2 ^ K))) / unit_); [apply ipoint_ok|]. rewrite BigZ.spec_of_Z. pose proof unit_pos.
  assert (E : unit_ = IZR (2 ^ K)) by reflexivity. rewrite <- E. field. lra.
Qed.

Record values := Values { v_n : bigZ; v_c : ival; v_c' : ival; v_d : ival; v_d' : ival }.
Fixpoint irun (N : nat) (x : ival) : values :=
  match N with
  | O => Values 0%bigZ ione izero izero izero
  | S N => let s := irun N x in
      Values (BigZ.succ (v_n s)) (istep (v_n s) (imul x (v_c s)) (v_c' s)) (v_c s)
        (istep (v_n s) (iadd (v_c s) (imul x (v_d s))) (v_d' s)) (v_d s)
  end.
Lemma irun_ok N (x : ival) u : (0 <= toZ (fst x))%Z -> inside x u -> let s := irun N x in
  toZ (v_n s) = Z.of_nat N /\ inside (v_c s) (fst (geg2 (3/4) N u)) /\ inside (v_c' s) (snd (geg2 (3/4) N u)) /\
  inside (v_d s) (fst (dgeg2 (3/4) N u)) /\ inside (v_d' s) (snd (dgeg2 (3/4) N u)).
Proof.
  intros Hx Hu. cbv zeta. induction N as [|M (I1 & I2 & I3 & I4 & I5)].
  - cbn [irun v_n v_c v_c' v_d v_d' geg2 dgeg2 fst snd]. split; [reflexivity|]. repeat (split; [first [apply ione_ok | apply izero_ok]|]). apply izero_ok.
  - cbn [irun v_n v_c v_c' v_d v_d' geg2 dgeg2 fst snd]. cbv zeta. split; [rewrite BigZ.spec_succ, I1; lia|].
    assert (INR (S M) <> 0) by (apply not_0_INR; discriminate).
    set (c := fst (geg2 (3/4) M u)) in *. set (c' := snd (geg2 (3/4) M u)) in *. set (d := fst (dgeg2 (3/4) M u)) in *. set (d' := snd (dgeg2 (3/4) M u)) in *.
    split; [|split; [exact I2 | split; [|exact I4]]].
    + replace ((2 * u * (INR M + 3 / 4) * c - (INR M + 2 * (3 / 4) - 1) * c') / INR (S M)) with
        (((4 * INR M + 3) * (u * c) - (2 * INR M + 1) * c') / (2 * INR (S M))) by (field; assumption).
      apply istep_ok; [exact I1 | now apply imul_ok | exact I3].
    + replace ((2 * (INR M + 3 / 4) * (c + u * d) - (INR M + 2 * (3 / 4) - 1) * d') / INR (S M)) with
        (((4 * INR M + 3) * (c + u * d) - (2 * INR M + 1) * d') / (2 * INR (S M))) by (field; assumption).
      apply istep_ok; [exact I1 | apply iadd_ok; [exact I2 | now apply imul_ok] | exact I5].
Qed.

Fixpoint izip (f : ival -> ival -> ival) (p q : list ival) : list ival :=
  match p, q with a :: p, b :: q => f a b :: izip f p q | _, _ => [] end.
Lemma izip_ok f g : (forall a b u v, inside a u -> inside b v -> inside (f a b) (g u v)) ->
  forall p q u v, Forall2 inside p u -> Forall2 inside q v -> Forall2 inside (izip f p q) (zip g u v).
Proof. intros H p q u v Hp. revert q v. induction Hp; intros q v Hq; cbn [izip zip]; [constructor|]. destruct Hq; constructor; auto. Qed.
Fixpoint ivec (N : nat) (xh : ival) : bigZ * list ival * list ival :=
  match N with
  | O => (0%bigZ, [ione], [])
  | S M => let '(m, p, q) := ivec M xh in
      let up := izip iadd (p ++ [izero]) (izero :: p) in
      let down := match M with O => [izero; izero] | _ => izero :: q ++ [izero] end in
      (BigZ.succ m, izip (fun a b => istep m (imul xh a) b) up down, p)
  end.
Lemma ivec_ok N (xh : ival) x0 : (0 <= toZ (fst xh))%Z -> inside xh (x0 / 2) -> let '(m, p, q) := ivec N xh in
  toZ m = Z.of_nat N /\ Forall2 inside p (fst (vec N x0)) /\ Forall2 inside q (snd (vec N x0)).
Proof.
  intros Hx Hu. induction N as [|M IH].
  - cbn [ivec vec fst snd]. split; [reflexivity|]. split; [|constructor]. constructor; [apply ione_ok | constructor].
  - cbn [ivec vec fst snd]. cbv zeta. destruct (ivec M xh) as [[m p] q]. destruct IH as (I1 & I2 & I3).
    split; [rewrite BigZ.spec_succ, I1; lia|]. split; [|exact I2].
    apply izip_ok.
    + intros a b u v Ha Hb. assert (INR (S M) <> 0) by (apply not_0_INR; discriminate).
      replace ((4 * INR M + 3) * (x0 / 2) / (2 * INR (S M)) * u + - (2 * INR M + 1) / (2 * INR (S M)) * v) with
        (((4 * INR M + 3) * (x0 / 2 * u) - (2 * INR M + 1) * v) / (2 * INR (S M))) by (field; assumption).
      apply istep_ok; [exact I1 | now apply imul_ok | exact Hb].
    + apply izip_ok.
      * intros a b u v Ha Hb. rewrite !Rmult_1_l. now apply iadd_ok.
      * apply Forall2_app; [exact I2 | repeat (constructor; [apply izero_ok|]); constructor].
      * constructor; [apply izero_ok | exact I2].
    + destruct M; [repeat (constructor; [apply izero_ok|]); constructor|]. constructor; [apply izero_ok|]. apply Forall2_app; [exact I3 | repeat (constructor; [apply izero_ok|]); constructor].
Qed.
Lemma nth_ok p u : Forall2 inside p u -> forall j, inside (nth j p izero) (nth j u 0).
Proof. induction 1; intros [|j]; cbn [nth]; auto using izero_ok. Qed.

(** ** The certificate *)
Definition bten (e : Z) : bigZ := BigZ.of_Z (10 ^ e).
Definition check_lit (P : ival) (n : nat) (p : list ival) (i : nat) (d : dec) : bool :=
  let k := (2 * Z.of_nat i + 1 - Z.of_nat n)%Z in
  let ka := Z.abs k in let kn := Z.abs_nat k in
  let h0 := iadd (nth n p izero) (nth n p izero) in
  let hk := iadd (nth (n - kn) p izero) (nth (n + kn) p izero) in
  let u := imul P (itimes (BigZ.of_Z ka) h0) in
  let v := if Z.even (ka / 2) then hk else ineg hk in
  let m := dmant d in let e := (- dexp d)%Z in
  let mu := if (0 <=? m)%Z then itimes (BigZ.of_Z m) u else ineg (itimes (BigZ.of_Z (- m)) u) in
  let E := iabs (isub mu (itimes (bten e) v)) in
  (0 <=? e)%Z && Z.odd k && ilt izero u && ile (itimes (bten 16) E) (itimes (BigZ.of_Z (2 * 10 ^ e)) u) &&
  ile (itimes (bten 15) E) (itimes (BigZ.of_Z (60 * 10 ^ e)) (iabs v)).
Fixpoint check_lits (P : ival) (n : nat) (p : list ival) (i : nat) (t : list dec) : bool :=
  match t with [] => true | d :: t => check_lit P n p i d && check_lits P n p (S i) t end.
(** the derivative is positive, or negative, at b *)
Definition dsign (N : nat) (s : bool) (b : bigZ) : bool := let d := v_d (irun N (ipoint b)) in if s then ilt izero d else ilt d izero.
(** the sign of the derivative changes at every one of the points *)
Fixpoint alternates (N : nat) (s : bool) (prev : bigZ) (bs : list bigZ) : bool :=
  match bs with [] => true | b :: bs => BigZ.ltb prev b && dsign N s b && alternates N (negb s) b bs end.
Definition check (P T : ival) (n : nat) (s : bool) (x1l x1h : bigZ) (bs : list bigZ) (x0l x0h : bigZ) (t : list dec) : bool :=
  let N := (2 * n)%nat in
  let A := iabs (v_c (irun N (ibetween x1l x1h))) in
  let TA := imul T A in
  let '(_, p, _) := ivec N (iover 2%bigZ (ibetween x0l x0h)) in
  BigZ.ltb 0%bigZ x1l && BigZ.ltb x0l x0h && ilt ione (ipoint x0l) && BigZ.leb 0%bigZ (fst T) && BigZ.leb 0%bigZ (fst P) &&
  dsign N s x1l && alternates N (negb s) x1l (x1h :: bs) && (length bs =? n - 2)%nat && ilt (ipoint (last bs x1h)) ione &&
  ilt (v_c (irun N (ipoint x0l))) TA && ilt TA (v_c (irun N (ipoint x0h))) &&
  (1 <? n)%nat && (length t =? n)%nat && ilt izero (nth n p izero) && check_lits P n p 0 t.

Lemma sin_odd k : Z.odd k = true -> sin (PI * (IZR k * 0.5)) / IZR k = (if Z.even (Z.abs k / 2) then 1 else -1) / IZR (Z.abs k).
Proof.
  intros H. assert (G : forall j, (0 <= j)%Z -> sin (PI * (IZR (2 * j + 1) * 0.5)) = if Z.even j then 1 else -1).
  { intros j Hj. pattern j. apply natlike_ind; [| |exact Hj].
    - replace (PI * (IZR (2 * 0 + 1) * 0.5)) with (PI / 2) by (cbn; lra). apply sin_PI2.
    - intros i Hi IH. replace (2 * Z.succ i + 1)%Z with (2 * i + 1 + 2)%Z by lia. rewrite plus_IZR.
      replace (PI * ((IZR (2 * i + 1) + 2) * 0.5)) with (PI * (IZR (2 * i + 1) * 0.5) + PI) by lra.
      rewrite neg_sin, IH, Z.even_succ, <- Z.negb_even. destruct (Z.even i); cbn; lra. }
  assert (P : forall q, (0 <= q)%Z -> Z.odd q = true -> sin (PI * (IZR q * 0.5)) = if Z.even (q / 2) then 1 else -1).
  { intros q Hq Ho. rewrite <- G by (apply Z.div_pos; lia). f_equal. f_equal. f_equal. f_equal.
    pose proof (Z.div_mod q 2 ltac:(lia)). rewrite Zmod_odd, Ho in H0. lia. }
  destruct (Z.abs_spec k) as [[Hk ->]|[Hk E]].
  - rewrite P by assumption. reflexivity.
  - rewrite E. replace k with (- - k)%Z at 1 2 by lia. rewrite opp_IZR. set (q := (- k)%Z) in *.
    replace (PI * (- IZR q * 0.5)) with (- (PI * (IZR q * 0.5))) by lra. rewrite sin_neg.
    rewrite P; [| lia | unfold q; now rewrite Z.odd_opp]. assert (IZR q <> 0) by (apply not_0_IZR; lia). field. assumption.
Qed.

Lemma check_lit_ok P n p i d x0 : (0 <= toZ (fst P))%Z -> inside P PI -> Forall2 inside p (fst (vec (2 * n) x0)) -> 0 < half x0 n 0 ->
  check_lit P n p i d = true ->
  let c := us_sinc (window x0 n) (mkfir_position n i) in
  Rabs (dec_val d - c) <= 2 / 10 ^ 16 /\ Rabs (dec_val d - c) <= 6 / 10 ^ 14 * Rabs c.
Proof.
  intros HP0 HP Hp H0. unfold check_lit. fold (mkfir_position n i). set (k := mkfir_position n i). cbv zeta.
  set (e := (- dexp d)%Z). set (m := dmant d). set (hk := iadd (nth (n - Z.abs_nat k) p izero) (nth (n + Z.abs_nat k) p izero)).
  set (h0 := iadd (nth n p izero) (nth n p izero)). set (u := imul P (itimes (BigZ.of_Z (Z.abs k)) h0)).
  set (v := if Z.even (Z.abs k / 2) then hk else ineg hk).
  set (mu := if (0 <=? m)%Z then itimes (BigZ.of_Z m) u else ineg (itimes (BigZ.of_Z (- m)) u)).
  set (E := iabs (isub mu (itimes (bten e) v))). rewrite !andb_true_iff. intros ((((He & Ho) & Hu) & H1) & H2).
  apply Z.leb_le in He.
  set (U := PI * (IZR (Z.abs k) * (2 * half x0 n 0))). set (V := (if Z.even (Z.abs k / 2) then 1 else -1) * (2 * half x0 n (Z.abs_nat k))).
  assert (IH0 : inside h0 (2 * half x0 n 0)).
  { unfold h0. replace (2 * half x0 n 0) with (nth n (fst (vec (2 * n) x0)) 0 + nth n (fst (vec (2 * n) x0)) 0).
    - apply iadd_ok; now apply nth_ok.
    - unfold half. rewrite Nat.sub_0_r, Nat.add_0_r. field. }
  assert (IU : inside u U).
  { unfold u, U. apply imul_ok; [assumption | assumption|]. rewrite <- (BigZ.spec_of_Z (Z.abs k)) at 2. apply itimes_ok; [rewrite BigZ.spec_of_Z; lia | exact IH0]. }
  assert (IHk : inside hk (2 * half x0 n (Z.abs_nat k))).
  { unfold hk. replace (2 * half x0 n (Z.abs_nat k)) with (nth (n - Z.abs_nat k) (fst (vec (2 * n) x0)) 0 + nth (n + Z.abs_nat k) (fst (vec (2 * n) x0)) 0) by (unfold half; field).
    apply iadd_ok; now apply nth_ok. }
  assert (IV : inside v V).
  { unfold v, V. destruct (Z.even (Z.abs k / 2)); [now rewrite Rmult_1_l|].
    replace (-1 * (2 * half x0 n (Z.abs_nat k))) with (- (2 * half x0 n (Z.abs_nat k))) by ring. now apply ineg_ok. }
  assert (UP : 0 < U) by exact (ilt_ok _ _ _ _ Hu izero_ok IU).
  assert (T : forall z, (0 <= z)%Z -> forall a y, inside a y -> inside (itimes (BigZ.of_Z z) a) (IZR z * y)).
  { intros z Hz a y Ha. rewrite <- (BigZ.spec_of_Z z) at 2. apply itimes_ok; [now rewrite BigZ.spec_of_Z | exact Ha]. }
  assert (TP : (0 < 10 ^ e)%Z) by (apply Z.pow_pos_nonneg; lia).
  assert (IM : inside mu (IZR m * U)).
  { unfold mu. destruct (Z.leb_spec 0 m); [now apply T|]. replace (IZR m * U) with (- (IZR (- m) * U)) by (rewrite opp_IZR; ring). apply ineg_ok. apply T; [lia | exact IU]. }
  assert (IE : inside E (Rabs (IZR m * U - IZR (10 ^ e) * V))) by (apply iabs_ok, isub_ok; [exact IM | apply T; [lia | exact IV]]).
  assert (C1 : IZR (10 ^ 16) * Rabs (IZR m * U - IZR (10 ^ e) * V) <= IZR (2 * 10 ^ e) * U) by (eapply ile_ok; [exact H1 | apply T; [lia | exact IE] | apply T; [lia | exact IU]]).
  assert (C2 : IZR (10 ^ 15) * Rabs (IZR m * U - IZR (10 ^ e) * V) <= IZR (60 * 10 ^ e) * Rabs V) by (eapply ile_ok; [exact H2 | apply T; [lia | exact IE] | apply T; [lia | now apply iabs_ok]]).
  
  assert (EC : us_sinc (window x0 n) k = V / U).
  { unfold us_sinc, sinc. assert (Hk : IZR k <> 0) by (apply not_0_IZR; intros ->; discriminate Ho).
    destruct (Req_EM_T (IZR k * 0.5) 0) as [Z|Z]; [exfalso; lra|].
    pose proof (sin_odd k Ho) as SO. pose proof PI_RGT_0. assert (Hka : IZR (Z.abs k) <> 0) by (apply not_0_IZR; intros Y; apply Hk; f_equal; lia).
    replace (sin (PI * (IZR k * 0.5)) / (PI * (IZR k * 0.5))) with (sin (PI * (IZR k * 0.5)) / IZR k * (2 / PI)) by (replace 0.5 with (/ 2) by lra; field; split; lra).
    rewrite SO. unfold V, U, window. field. repeat split; lra. }
  assert (ED : dec_val d = IZR m / IZR (10 ^ e)).
  { unfold dec_val. fold m. replace (dexp d) with (- e)%Z by (unfold e; lia). rewrite powerRZ_neg', ten_pow by lia. reflexivity. }
  cbv zeta. rewrite EC, ED. assert (TR : 0 < IZR (10 ^ e)) by now apply IZR_lt.
  set (t := IZR (10 ^ e)) in *. set (r := IZR m) in *.
  assert (EQ : r / t - V / U = (r * U - t * V) * / (t * U)) by (field; lra).
  assert (IP : 0 < / (t * U)) by (apply Rinv_0_lt_compat, Rmult_lt_0_compat; assumption).
  rewrite EQ, Rabs_mult, (Rabs_pos_eq (/ (t * U))) by lra. set (W := Rabs (r * U - t * V)) in *.
  rewrite mult_IZR in C1, C2. fold t in C1, C2. change (10 ^ 16)%Z with 10000000000000000%Z in C1. change (10 ^ 15)%Z with 1000000000000000%Z in C2.
  split.
  - apply Rmult_le_reg_r with (t * U); [now apply Rmult_lt_0_compat|]. rewrite Rmult_assoc, Rinv_l by (apply Rgt_not_eq, Rmult_lt_0_compat; assumption).
    apply Rmult_le_reg_l with (10 ^ 16); [lra|]. eapply Rle_trans; [|eapply Rle_trans; [exact C1|]]; [right; ring | right; field].
  - unfold Rdiv at 2. rewrite Rabs_mult, (Rabs_pos_eq (/ U)) by (left; now apply Rinv_0_lt_compat).
    apply Rmult_le_reg_r with (t * U); [now apply Rmult_lt_0_compat|]. rewrite Rmult_assoc, Rinv_l by (apply Rgt_not_eq, Rmult_lt_0_compat; assumption).
    apply Rmult_le_reg_l with (10 ^ 15); [lra|]. eapply Rle_trans; [|eapply Rle_trans; [exact C2|]]; [right; ring | right; field; lra].
Qed.
Lemma check_lits_ok P n p x0 : (0 <= toZ (fst P))%Z -> inside P PI -> Forall2 inside p (fst (vec (2 * n) x0)) -> 0 < half x0 n 0 ->
  forall t i, check_lits P n p i t = true -> forall j, (j < length t)%nat ->
  let c := us_sinc (window x0 n) (mkfir_position n (i + j)) in let d := nth j t (Dec 0 0) in
  Rabs (dec_val d - c) <= 2 / 10 ^ 16 /\ Rabs (dec_val d - c) <= 6 / 10 ^ 14 * Rabs c.
Proof.
  intros HP0 HP Hp H0. induction t as [|d t IH]; intros i H j Hj; [cbn in Hj; lia|].
  cbn [check_lits] in H. apply andb_true_iff in H. destruct H as [H1 H2]. destruct j as [|j].
  - rewrite Nat.add_0_r. cbn [nth]. eapply check_lit_ok; eassumption.
  - cbn [nth]. rewrite <- Nat.add_succ_comm. apply IH; [exact H2 | cbn in Hj; lia].
Qed.


Definition fx (b : bigZ) : R := IZR (toZ b) / unit_.
Lemma fx_lt a b : (toZ a < toZ b)%Z -> fx a < fx b.
Proof. intros H. apply Rmult_lt_compat_r; [apply Rinv_0_lt_compat, unit_pos | now apply IZR_lt]. Qed.
Lemma dsign_ok N s b : (0 <= toZ b)%Z -> dsign N s b = true -> if s then 0 < dgeg (3/4) N (fx b) else dgeg (3/4) N (fx b) < 0.
Proof.
  intros Hb H. pose proof (irun_ok N (ipoint b) (fx b) Hb (ipoint_ok _)) as (_ & _ & _ & D & _). unfold dsign in H. cbv zeta in H.
  destruct s; eapply ilt_ok; try exact H; try exact izero_ok; exact D.
Qed.
Lemma bracket N s a b : (0 <= toZ a)%Z -> (toZ a < toZ b)%Z -> dsign N (negb s) a = true -> dsign N s b = true ->
  exists r, fx a < r < fx b /\ dgeg (3/4) N r = 0.
Proof.
  intros Ha Hab Sa Sb. apply dsign_ok in Sa, Sb; try lia. pose proof (fx_lt _ _ Hab) as L.
  assert (E : exists r, fx a <= r <= fx b /\ dgeg (3/4) N r = 0).
  { destruct s; cbn [negb] in Sa.
    - destruct (IVT (dgeg (3/4) N) _ _ (dgeg_cont _ _) L Sa Sb) as [z Hz]. eauto.
    - destruct (IVT (- dgeg (3/4) N)%F _ _ (continuity_opp _ (dgeg_cont _ _)) L) as [z [Hz Hz0]]; [unfold opp_fct; lra | unfold opp_fct; lra|].
      exists z. split; [exact Hz|]. unfold opp_fct in Hz0. lra. }
  destruct E as (r & R & Z). exists r. split; [|exact Z].
  assert (r <> fx a) by (intros ->; rewrite Z in Sa; destruct s; cbn [negb] in Sa; lra).
  assert (r <> fx b) by (intros ->; rewrite Z in Sb; destruct s; lra). lra.
Qed.
Lemma last_step {A} : forall l (b prev : A), last (b :: l) prev = last l b.
Proof. induction l as [|c l IH]; intros b prev; [reflexivity|]. change (last (b :: c :: l) prev) with (last (c :: l) prev). now rewrite !IH. Qed.
Lemma alternates_ok N : forall bs s prev, (0 <= toZ prev)%Z -> dsign N (negb s) prev = true -> alternates N s prev bs = true ->
  fx prev <= fx (last bs prev) /\
  exists l, length l = length bs /\ NoDup l /\ forall r, In r l -> fx prev < r < fx (last bs prev) /\ dgeg (3/4) N r = 0.
Proof.
  induction bs as [|b bs IH]; intros s prev Hp Sp H.
  - split; [cbn; lra|]. exists []. split; [reflexivity|]. split; [constructor|]. intros r [].
  - cbn [alternates] in H. rewrite !andb_true_iff, BigZ.spec_ltb, Z.ltb_lt in H. destruct H as ((Hb & Sb) & H).
    destruct (bracket N s prev b Hp Hb Sp Sb) as (r & R & Zr).
    destruct (IH (negb s) b ltac:(lia)) as (LL & l & Ll & ND & Hl); [now rewrite negb_involutive | exact H|].
    rewrite last_step.
    split; [lra|]. exists (r :: l). split; [cbn [length]; now rewrite Ll|]. split.
    + constructor; [|exact ND]. intros I. apply Hl in I. lra.
    + intros u [<-|I]; [split; [lra | exact Zr]|]. apply Hl in I. split; [lra | tauto].
Qed.

Theorem check_ok P T n s x1l x1h bs x0l x0h t latt : inside P PI -> inside T (Rpower 10 (latt / 20)) ->
  check P T n s x1l x1h bs x0l x0h t = true ->
  length t = n /\ (exists w, ultrwin n (3/4) latt w) /\
  forall w, ultrwin n (3/4) latt w -> forall j, (j < n)%nat ->
    let c := us_sinc w (mkfir_position n j) in let d := nth j t (Dec 0 0) in
    Rabs (dec_val d - c) <= 2 / 10 ^ 16 /\ Rabs (dec_val d - c) <= 6 / 10 ^ 14 * Rabs c.
Proof.
  intros HP HT. unfold check. destruct (ivec (2 * n) (iover 2%bigZ (ibetween x0l x0h))) as [[m p] q] eqn:EV.
  rewrite !andb_true_iff. intros ((((((((((((((C1 & C2) & C3) & C4) & C5) & C6) & C7) & C8) & C9) & C10) & C11) & C12) & C13) & C14) & C15).
  rewrite BigZ.spec_ltb in C1, C2. rewrite BigZ.spec_leb in C4, C5. apply Z.ltb_lt in C1, C2. apply Z.leb_le in C4, C5. apply Nat.ltb_lt in C12. apply Nat.eqb_eq in C8, C13.
  change (toZ 0%bigZ) with 0%Z in *. pose proof unit_pos as UP.
  assert (IU : 0 < / unit_) by now apply Rinv_0_lt_compat.
  assert (A0 : 1 < fx x0l) by (eapply ilt_ok; [exact C3 | apply ione_ok | apply ipoint_ok]).
  assert (A1 : 0 < fx x1l) by (apply Rmult_lt_0_compat; [now apply IZR_lt | exact IU]).
  assert (B0 : fx x0l < fx x0h) by now apply fx_lt.
  assert (Zx0l : (0 <= toZ x0l)%Z).
  { apply le_IZR. apply Rmult_le_reg_r with (/ unit_); [exact IU|]. change (IZR (toZ x0l) * / unit_) with (fx x0l). lra. }
  assert (LL : fx (last bs x1h) < 1) by (eapply ilt_ok; [exact C9 | apply ipoint_ok | apply ione_ok]).
  (* the points where the derivative is 0 *)
  cbn [alternates] in C7. rewrite !andb_true_iff, BigZ.spec_ltb, Z.ltb_lt in C7. destruct C7 as ((C7 & C7') & C7'').
  destruct (bracket (2 * n) (negb s) x1l x1h ltac:(lia) C7 ltac:(now rewrite negb_involutive) C7') as (x1 & R1 & D1).
  destruct (alternates_ok (2 * n) bs (negb (negb s)) x1h ltac:(lia) ltac:(now rewrite negb_involutive) C7'') as (LB & l & Ll & ND & Hl).
  assert (AR : forall x, 0 < x -> dgeg (3/4) (2 * n) x = 0 -> x1 = x \/ fx x1h < x < 1).
  { intros x Hx Zx. destruct (all_roots (3/4) n (x1 :: l) ltac:(lia)) with (x := x) as [I|I]; try assumption.
    - constructor; [|exact ND]. intros I. apply Hl in I. lra.
    - intros r [<-|I]; [split; [lra | exact D1]|]. apply Hl in I. split; [lra | tauto].
    - cbn [length]. lia.
    - exists (fx x1l). pose proof (dsign_ok (2 * n) s x1l ltac:(lia) C6). destruct s; lra.
    - left. exact I.
    - right. apply Hl in I. lra. }
  assert (R1' : IZR (toZ x1l) / unit_ <= x1 <= IZR (toZ x1h) / unit_) by (split; left; apply R1).
  pose proof (irun_ok (2 * n) (ibetween x1l x1h) x1 ltac:(cbn [ibetween fst]; lia) (ibetween_ok _ _ _ R1')) as (_ & IC & _).
  assert (TA : inside (imul T (iabs (v_c (irun (2 * n) (ibetween x1l x1h))))) (Rpower 10 (latt / 20) * Rabs (geg (3/4) (2 * n) x1)))
    by (apply imul_ok; [exact C4 | exact HT | now apply iabs_ok]).
  set (target := Rpower 10 (latt / 20) * Rabs (geg (3/4) (2 * n) x1)) in *.
  (* the stretching *)
  pose proof (irun_ok (2 * n) (ipoint x0l) (fx x0l) ltac:(cbn [ipoint fst]; lia) (ipoint_ok _)) as (_ & CL & _).
  pose proof (irun_ok (2 * n) (ipoint x0h) (fx x0h) ltac:(cbn [ipoint fst]; lia) (ipoint_ok _)) as (_ & CH & _).
  assert (L0 : geg (3/4) (2 * n) (fx x0l) < target) by exact (ilt_ok _ _ _ _ C10 CL TA).
  assert (H0 : target < geg (3/4) (2 * n) (fx x0h)) by exact (ilt_ok _ _ _ _ C11 TA CH).
  destruct (IVT (geg (3/4) (2 * n) - fct_cte target)%F (fx x0l) (fx x0h)) as (x0 & R0 & E0).
  { apply continuity_minus; [apply geg_cont | apply continuity_const; intros ? ?; reflexivity]. }
  { exact B0. }
  { unfold minus_fct, fct_cte. lra. }
  { unfold minus_fct, fct_cte. lra. }
  unfold minus_fct, fct_cte in E0.
  assert (IX : inside (iover 2%bigZ (ibetween x0l x0h)) (x0 / 2)).
  { apply (iover_ok 2%bigZ); [reflexivity | now apply ibetween_ok]. }
  pose proof (ivec_ok (2 * n) (iover 2%bigZ (ibetween x0l x0h)) x0) as VO. rewrite EV in VO.
  destruct VO as (_ & VP & _); [unfold iover; cbn [fst ibetween]; rewrite BigZ.spec_div; apply Z.div_pos; [exact Zx0l | reflexivity] | exact IX|].
  assert (HP0 : 0 < half x0 n 0).
  { pose proof (ilt_ok _ _ _ _ C14 izero_ok (nth_ok _ _ VP n)). unfold half. rewrite Nat.sub_0_r, Nat.add_0_r. lra. }
  assert (WS : forall th, geg (3/4) (2 * n) (x0 * cos (th / 2)) = half x0 n 0 * (window x0 n 0 + twice_sum (fun k => window x0 n k * cos (INR k * th)) n)).
  { intros th. apply window_spectrum. lra. }
  assert (W0 : window x0 n 0 = 1) by (unfold window; field; lra).
  split; [exact C13|]. split.
  - exists (window x0 n), x0, x1, (half x0 n 0). split; [lra|]. split; [rewrite <- D1; apply dgeg_ok|]. split.
    { intros y Hy Dy. pose proof (uniqueness_limite _ _ _ _ Dy (dgeg_ok (3/4) (2 * n) y)) as Zy. destruct (AR y ltac:(lra) (eq_sym Zy)); lra. }
    split; [lra|]. split; [exact (Rminus_diag_uniq _ _ E0)|]. split; [exact W0 | exact WS].
  - intros w (y0 & y1 & g & Y1 & Dy & Fy & Y0 & Ey & Wy & Sy).
    assert (EX1 : y1 = x1).
    { pose proof (uniqueness_limite _ _ _ _ Dy (dgeg_ok (3/4) (2 * n) y1)) as Zy. destruct (AR y1 Y1 (eq_sym Zy)) as [E|E]; [now symmetry|].
      exfalso. apply (Fy x1); [lra|]. rewrite <- D1. apply dgeg_ok. }
    subst y1. fold target in Ey.
    assert (INJ : forall u v, 1 < u -> u < v -> geg (3/4) (2 * n) u <> geg (3/4) (2 * n) v).
    { intros u v Hu Huv E. destruct (MVT_cor2 (geg (3/4) (2 * n)) (dgeg (3/4) (2 * n)) u v Huv) as (c & Hc & Rc); [intros; apply dgeg_ok|].
      rewrite E in Hc. assert (Zc : dgeg (3/4) (2 * n) c * (v - u) = 0) by lra. apply Rmult_integral in Zc. destruct Zc as [Zc|Zc]; [|lra].
      destruct (AR c ltac:(lra) Zc); lra. }
    assert (EX0 : y0 = x0).
    { apply Rminus_diag_uniq in E0. destruct (Rtotal_order y0 x0) as [L|[E|L]]; [|exact E|]; exfalso; (eapply INJ; [|exact L|]; lra). }
    subst y0.
    assert (UW : forall k, (k <= n)%nat -> w k = window x0 n k).
    { apply (window_unique n w (window x0 n) g (half x0 n 0) (fun th => geg (3/4) (2 * n) (x0 * cos (th / 2))) Wy W0); [lra | exact Sy | exact WS]. }
    intros j Hj. pose proof (check_lits_ok P n p x0 C5 HP VP HP0 t 0 C15 j ltac:(lia)) as G. cbv zeta in G |- *.
    replace (us_sinc w (mkfir_position n j)) with (us_sinc (window x0 n) (mkfir_position n (0 + j))); [exact G|].
    unfold us_sinc. rewrite UW by (unfold mkfir_position; lia). reflexivity.
Qed.
