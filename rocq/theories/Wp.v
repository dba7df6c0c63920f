(** * Reasoning about commands: weakest preconditions and memory predicates *)
From Coq Require Import ZArith List Lia Bool ZifyNat ZifyBool.
From Verif Require Import Arith Mem FirModel.
Import ListNotations.
Open Scope Z_scope.
Open Scope m_scope.

Section Wp.
Context {A : arith}.
Implicit Types m : mem A.

(** the command terminates normally in a state satisfying Q *)
Definition runs {X} (c : M A X) (m : mem A) (Q : X -> mem A -> Prop) : Prop :=
  match c m with Ok (x, m') => Q x m' | Err _ => False end.

Lemma runs_ret {X} (x : X) m (Q : X -> mem A -> Prop) : Q x m -> runs (ret x) m Q.
Proof. exact (fun h => h). Qed.

Lemma runs_bind {X Y} (c : M A X) (k : X -> M A Y) m (Q : Y -> mem A -> Prop) :
  runs c m (fun x m' => runs (k x) m' Q) -> runs (bind c k) m Q.
Proof. unfold runs, bind. destruct (c m) as [[x m']|]; auto. Qed.

Lemma runs_mono {X} (c : M A X) m (P Q : X -> mem A -> Prop) :
  runs c m P -> (forall x m', P x m' -> Q x m') -> runs c m Q.
Proof. unfold runs. destruct (c m) as [[x m']|]; auto. Qed.

Lemma runs_eq {X} (c : M A X) m x m' (Q : X -> mem A -> Prop) :
  c m = Ok (x, m') -> Q x m' -> runs c m Q.
Proof. unfold runs. intros ->. auto. Qed.

Lemma runs_inv {X} (c : M A X) m (Q : X -> mem A -> Prop) :
  runs c m Q -> exists x m', c m = Ok (x, m') /\ Q x m'.
Proof. unfold runs. destruct (c m) as [[x m']|] eqn:E; [eauto | tauto]. Qed.

Lemma runs_load p m v (Q : A -> mem A -> Prop) :
  m (pb p) (po p) = Some v -> Q v m -> runs (load p) m Q.
Proof. unfold runs, load. intros ->. auto. Qed.

Lemma runs_store p v m (Q : unit -> mem A -> Prop) :
  m (pb p) (po p) <> None -> Q tt (upd m (pb p) (po p) v) -> runs (store p v) m Q.
Proof. unfold runs, store. destruct (m (pb p) (po p)); auto; congruence. Qed.

Lemma runs_for {X} (Inv : Z -> X -> mem A -> Prop) n i (body : Z -> X -> M A X) x m
    (Q : X -> mem A -> Prop) :
  Inv i x m ->
  (forall k y m', i <= k < i + Z.of_nat n -> Inv k y m' -> runs (body k y) m' (Inv (k + 1))) ->
  (forall y m', Inv (i + Z.of_nat n) y m' -> Q y m') ->
  runs (for_up n i body x) m Q.
Proof.
  revert i x m. induction n as [|n IH]; intros i x m Hi Hb HQ; cbn [for_up].
  - apply runs_ret, HQ. now rewrite Z.add_0_r.
  - apply runs_bind. apply (runs_mono _ _ (Inv (i + 1))).
    + apply Hb; [lia | exact Hi].
    + intros y m' Hy. apply IH; [exact Hy | |].
      * intros k z m'' Hk. apply Hb. lia.
      * intros z m'' Hz. apply HQ. now replace (i + Z.of_nat (S n)) with (i + 1 + Z.of_nat n) by lia.
Qed.

Lemma runs_while {X} (Inv : X -> mem A -> Prop) (meas : X -> Z) fuel cond (body : X -> M A X) x m
    (Q : X -> mem A -> Prop) :
  Inv x m ->
  (forall y m', Inv y m' -> cond y = true -> 0 < meas y) ->
  meas x <= Z.of_nat fuel ->
  (forall y m', Inv y m' -> cond y = true ->
     runs (body y) m' (fun y' m'' => Inv y' m'' /\ meas y' < meas y)) ->
  (forall y m', Inv y m' -> cond y = false -> Q y m') ->
  runs (while fuel cond body x) m Q.
Proof.
  intros Hi Hpos Hf Hb HQ. revert x m Hi Hf.
  induction fuel as [|f IH]; intros x m Hi Hf; cbn [while];
    destruct (cond x) eqn:Ec; try (apply runs_ret, HQ; auto; fail).
  - specialize (Hpos x m Hi Ec). lia.
  - apply runs_bind. eapply runs_mono; [apply Hb; eauto|].
    intros y m' [Hy Hlt]. apply IH; [exact Hy | lia].
Qed.

(** ** Memory predicates *)

(** the n elements at p are X 0, X 1, ... *)
Definition has m (p : ptr) (n : Z) (X : Z -> A) : Prop :=
  forall k, 0 <= k < n -> m (pb p) (po p + k) = Some (X k).

Definition mapped m (p : ptr) (n : Z) : Prop :=
  forall k, 0 <= k < n -> m (pb p) (po p + k) <> None.

(** element i of block b lies in the n elements at p *)
Definition inr (p : ptr) (n : Z) (b : blk) (i : Z) : Prop :=
  b = pb p /\ po p <= i < po p + n.

(** m' agrees with m outside the n elements at p *)
Definition frame (p : ptr) (n : Z) m m' : Prop :=
  forall b i, ~ inr p n b i -> m' b i = m b i.

Definition disj (p : ptr) (n : Z) (q : ptr) (k : Z) : Prop :=
  pb p <> pb q \/ po p + n <= po q \/ po q + k <= po p.

Lemma has_mapped m p n X : has m p n X -> mapped m p n.
Proof. intros H k Hk. rewrite H by lia. discriminate. Qed.

Lemma has_sub m p n X a k : has m p n X -> 0 <= a -> a + k <= n ->
  has m (padd p a) k (fun i => X (a + i)).
Proof.
  intros H Ha Hk i Hi. cbn. rewrite <- Z.add_assoc. apply H. lia.
Qed.

Lemma mapped_sub m p n a k : mapped m p n -> 0 <= a -> a + k <= n -> mapped m (padd p a) k.
Proof.
  intros H Ha Hk i Hi. cbn. rewrite <- Z.add_assoc. apply H. lia.
Qed.

Lemma has_ext m p n X Y : has m p n X -> (forall k, 0 <= k < n -> X k = Y k) -> has m p n Y.
Proof. intros H E k Hk. rewrite <- E by lia. auto. Qed.

Lemma frame_refl p n m : frame p n m m.
Proof. intros b i _. reflexivity. Qed.

Lemma frame_trans p n m1 m2 m3 : frame p n m1 m2 -> frame p n m2 m3 -> frame p n m1 m3.
Proof. intros H1 H2 b i H. rewrite H2, H1; auto. Qed.

Lemma frame_has p n m m' q k X : frame p n m m' -> disj q k p n -> has m q k X -> has m' q k X.
Proof.
  intros F D H i Hi. rewrite F; [auto|]. intros [E R]. destruct D as [D|D]; [congruence | lia].
Qed.

Lemma frame_mapped p n m m' q k : frame p n m m' -> disj q k p n -> mapped m q k -> mapped m' q k.
Proof.
  intros F D H i Hi. rewrite F; [auto|]. intros [E R]. destruct D as [D|D]; [congruence | lia].
Qed.

Lemma frame_wider p n q k m m' :
  frame p n m m' -> pb p = pb q -> po q <= po p -> po p + n <= po q + k -> frame q k m m'.
Proof.
  intros F E H1 H2 b i Hn. apply F. intros [Eb R]. apply Hn. split; [congruence | lia].
Qed.

Lemma upd_same m b i v : upd m b i v b i = Some v.
Proof. unfold upd. now rewrite blk_eqb_refl, Z.eqb_refl. Qed.

Lemma upd_other m b i v b' i' : (b' <> b \/ i' <> i) -> upd m b i v b' i' = m b' i'.
Proof.
  unfold upd. intros H. destruct (blk_eqb_spec b' b); cbn; auto.
  destruct (Z.eqb_spec i' i); auto. destruct H; congruence.
Qed.

Lemma upd_eq m b i v b' i' : b' = b -> i' = i -> upd m b i v b' i' = Some v.
Proof. intros -> ->. apply upd_same. Qed.

Lemma frame_upd p n m b i v : inr p n b i -> frame p n m (upd m b i v).
Proof.
  intros [-> R] b' i' H. apply upd_other.
  destruct (blk_eqb_spec b' (pb p)) as [->|]; [|left; congruence].
  right. intros ->. apply H. split; auto.
Qed.

Lemma mapped_upd_any m b i v b' i' : m b' i' <> None -> upd m b i v b' i' <> None.
Proof. unfold upd. destruct (_ && _); [discriminate | auto]. Qed.

Lemma mapped_upd m b i v p n : mapped m p n -> mapped (upd m b i v) p n.
Proof. intros H k Hk. apply mapped_upd_any. auto. Qed.

Lemma u32_small z : 0 <= z < 2 ^ 32 -> u32 z = z.
Proof. intros. unfold u32. now apply Z.mod_small. Qed.

Lemma padd_0 p : padd p 0 = p.
Proof. destruct p. unfold padd. cbn. now rewrite Z.add_0_r. Qed.

Lemma padd_padd p a b : padd (padd p a) b = padd p (a + b).
Proof. destruct p. unfold padd. cbn. now rewrite Z.add_assoc. Qed.

(** ** lists as memory contents *)
Definition len (l : list A) : Z := Z.of_nat (length l).
Definition nthZ (l : list A) (k : Z) : A := nth (Z.to_nat k) l f0.

(** a stream that is zero before its start *)
Definition sig (l : list A) (k : Z) : A := if k <? 0 then f0 else nthZ l k.

Lemma sig_neg l k : k < 0 -> sig l k = f0.
Proof. intros. unfold sig. destruct (Z.ltb_spec k 0); [auto | lia]. Qed.

Lemma sig_app1 l b k : k < len l -> sig (l ++ b) k = sig l k.
Proof.
  intros. unfold sig, len, nthZ in *. destruct (Z.ltb_spec k 0); auto.
  rewrite app_nth1; auto. lia.
Qed.

Lemma sig_app2 l b k : 0 <= k -> sig (l ++ b) (len l + k) = nthZ b k.
Proof.
  intros. unfold sig, len, nthZ in *. destruct (Z.ltb_spec (Z.of_nat (length l) + k) 0); [lia|].
  rewrite app_nth2 by lia. f_equal. lia.
Qed.

Lemma sig_nonneg l k : 0 <= k -> sig l k = nthZ l k.
Proof. intros. unfold sig. destruct (Z.ltb_spec k 0); [lia | auto]. Qed.

Lemma nthZ_over l k : len l <= k -> nthZ l k = f0.
Proof. intros. unfold nthZ, len in *. apply nth_overflow. lia. Qed.

Lemma len_app (l b : list A) : len (l ++ b) = len l + len b.
Proof. unfold len. rewrite app_length. lia. Qed.

Lemma len_nonneg (l : list A) : 0 <= len l.
Proof. unfold len. lia. Qed.

Lemma len_nil : len [] = 0.
Proof. reflexivity. Qed.

(** ** copies *)

(** contents copied to dst; everything else unchanged *)
Lemma copy_fwd_runs src n dst X m :
  has m src n X -> mapped m dst n -> disj src n dst n ->
  runs (copy_fwd src n dst) m (fun _ m' => has m' dst n X /\ frame dst n m m').
Proof.
  intros Hs Hd D. unfold copy_fwd.
  apply runs_for with (Inv := fun i _ m' =>
    (forall k, 0 <= k < i -> m' (pb dst) (po dst + k) = Some (X k)) /\ frame dst n m m'
    /\ mapped m' dst n).
  - split; [lia | split; [apply frame_refl | auto]].
  - intros k y m' Hk (Hp & F & Mp). apply runs_bind.
    eapply runs_load; [cbn; apply (frame_has dst n m m' src n X F D Hs); lia|].
    apply runs_store; cbn.
    + apply Mp. lia.
    + split; [|split].
      * intros i Hi. destruct (Z.eq_dec i k) as [->|].
        { apply upd_same. }
        rewrite upd_other by lia. apply Hp. lia.
      * eapply frame_trans; [exact F|]. apply frame_upd. split; cbn; [reflexivity | lia].
      * apply mapped_upd, Mp.
  - intros _ m' (Hp & F & _). split; [|exact F].
    intros k Hk. apply Hp. lia.
Qed.

Lemma load_list_runs p n X m :
  has m p (Z.of_nat n) X ->
  load_list p n m = Ok (map (fun i => X (Z.of_nat i)) (seq 0 n), m).
Proof.
  revert p X. induction n as [|n IH]; intros p X H; cbn [load_list seq map]; [reflexivity|].
  unfold bind, load at 1.
  assert (E : m (pb p) (po p) = Some (X 0)).
  { rewrite <- (H 0) by lia. f_equal. lia. }
  rewrite E.
  rewrite (IH (padd p 1) (fun i => X (1 + i))).
  - unfold ret. rewrite <- seq_shift, map_map. do 3 f_equal.
    apply map_ext. intros a. f_equal. lia.
  - apply (has_sub m p (Z.of_nat (S n)) X); [exact H | lia | lia].
Qed.

Lemma store_list_runs p l m :
  mapped m p (len l) ->
  runs (store_list p l) m (fun _ m' => has m' p (len l) (nthZ l) /\ frame p (len l) m m').
Proof.
  revert p m. induction l as [|x l IH]; intros p m Hm; cbn [store_list].
  - apply runs_ret. split; [intros k Hk; cbn in Hk; lia | apply frame_refl].
  - apply runs_bind. assert (E : len (x :: l) = 1 + len l) by (unfold len; cbn [length]; lia).
    pose proof (len_nonneg l).
    apply runs_store.
    + rewrite <- (Z.add_0_r (po p)). apply Hm. lia.
    + eapply runs_mono; [apply IH|].
      * apply mapped_upd. apply (mapped_sub m p (len (x :: l))); [exact Hm | lia | lia].
      * intros _ m' [Hh F]. split.
        { intros k Hk. destruct (Z.eq_dec k 0) as [->|].
          - rewrite F by (intros [_ R]; cbn in R; lia). apply upd_eq; [reflexivity | lia].
          - specialize (Hh (k - 1)). cbn in Hh.
            replace (po p + 1 + (k - 1)) with (po p + k) in Hh by lia.
            rewrite Hh by lia. f_equal. unfold nthZ.
            replace (Z.to_nat k) with (S (Z.to_nat (k - 1))) by lia. reflexivity. }
        { eapply frame_trans.
          - apply (frame_upd p (len (x :: l)) m (pb p) (po p) x). split; [reflexivity | lia].
          - eapply frame_wider; [exact F | reflexivity | cbn [padd po]; lia | cbn [padd po]; lia]. }
Qed.

Lemma nthZ_map_seq (X : Z -> A) n k : 0 <= k < Z.of_nat n ->
  nthZ (map (fun i => X (Z.of_nat i)) (seq 0 n)) k = X k.
Proof.
  intros Hk. unfold nthZ. rewrite nth_indep with (d' := X (Z.of_nat (0%nat))).
  - rewrite (map_nth (fun i => X (Z.of_nat i))). rewrite seq_nth by lia. f_equal. lia.
  - rewrite map_length, seq_length. lia.
Qed.

Lemma memmove_runs dst src n X m :
  0 <= n -> has m src n X -> mapped m dst n ->
  runs (memmove_f dst src n) m (fun _ m' => has m' dst n X /\ frame dst n m m').
Proof.
  intros Hn Hs Hd. unfold memmove_f. apply runs_bind.
  eapply runs_eq; [apply load_list_runs with (X := X); rewrite Z2Nat.id by lia; exact Hs|].
  assert (E : len (map (fun i => X (Z.of_nat i)) (seq 0 (Z.to_nat n))) = n).
  { unfold len. rewrite map_length, seq_length. lia. }
  eapply runs_mono; [apply store_list_runs; rewrite E; exact Hd|].
  rewrite E. intros _ m' [Hh F]. split; [|exact F].
  eapply has_ext; [exact Hh|]. intros k Hk. apply nthZ_map_seq. lia.
Qed.

Lemma fill_runs p n v m :
  mapped m p n ->
  runs (fill p n v) m (fun _ m' => has m' p n (fun _ => v) /\ frame p n m m').
Proof.
  intros Hm. unfold fill.
  apply runs_for with (Inv := fun i _ m' =>
    (forall k, 0 <= k < i -> m' (pb p) (po p + k) = Some v) /\ frame p n m m' /\ mapped m' p n).
  - split; [lia | split; [apply frame_refl | auto]].
  - intros k _ m' Hk (Hp & F & Mp). apply runs_store; cbn.
    + apply Mp. lia.
    + split; [|split].
      * intros i Hi. destruct (Z.eq_dec i k) as [->|]; [apply upd_same|].
        rewrite upd_other by lia. apply Hp. lia.
      * eapply frame_trans; [exact F|]. apply frame_upd. split; cbn; [reflexivity | lia].
      * apply mapped_upd, Mp.
  - intros _ m' (Hp & F & _). split; [|exact F]. intros k Hk. apply Hp. lia.
Qed.
End Wp.
