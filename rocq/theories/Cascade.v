(** * Composition of processing steps

    [proc_ok] generalises the stage contract: S relates the memory to the input
    and output streams so far, E says which memory regions may be passed, pr
    which blocks may be modified besides the output, and pre is a further
    condition on the memory at the time of the call. *)
From Coq Require Import ZArith List Lia Bool ZifyNat ZifyBool.
From Verif Require Import Arith Mem Wp Stage.
Import ListNotations.
Open Scope Z_scope.
Open Scope m_scope.

Lemma list_cut {A : arith} (b : list A) k : 0 <= k <= len b -> exists b1 b2, b = b1 ++ b2 /\ len b1 = k.
Proof.
  intros Hk. exists (firstn (Z.to_nat k) b), (skipn (Z.to_nat k) b).
  rewrite firstn_skipn. split; [reflexivity|]. unfold len in *. rewrite firstn_length. lia.
Qed.

Section Cascade.
Context {A : arith} (addr : blk -> Z).
Implicit Types m : mem A.

Definition proc_ok {X} (run : ptr -> Z -> ptr -> M A X) (rv : ptr -> Z -> X)
    (E : ptr -> Z -> Prop) (pr : blk -> Prop) (pre : mem A -> Prop)
    (S : mem A -> list A -> list A -> Prop)
    (okn : Z -> Prop) (outn : Z -> Z) (slack : Z) (ip : Prop) : Prop :=
  forall m l yl b input output,
    S m l yl -> pre m -> okn (len b) ->
    E input (len b + slack) -> E output (outn (len b)) ->
    has m input (len b) (nthZ b) -> mapped m (padd input (len b)) slack ->
    mapped m output (outn (len b)) ->
    (disj input (len b + slack) output (outn (len b)) \/ ip /\ over input output) ->
    (0 < len b -> asep addr input (len b) output (outn (len b)) \/ ip /\ over input output) ->
    runs (run input (len b) output) m (fun v m' =>
      v = rv output (len b) /\
      exists y, len y = outn (len b) /\ S m' (l ++ b) (yl ++ y) /\
        has m' output (len y) (nthZ y) /\
        (forall b' i, ~ pr b' -> ~ inr output (outn (len b)) b' i -> m' b' i = m b' i)).

Definition owned_by (own : blk -> Prop) (S : mem A -> list A -> list A -> Prop) : Prop :=
  forall m m' l y, (forall b i, own b -> m' b i = m b i) -> S m l y -> S m' l y.

Definition urv (_ : ptr) (_ : Z) : unit := tt.
Definition Edata (p : ptr) (_ : Z) : Prop := is_data (pb p).
Definition stS (inv : mem A -> list A -> Prop) (R : list A -> list A -> Prop) m l y := inv m l /\ R l y.

Lemma stage_proc run tag inv R okn outn slack ip :
  stage_ok addr run tag inv R okn outn slack ip ->
  proc_ok run urv Edata (priv tag) (fun _ => True) (stS inv R) okn outn slack ip.
Proof.
  intros H m l yl b input output [I Rl] _ Hn Di Do Hi Ms Mo D As.
  eapply runs_mono; [eapply H; eassumption|].
  intros [] m' (y & Ly & R' & Hy & I' & F). split; [reflexivity|].
  exists y. split; [exact Ly|]. split; [split; assumption|]. split; assumption.
Qed.

Lemma stS_owned tag inv R : local tag inv -> owned_by (fun b => tag_of b = Some tag) (stS inv R).
Proof. intros L m m' l y E [I Rl]. split; [|exact Rl]. eapply L; eauto. Qed.

Lemma asep_sub p n q k a c n' k' : asep addr p n q k -> 0 <= a -> a + n' <= n -> 0 <= c -> c + k' <= k ->
  asep addr (padd p a) n' (padd q c) k'.
Proof. unfold asep, paddr. cbn [padd pb po]. lia. Qed.

Lemma asep_sub0 p n q k n' k' : asep addr p n q k -> n' <= n -> k' <= k -> asep addr p n' q k'.
Proof. unfold asep. lia. Qed.

Lemma asep_sym p n q k : asep addr p n q k -> asep addr q k p n.
Proof. unfold asep. lia. Qed.

Lemma disj_sub p n q k a c n' k' : disj p n q k -> 0 <= a -> a + n' <= n -> 0 <= c -> c + k' <= k ->
  disj (padd p a) n' (padd q c) k'.
Proof. unfold disj. cbn [padd pb po]. intros [H|H] **; [left; exact H | right; lia]. Qed.

(** ** Two steps through a temporary array *)
Definition seqS (S1 S2 : mem A -> list A -> list A -> Prop) m l z := exists y, S1 m l y /\ S2 m y z.
Definition Ethru (E1 E2 : ptr -> Z -> Prop) (T : ptr) (cap : Z) (p : ptr) (n : Z) : Prop :=
  E1 p n /\ E2 p n /\ pb p <> pb T /\ asep addr p n T cap.

Section Seq.
Variables (run1 run2 : ptr -> Z -> ptr -> M A unit) (E1 E2 : ptr -> Z -> Prop)
  (pr1 pr2 own1 own2 : blk -> Prop) (pre1 : mem A -> Prop)
  (S1 S2 : mem A -> list A -> list A -> Prop) (ok1 ok2 : Z -> Prop) (out1 out2 : Z -> Z)
  (sl1 sl2 : Z) (T : ptr) (cap : Z) (ip1 ip2 : Prop).
Hypotheses (P1 : proc_ok run1 urv E1 pr1 pre1 S1 ok1 out1 sl1 ip1)
  (P2 : proc_ok run2 urv E2 pr2 (fun _ => True) S2 ok2 out2 sl2 ip2)
  (L1 : owned_by own1 S1) (L2 : owned_by own2 S2)
  (D1 : forall b, own1 b -> ~ pr2 b) (D2 : forall b, own2 b -> ~ pr1 b)
  (N1 : forall p n, E1 p n -> ~ pr1 (pb p) /\ ~ own1 (pb p))
  (N2 : forall p n, E2 p n -> ~ pr2 (pb p) /\ ~ own2 (pb p))
  (T1 : forall k, 0 <= k <= cap -> E1 T k) (T2 : forall k, 0 <= k <= cap -> E2 T k)
  (s1pos : 0 <= sl1) (s2pos : 0 <= sl2) (cpos : 0 <= cap).

(** the output of the second step does not start before the first has read its whole input *)
Lemma seq_ok :
  proc_ok (fun input n output => run1 input n T ;;; run2 T (out1 n) output) urv
    (Ethru E1 E2 T cap) (fun b => pr1 b \/ pr2 b \/ b = pb T)
    (fun m => pre1 m /\ mapped m T cap) (seqS S1 S2)
    (fun n => ok1 n /\ ok2 (out1 n) /\ 0 < out1 n /\ out1 n + sl2 <= cap /\ 0 < n)
    (fun n => out2 (out1 n)) sl1 True.
Proof.
  intros m l zl b input output (yl & St1 & St2) (Pm & MT) (O1 & O2 & Op & Oc & Hn)
    (Ei1 & Ei2 & Ein & Eia) (Eo1 & Eo2 & Eon & Eoa) Hi Ms Mo D As.
  set (n := len b) in *. apply runs_bind.
  eapply runs_mono.
  { apply P1 with (l := l) (yl := yl).
    - exact St1.
    - exact Pm.
    - exact O1.
    - exact Ei1.
    - apply T1. fold n. lia.
    - exact Hi.
    - exact Ms.
    - replace T with (padd T 0) by apply padd_0. apply mapped_sub with (n := cap); [exact MT | lia | fold n; lia].
    - left. left. exact Ein.
    - intros _. left. eapply asep_sub0; [exact Eia | fold n; lia | fold n; lia]. }
  fold n. intros _ m1 (_ & y & Ly & S1' & Hy & F1).
  assert (nT : ~ pr1 (pb T) /\ ~ own1 (pb T)) by (apply (N1 T 0), T1; lia).
  assert (nT2 : ~ pr2 (pb T) /\ ~ own2 (pb T)) by (apply (N2 T 0), T2; lia).
  destruct (N1 _ _ Eo1) as [No1 Nw1]. destruct (N2 _ _ Eo2) as [No2 Nw2].
  rewrite <- Ly.
  eapply runs_mono.
  { apply P2 with (l := yl) (yl := zl) (b := y).
    - eapply L2; [|exact St2]. intros b' i Hb'. apply F1; [exact (D2 _ Hb')|].
      intros [-> _]. apply (proj2 nT2). exact Hb'.
    - exact I.
    - rewrite Ly. exact O2.
    - apply T2. lia.
    - rewrite Ly. exact Eo2.
    - exact Hy.
    - intros k Hk. rewrite Ly. rewrite F1.
      + cbn [padd pb po]. rewrite <- Z.add_assoc. apply MT. lia.
      + cbn [padd pb]. apply nT.
      + intros [_ R]. cbn [padd po] in R. lia.
    - intros k Hk. rewrite F1.
      + apply Mo. rewrite Ly in Hk. exact Hk.
      + exact No1.
      + intros [Eb _]. exact (Eon Eb).
    - left. left. intros Eb. apply Eon. symmetry. exact Eb.
    - intros _. left. rewrite Ly. apply asep_sym. eapply asep_sub0; [exact Eoa | lia | lia]. }
  intros [] m2 (_ & z & Lz & S2' & Hz & F2). split; [reflexivity|].
  rewrite Ly in Lz, F2 |- *. exists z. split; [exact Lz|]. split; [|split; [exact Hz|]].
  - exists (yl ++ y). split; [|exact S2'].
    eapply L1; [|exact S1']. intros b' i Hb'. apply F2; [exact (D1 _ Hb')|].
    intros [-> _]. apply Nw1. exact Hb'.
  - intros b' i Hp Hr. rewrite F2.
    + apply F1; [intros Q; apply Hp; auto|]. intros [-> _]. apply Hp. auto.
    + intros Q. apply Hp. auto.
    + exact Hr.
Qed.

Lemma seqS_owned : owned_by (fun b => own1 b \/ own2 b) (seqS S1 S2).
Proof.
  intros m m' l z E (y & H1 & H2). exists y. split; [eapply L1 | eapply L2]; try eassumption; auto.
Qed.
End Seq.

(** ** A step followed by the release of its temporaries *)
Lemma runs_free b m (Q : unit -> mem A -> Prop) :
  (forall m', (forall b' i, b' <> b -> m' b' i = m b' i) -> Q tt m') -> runs (free b) m Q.
Proof.
  intros H. unfold free, runs. apply H. intros b' i Hb. destruct (blk_eqb_spec b' b); [contradiction | reflexivity].
Qed.

Section Tmps.
Context {X : Type}.
Variables (run : ptr -> Z -> ptr -> M A unit) (rv : ptr -> Z -> X)
  (E : ptr -> Z -> Prop) (pr own : blk -> Prop)
  (S : mem A -> list A -> list A -> Prop) (okn : Z -> Prop) (outn : Z -> Z)
  (slack : Z) (ip : Prop) (g : Z -> Z -> A).
Hypotheses (L : owned_by own S) (Own : forall b, own b -> b <> Tmp /\ b <> Tmp2)
  (P : proc_ok run urv E pr
         (fun m => mapped m (Ptr Tmp 0) 4096 /\ mapped m (Ptr Tmp2 0) 4096) S okn outn slack ip).

Lemma tmps_ok :
  proc_ok (fun input n output =>
      alloc Tmp (1024 * 4) (g 0) ;;;
      alloc Tmp2 (1024 * 4) (g 1) ;;;
      o <- (run input n output ;;; ret (rv output n)) ;;
      free Tmp ;;; free Tmp2 ;;; ret o) rv
    (fun p n => E p n /\ pb p <> Tmp /\ pb p <> Tmp2) (fun b => pr b \/ b = Tmp \/ b = Tmp2)
    (fun _ => True) S okn outn slack ip.
Proof.
  intros m l yl b input output St _ Hn (Ei & Ei1 & Ei2) (Eo & Eo1 & Eo2) Hi Ms Mo D As.
  apply runs_bind. unfold alloc at 1, runs at 1.
  apply runs_bind. unfold alloc at 1, runs at 1.
  set (m0 := fun b' i => if blk_eqb b' Tmp2 then _ else _).
  assert (Z0 : forall b' i, b' <> Tmp -> b' <> Tmp2 -> m0 b' i = m b' i).
  { intros b' i H1 H2. unfold m0. destruct (blk_eqb_spec b' Tmp2); [contradiction|].
    destruct (blk_eqb_spec b' Tmp); [contradiction | reflexivity]. }
  assert (M1 : mapped m0 (Ptr Tmp 0) 4096).
  { intros k Hk. unfold m0. cbn [pb po blk_eqb].
    replace ((0 <=? 0 + k) && (0 + k <? 1024 * 4)) with true by lia. discriminate. }
  assert (M2 : mapped m0 (Ptr Tmp2 0) 4096).
  { intros k Hk. unfold m0. cbn [pb po blk_eqb].
    replace ((0 <=? 0 + k) && (0 + k <? 1024 * 4)) with true by lia. discriminate. }
  clearbody m0. apply runs_bind. apply runs_bind.
  eapply runs_mono.
  { eapply P with (l := l) (yl := yl).
    - eapply L; [|exact St]. intros b' i Hb'. apply Z0; apply (Own _ Hb').
    - split; assumption.
    - exact Hn.
    - exact Ei.
    - exact Eo.
    - intros k Hk. rewrite Z0 by assumption. apply Hi, Hk.
    - intros k Hk. rewrite Z0 by assumption. apply Ms, Hk.
    - intros k Hk. rewrite Z0 by assumption. apply Mo, Hk.
    - exact D.
    - exact As. }
  intros u m1 (_ & y & Ly & S' & Hy & F). apply runs_ret.
  apply runs_bind. apply runs_free. intros m1' Z1.
  apply runs_bind. apply runs_free. intros m2 Z1'.
  apply runs_ret. split; [reflexivity|]. exists y. split; [exact Ly|].
  assert (Z2 : forall b' i, b' <> Tmp -> b' <> Tmp2 -> m2 b' i = m1 b' i).
  { intros b' i H1 H2. rewrite Z1', Z1 by assumption. reflexivity. }
  split; [|split].
  - eapply L; [|exact S']. intros b' i Hb'. apply Z2; apply (Own _ Hb').
  - intros k Hk. rewrite Z2 by assumption. apply Hy, Hk.
  - intros b' i Hp Hr. rewrite Z2 by (intros ->; apply Hp; auto).
    rewrite F by (auto; intros Q; apply Hp; auto). apply Z0; intros ->; apply Hp; auto.
Qed.
End Tmps.

(** ** The chunk loop of Resampler2::process_block *)
Section Chunks.
Variables (chunk : Z -> ptr -> Z -> ptr -> M A ptr) (E : ptr -> Z -> Prop) (pr : blk -> Prop)
  (S : mem A -> list A -> list A -> Prop) (okc : Z -> Prop) (outn : Z -> Z) (slack q : Z) (ip : Prop).
Hypotheses
  (P : forall n0, proc_ok (chunk n0) (fun o n => padd o (outn n)) E pr (fun _ => True) S okc outn slack ip)
  (Okc : forall k, 0 < k <= 1024 -> k mod q = 0 -> okc k)
  (qpos : 0 < q) (q1024 : 1024 mod q = 0)
  (out0 : outn 0 = 0) (outpos : forall k, 0 <= k -> 0 <= outn k)
  (outadd : forall a b, 0 <= a -> 0 <= b -> a mod q = 0 -> b mod q = 0 -> outn (a + b) = outn a + outn b)
  (Esub : forall p n a k, E p n -> 0 <= a -> 0 <= k -> a + k <= n -> E (padd p a) k)
  (Enp : forall p n, E p n -> ~ pr (pb p))
  (spos : 0 <= slack) (ipout : ip -> forall k, 0 <= k -> outn k <= k).

Definition chunks (input : ptr) (n : Z) (output : ptr) : M A unit :=
  while (Z.to_nat n) (fun s => let '(n, _, _) := s in negb (n =? 0))
    (fun s => let '(n, inp, outp) := s in
       let n_todo_samples := Z.min 1024 n in
       outp' <- chunk n inp n_todo_samples outp ;;
       ret (n - n_todo_samples, padd inp n_todo_samples, outp'))
    (n, input, output) ;;;
  ret tt.

Lemma mod_min n : 0 <= n -> n mod q = 0 -> Z.min 1024 n mod q = 0.
Proof. intros H1 H2. destruct (Z.min_spec 1024 n) as [[_ ->]|[_ ->]]; assumption. Qed.

Lemma mod_sub a b : a mod q = 0 -> b mod q = 0 -> (a - b) mod q = 0.
Proof. intros H1 H2. rewrite Zminus_mod, H1, H2. reflexivity. Qed.

Lemma chunks_ok :
  proc_ok chunks urv E pr (fun _ => True) S (fun n => n mod q = 0) outn slack ip.
Proof.
  intros m l yl b input output St _ Hmod Ei Eo Hi Ms Mo D As.
  pose proof (len_nonneg b) as Hn0. unfold chunks. apply runs_bind.
  set (Inv := fun (s : Z * ptr * ptr) (m' : mem A) =>
    let '(n, inp, outp) := s in
    exists b1 b2 y1, b = b1 ++ b2 /\ n = len b2 /\ len b1 mod q = 0 /\ len y1 = outn (len b1) /\
      inp = padd input (len b1) /\ outp = padd output (len y1) /\
      S m' (l ++ b1) (yl ++ y1) /\ has m' output (len y1) (nthZ y1) /\
      (forall b' i, ~ pr b' -> ~ inr output (len y1) b' i -> m' b' i = m b' i)).
  apply runs_while with (Inv := Inv) (meas := fun s => fst (fst s)).
  - exists [], b, []. rewrite !app_nil_r. split; [reflexivity|]. split; [reflexivity|].
    change (@len A []) with 0. split; [apply Z.mod_0_l; lia|]. split; [symmetry; exact out0|].
    rewrite !padd_0. split; [reflexivity|]. split; [reflexivity|]. split; [exact St|].
    split; [intros k Hk; lia|]. intros; reflexivity.
  - intros [[n inp] outp] m' (b1 & b2 & y1 & _ & -> & _) Hc. cbn [fst].
    pose proof (len_nonneg b2). lia.
  - cbn [fst]. lia.
  - intros [[n inp] outp] m' (b1 & b2 & y1 & Eb1 & En & Mb1 & Ly1 & -> & -> & St1 & Hy1 & Z1) Hc.
    subst n. pose proof (len_nonneg b2) as Hb2. pose proof (len_nonneg y1) as Hy0.
    pose proof (len_nonneg b1) as Hb1.
    assert (Lb : len b = len b1 + len b2) by (rewrite Eb1; apply len_app).
    assert (Mb2 : len b2 mod q = 0).
    { replace (len b2) with (len b - len b1) by lia. apply mod_sub; assumption. }
    set (k := Z.min 1024 (len b2)).
    assert (Mk : k mod q = 0) by (apply mod_min; assumption).
    destruct (list_cut b2 k ltac:(unfold k; lia)) as (c1 & c2 & Ec & Lc).
    assert (Lb2 : len b2 = len c1 + len c2) by (rewrite Ec; apply len_app).
    pose proof (len_nonneg c2) as Hc2.
    assert (Hb' : b = (b1 ++ c1) ++ c2) by (rewrite Eb1, Ec, app_assoc; reflexivity).
    assert (Eout : outn (len b) = len y1 + outn k + outn (len b2 - k)).
    { pose proof (outadd k (len b2 - k) ltac:(unfold k; lia) ltac:(unfold k; lia) Mk (mod_sub _ _ Mb2 Mk)) as Eo'.
      replace (k + (len b2 - k)) with (len b2) in Eo' by lia.
      rewrite Lb, (outadd (len b1) (len b2)) by assumption. lia. }
    assert (Hok : 0 <= outn k) by (apply outpos; unfold k; lia).
    assert (Hor : 0 <= outn (len b2 - k)) by (apply outpos; unfold k; lia).
    assert (Hk : 0 < k <= 1024) by (unfold k; lia).
    apply runs_bind. fold k. rewrite <- Lc.
    eapply runs_mono.
    { apply P with (l := l ++ b1) (yl := yl ++ y1) (b := c1).
      - exact St1.
      - exact I.
      - rewrite Lc. apply Okc; [exact Hk | exact Mk].
      - apply Esub with (n := len b + slack); [exact Ei | lia | lia | lia].
      - rewrite Lc. apply Esub with (n := outn (len b)); [exact Eo | lia | lia | lia].
      - intros j Hj. cbn [padd pb po]. rewrite Z1.
        + rewrite <- Z.add_assoc, (Hi (len b1 + j)) by lia.
          rewrite Eb1, nthZ_app2, Ec, nthZ_app1 by lia. reflexivity.
        + exact (Enp _ _ Ei).
        + intros [Eb R]. destruct D as [[D|D]|(D1 & D2 & D3)]; [congruence | lia | specialize (ipout D1 (len b1) Hb1); lia].
      - intros j Hj. cbn [padd pb po]. rewrite Z1.
        + destruct (Z.lt_ge_cases (len b1 + len c1 + j) (len b)) as [Hlt|Hge].
          * rewrite <- !Z.add_assoc. rewrite Hi by lia. discriminate.
          * specialize (Ms (len b1 + len c1 + j - len b) ltac:(lia)). cbn [padd pb po] in Ms.
            replace (po input + len b + (len b1 + len c1 + j - len b)) with (po input + len b1 + len c1 + j) in Ms by lia.
            exact Ms.
        + exact (Enp _ _ Ei).
        + intros [Eb R]. destruct D as [[D|D]|(D1 & D2 & D3)]; [congruence | lia | specialize (ipout D1 (len b1) Hb1); lia].
      - intros j Hj. cbn [padd pb po]. rewrite <- Z.add_assoc. rewrite Z1.
        + apply Mo. rewrite Lc in Hj. lia.
        + exact (Enp _ _ Eo).
        + intros [Eb R]. lia.
      - destruct D as [D|(D1 & D2 & D3)]; [left | right].
        + eapply disj_sub; [exact D | lia | lia | lia | rewrite Lc; lia].
        + split; [exact D1|]. specialize (ipout D1 (len b1) Hb1). split; cbn [padd pb po]; [exact D2 | lia].
      - intros _. destruct (As ltac:(lia)) as [D'|(D1 & D2 & D3)]; [left | right].
        + eapply asep_sub; [exact D' | lia | lia | lia | rewrite Lc; lia].
        + split; [exact D1|]. specialize (ipout D1 (len b1) Hb1). split; cbn [padd pb po]; [exact D2 | lia]. }
    intros o m2 (-> & y & Ly & S2 & Hy & Z2). apply runs_ret.
    split; [|cbn [fst]; lia].
    exists (b1 ++ c1), c2, (y1 ++ y). split; [exact Hb'|].
    rewrite !len_app. rewrite Lc in *. split; [lia|].
    split; [rewrite Z.add_mod, Mb1, Mk by lia; apply Z.mod_0_l; lia|].
    split; [rewrite outadd by (assumption || lia); lia|].
    rewrite !padd_padd. split; [reflexivity|]. split; [f_equal; lia|].
    rewrite !app_assoc. split; [exact S2|]. split.
    { intros j Hj. destruct (Z.lt_ge_cases j (len y1)).
      - rewrite nthZ_app1 by lia. rewrite Z2.
        + apply Hy1. lia.
        + exact (Enp _ _ Eo).
        + intros [Eb R]. cbn [padd po] in R. lia.
      - specialize (Hy (j - len y1) ltac:(lia)). cbn [padd pb po] in Hy.
        replace (po output + len y1 + (j - len y1)) with (po output + j) in Hy by lia.
        rewrite Hy. f_equal. replace j with (len y1 + (j - len y1)) at 2 by lia.
        symmetry. apply nthZ_app2. lia. }
    intros b' i Hp Hr. rewrite Z2.
    + apply Z1; [exact Hp|]. intros [Eb R]. apply Hr. split; [exact Eb | lia].
    + exact Hp.
    + intros [Eb R]. apply Hr. cbn [padd pb po] in Eb, R. split; [exact Eb | lia].
  - intros [[n inp] outp] m' (b1 & b2 & y1 & Eb1 & En & Mb1 & Ly1 & -> & -> & St1 & Hy1 & Z1) Hc.
    assert (b2 = []).
    { destruct b2; [reflexivity|]. exfalso. unfold len in En. cbn [length] in En. lia. }
    subst b2. rewrite app_nil_r in Eb1. subst b1.
    apply runs_ret. split; [reflexivity|]. exists y1. rewrite <- Ly1.
    split; [reflexivity|]. split; [exact St1|]. split; [exact Hy1 | exact Z1].
Qed.
End Chunks.
End Cascade.
