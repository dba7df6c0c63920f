(** * Contract of a resampler stage

    A stage consumes a stream block by block; its contract says that any call
    in a state reached after the stream l terminates normally, writes output
    samples y such that the accumulated output is related to the accumulated
    input, and touches nothing else than its output and its own arrays.

    ip: the stage may write its output over its own input. *)
From Coq Require Import ZArith List Lia Bool ZifyNat ZifyBool.
From Verif Require Import Arith Mem FirModel Wp.
Import ListNotations.
Open Scope Z_scope.

(** owner of a block *)
Definition tag_of (b : blk) : option Z :=
  match b with
  | Taps t | Hist t | HistE t | HistO t | SseTaps t | FCoef t | FMem t => Some t
  | _ => None
  end.

(** blocks that hold samples passed to and from stages *)
Definition is_data (b : blk) : Prop :=
  match b with User _ | Tmp | Tmp2 => True | _ => False end.

(** blocks a stage may modify besides its output: its own, and its stack array *)
Definition priv (tag : Z) (b : blk) : Prop := tag_of b = Some tag \/ b = DBlock.

Lemma data_not_priv tag b : is_data b -> ~ priv tag b.
Proof. unfold priv. destruct b; cbn; intros H [H1|H1]; try tauto; congruence. Qed.

Section Stage.
Context {A : arith} (addr : blk -> Z).
Implicit Types m : mem A.

(** the two ranges do not overlap as address ranges *)
Definition asep (p : ptr) (n : Z) (q : ptr) (k : Z) : Prop :=
  paddr addr q + 4 * k <= paddr addr p \/ paddr addr p + 4 * n <= paddr addr q.

(** the output starts in the array of the input, at or before the input *)
Definition over (input output : ptr) : Prop := pb output = pb input /\ po output <= po input.

Definition local (tag : Z) (inv : mem A -> list A -> Prop) : Prop :=
  forall m m' l, (forall b i, tag_of b = Some tag -> m' b i = m b i) -> inv m l -> inv m' l.

Definition stage_ok (run : ptr -> Z -> ptr -> M A unit) (tag : Z)
    (inv : mem A -> list A -> Prop) (R : list A -> list A -> Prop)
    (okn : Z -> Prop) (outn : Z -> Z) (slack : Z) (ip : Prop) : Prop :=
  forall m l yl b input output,
    inv m l -> R l yl -> okn (len b) ->
    is_data (pb input) -> is_data (pb output) ->
    has m input (len b) (nthZ b) -> mapped m (padd input (len b)) slack ->
    mapped m output (outn (len b)) ->
    (disj input (len b + slack) output (outn (len b)) \/ ip /\ over input output) ->
    (0 < len b -> asep input (len b) output (outn (len b)) \/ ip /\ over input output) ->
    runs (run input (len b) output) m (fun _ m' =>
      exists y, len y = outn (len b) /\ R (l ++ b) (yl ++ y) /\
        has m' output (len y) (nthZ y) /\ inv m' (l ++ b) /\
        (forall b' i, ~ priv tag b' -> ~ inr output (outn (len b)) b' i -> m' b' i = m b' i)).

(** reading back what is in memory *)
Lemma has_read m p n : 0 <= n -> mapped m p n -> exists y, len y = n /\ has m p n (nthZ y).
Proof.
  intros Hn Hm.
  exists (map (fun i => match m (pb p) (po p + Z.of_nat i) with Some v => v | None => f0 end)
              (seq 0 (Z.to_nat n))).
  split.
  - unfold len. rewrite map_length, seq_length. lia.
  - intros k Hk. specialize (Hm k Hk).
    rewrite (nthZ_map_seq (fun i => match m (pb p) (po p + i) with Some v => v | None => f0 end)) by lia.
    destruct (m (pb p) (po p + k)); congruence.
Qed.

Lemma nthZ_app1 (l b : list A) k : k < len l -> 0 <= k -> nthZ (l ++ b) k = nthZ l k.
Proof. intros. unfold nthZ, len in *. apply app_nth1. lia. Qed.

Lemma nthZ_app2 (l b : list A) k : 0 <= k -> nthZ (l ++ b) (len l + k) = nthZ b k.
Proof. intros. unfold nthZ, len in *. rewrite app_nth2 by lia. f_equal. lia. Qed.

Lemma nthZ_ext (l b : list A) : len l = len b -> (forall k, 0 <= k < len l -> nthZ l k = nthZ b k) -> l = b.
Proof.
  intros Hl H. apply nth_ext with (d := f0) (d' := f0); [unfold len in Hl; lia|].
  intros n Hn. specialize (H (Z.of_nat n)). unfold nthZ, len in H.
  rewrite Nat2Z.id in H. apply H. lia.
Qed.
End Stage.
