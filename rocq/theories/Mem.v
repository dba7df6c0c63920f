(** * Memory, undefined behaviour and the command monad

    C++ objects live in blocks; a pointer is a block and an element (float)
    offset.  Reads and writes outside a block, misaligned vector accesses,
    calls through a null pointer and failing asserts are distinct outcomes.

    Simplification: every element is a float (4 bytes); no other object type
    is stored in memory.  Values of uninitialised stack arrays are arbitrary
    (the [garbage] argument of [alloc]). *)
From Coq Require Import ZArith List Lia Bool.
From Verif Require Import Arith.
Open Scope Z_scope.

(** [tag] identifies an object's stage: 16 * object id + stage ratio. *)
Inductive blk :=
| User (k : Z)        (* memory of the caller *)
| Taps (tag : Z)      (* vector<float> taps,                 pandaresampler.cc:356,500 *)
| Hist (tag : Z)      (* AlignedArray<float> history,        pandaresampler.cc:357 *)
| HistE (tag : Z)     (* AlignedArray<float> history_even,   pandaresampler.cc:501 *)
| HistO (tag : Z)     (* AlignedArray<float> history_odd,    pandaresampler.cc:502 *)
| SseTaps (tag : Z)   (* AlignedArray<float> sse_taps,       pandaresampler.cc:358,503 *)
| FCoef (tag : Z)     (* the _coef members of hiir's _filter array *)
| FMem (tag : Z)      (* the _mem members of hiir's _filter array *)
| Tmp                 (* float tmp[block_size * 4],          pandaresampler.hh:214 *)
| Tmp2                (* float tmp2[block_size * 4],         pandaresampler.hh:215 *)
| DBlock.             (* F4Vector block[BLOCKSIZE / 4],      pandaresampler.cc:609 *)

Definition blk_eqb (a b : blk) : bool :=
  match a, b with
  | User x, User y | Taps x, Taps y | Hist x, Hist y | HistE x, HistE y
  | HistO x, HistO y | SseTaps x, SseTaps y | FCoef x, FCoef y | FMem x, FMem y => x =? y
  | Tmp, Tmp | Tmp2, Tmp2 | DBlock, DBlock => true
  | _, _ => false
  end.

Lemma blk_eqb_spec a b : reflect (a = b) (blk_eqb a b).
Proof.
  destruct a, b; cbn; try (constructor; congruence);
    match goal with |- reflect _ (?x =? ?y) => destruct (Z.eqb_spec x y); constructor; congruence end.
Qed.

Lemma blk_eqb_refl b : blk_eqb b b = true.
Proof. destruct (blk_eqb_spec b b); congruence. Qed.

Record ptr := Ptr { pb : blk; po : Z }.
(** p + i, &p[i] *)
Definition padd (p : ptr) (i : Z) : ptr := Ptr (pb p) (po p + i).

Inductive err :=
| OobRead      (* read outside the bounds of a live array: undefined behaviour *)
| OobWrite     (* write outside the bounds of a live array: undefined behaviour *)
| Misaligned   (* 16-byte vector access at a misaligned address: fault *)
| NullDeref    (* virtual call through a null unique_ptr: undefined behaviour *)
| AssertFail   (* assert() failed: abort *)
| OutOfFuel.   (* artefact of the model: the loop bound given was too small *)

Inductive res (X : Type) := Ok (x : X) | Err (e : err).
Arguments Ok {_}. Arguments Err {_}.

(** unsigned int arithmetic wraps modulo 2^32 *)
Definition u32 (z : Z) : Z := z mod 2 ^ 32.

Section Monad.
Context {A : arith}.

Definition mem := blk -> Z -> option A.

Definition M (X : Type) := mem -> res (X * mem).
Definition ret {X} (x : X) : M X := fun m => Ok (x, m).
Definition fail {X} (e : err) : M X := fun _ => Err e.
Definition bind {X Y} (c : M X) (k : X -> M Y) : M Y :=
  fun m => match c m with Ok (x, m') => k x m' | Err e => Err e end.

Definition upd (m : mem) (b : blk) (i : Z) (v : A) : mem :=
  fun b' i' => if blk_eqb b' b && (i' =? i) then Some v else m b' i'.

Definition load (p : ptr) : M A := fun m =>
  match m (pb p) (po p) with Some v => Ok (v, m) | None => Err OobRead end.

Definition store (p : ptr) (v : A) : M unit := fun m =>
  match m (pb p) (po p) with
  | Some _ => Ok (tt, upd m (pb p) (po p) v)
  | None => Err OobWrite end.

(** a new array of n elements with the given contents *)
Definition alloc (b : blk) (n : Z) (garbage : Z -> A) : M unit := fun m =>
  Ok (tt, fun b' i => if blk_eqb b' b then (if (0 <=? i) && (i <? n) then Some (garbage i) else None)
                      else m b' i).

(** end of an array's lifetime *)
Definition free (b : blk) : M unit := fun m =>
  Ok (tt, fun b' i => if blk_eqb b' b then None else m b' i).

(** for (i = i0; i < i0 + n; i++) body *)
Fixpoint for_up {X} (n : nat) (i : Z) (body : Z -> X -> M X) (x : X) : M X :=
  match n with
  | O => ret x
  | S n' => bind (body i x) (fun x' => for_up n' (i + 1) body x')
  end.

(** while (cond) body, with at most [fuel] iterations *)
Fixpoint while {X} (fuel : nat) (cond : X -> bool) (body : X -> M X) (x : X) : M X :=
  if cond x then
    match fuel with
    | O => fail OutOfFuel
    | S f => bind (body x) (fun x' => while f cond body x')
    end
  else ret x.
End Monad.
Arguments mem : clear implicits.
Arguments M : clear implicits.

Declare Scope m_scope.
Delimit Scope m_scope with M.
Notation "x <- c ;; k" := (bind c (fun x => k))
  (at level 61, c at next level, right associativity) : m_scope.
Notation "c ;;; k" := (bind c (fun _ => k))
  (at level 61, right associativity) : m_scope.
Open Scope m_scope.

(** ** Addresses

    [addr b] is the byte address of element 0 of block b; it decides which
    16-byte vector accesses are aligned. *)
Section Vec.
Context {A : arith} (addr : blk -> Z).

Definition paddr (p : ptr) : Z := addr (pb p) + 4 * po p.
Definition aligned16 (p : ptr) : bool := paddr p mod 16 =? 0.

Record v4 := V4 { l0 : A; l1 : A; l2 : A; l3 : A }.

(** unaligned 4-float load (_mm_loadu_ps) *)
Definition loadu4 (p : ptr) : M A v4 :=
  a <- load p ;; b <- load (padd p 1) ;; c <- load (padd p 2) ;; d <- load (padd p 3) ;;
  ret (V4 a b c d).

(** aligned 4-float load and store (_mm_load_ps, F4Vector access, _mm_store_ps) *)
Definition load4 (p : ptr) : M A v4 :=
  if aligned16 p then loadu4 p else fail Misaligned.

Definition store4 (p : ptr) (v : v4) : M A unit :=
  if aligned16 p then
    store p (l0 v) ;;; store (padd p 1) (l1 v) ;;; store (padd p 2) (l2 v) ;;; store (padd p 3) (l3 v)
  else fail Misaligned.

Definition vmap2 (f : A -> A -> A) (a b : v4) : v4 :=
  V4 (f (l0 a) (l0 b)) (f (l1 a) (l1 b)) (f (l2 a) (l2 b)) (f (l3 a) (l3 b)).
Definition vset1 (x : A) : v4 := V4 x x x x.
End Vec.
Arguments v4 : clear implicits.
