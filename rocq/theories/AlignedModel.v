(** * Model of AlignedArray (include/pandaresampler.hh lines 44-107)

    Byte addresses are integers.  The heap is the list of live malloc()
    allocations, the objects of type T that exist (by address), and the trace of
    constructor and destructor calls.  malloc() is an oracle: its answer is an
    argument, [malloc_ok] says which answers are possible.

    Simplification: there is only one element type T, of size [esz]; the only
    thing known of T() is its value [v0].  Copying a value cannot fail.
    [trivial] says whether ~T() does nothing (float); if not, calling it where no
    object lives is a fault. *)
From Coq Require Import ZArith List Bool.
Import ListNotations.
Open Scope Z_scope.

Inductive fault :=
| BadAccess   (* object created or assigned outside of allocated memory *)
| NoObject    (* destructor called, or value used, where there is no object *)
| BadFree.    (* free() of something that is not allocated (any more) *)
Inductive outcome (X : Type) := Done (x : X) | Fault (f : fault).
Arguments Done {_}. Arguments Fault {_}.
Definition andthen {X Y} (o : outcome X) (k : X -> outcome Y) : outcome Y :=
  match o with Done x => k x | Fault f => Fault f end.

Section Aligned.
Context {V : Type} (v0 : V) (esz : Z) (trivial : bool).

Inductive event := Created (p : Z) | Destroyed (p : Z).
Record heap := Heap { live : list (Z * Z); objs : Z -> option V; trace : list event }.

Definition in_alloc (p n : Z) (bs : Z * Z) : bool := (fst bs <=? p) && (p + n <=? fst bs + snd bs).
Definition accessible (h : heap) (p n : Z) : bool := existsb (in_alloc p n) (live h).

(** size_t arithmetic *)
Definition u64 (z : Z) : Z := z mod 2 ^ 64.

(** what malloc (size) may answer (None: null pointer) *)
Definition malloc_ok (h : heap) (size : Z) (ans : option Z) : Prop :=
  match ans with
  | None => True
  | Some b => 0 < b /\ b + size <= 2 ^ 64 /\ Forall (fun a => b + size <= fst a \/ fst a + snd a <= b) (live h)
  end.
Definition malloc (h : heap) (size : Z) (ans : option Z) : Z * heap :=
  match ans with
  | None => (0, h)
  | Some b => (b, Heap ((b, size) :: live h) (objs h) (trace h))
  end.
Definition free (p : Z) (h : heap) : outcome heap :=
  if p =? 0 then Done h
  else if existsb (fun a => fst a =? p) (live h)
  then Done (Heap (filter (fun a => negb (fst a =? p)) (live h)) (objs h) (trace h))
  else Fault BadFree.

Definition set_objs (h : heap) (p : Z) (v : option V) : Z -> option V := fun q => if q =? p then v else objs h q.
(** new (p) T() *)
Definition create (p : Z) (h : heap) : outcome heap :=
  if accessible h p esz then Done (Heap (live h) (set_objs h p (Some v0)) (trace h ++ [Created p])) else Fault BadAccess.
(** p->~T() *)
Definition destruct_T (p : Z) (h : heap) : outcome heap :=
  if trivial then Done (Heap (live h) (set_objs h p None) (trace h ++ [Destroyed p]))
  else match objs h p with
  | Some _ => Done (Heap (live h) (set_objs h p None) (trace h ++ [Destroyed p]))
  | None => Fault NoObject
  end.
(** *p = v *)
Definition assign (p : Z) (v : V) (h : heap) : outcome heap :=
  match objs h p with
  | Some _ => if accessible h p esz then Done (Heap (live h) (set_objs h p (Some v)) (trace h)) else Fault BadAccess
  | None => Fault NoObject
  end.

(** the members (lines 46-48) *)
Record array := Array { unaligned_mem : Z; data : Z; n_elements : Z }.

(** operator[] (lines 85-94): the address of element i *)
Definition elem (a : array) (i : Z) : Z := data a + i * esz.

(** for (i = i0; n times; i++) new (data + i) T()  (lines 70-71) *)
Fixpoint create_from (d i0 : Z) (n : nat) (h : heap) : outcome heap :=
  match n with
  | O => Done h
  | S k => andthen (create (d + i0 * esz) h) (create_from d (i0 + 1) k)
  end.

(** allocate_aligned_data() (lines 50-64) *)
Definition cache_line_size := 64.
Definition alloc_size (n : Z) : Z := u64 (n * esz + 2 * (cache_line_size - 1)).
Definition align (u : Z) : Z := if u mod cache_line_size =? 0 then u else u + (cache_line_size - u mod cache_line_size).
Definition allocate_aligned_data (n : Z) (ans : option Z) (h : heap) : array * heap :=
  let '(u, h') := malloc h (alloc_size n) ans in (Array u (align u) n, h').

(** AlignedArray (size_t n_elements) (lines 66-72) *)
Definition new_array (n : Z) (ans : option Z) (h : heap) : outcome (array * heap) :=
  let '(a, h') := allocate_aligned_data n ans h in
  andthen (create_from (data a) 0 (Z.to_nat n) h') (fun h'' => Done (a, h'')).

(** std::copy (v.begin(), v.end(), p) *)
Fixpoint copy_to (p : Z) (l : list V) (h : heap) : outcome heap :=
  match l with
  | [] => Done h
  | v :: r => andthen (assign p v h) (copy_to (p + esz) r)
  end.
(** AlignedArray (const std::vector<T>& elements) (lines 73-77) *)
Definition new_array_from (l : list V) (ans : option Z) (h : heap) : outcome (array * heap) :=
  andthen (new_array (Z.of_nat (length l)) ans h) (fun ah =>
    andthen (copy_to (data (fst ah)) l (snd ah)) (fun h' => Done (fst ah, h'))).

(** while (n_elements) data[--n_elements].~T(); (lines 81-82) *)
Fixpoint destruct_from (d : Z) (n : nat) (h : heap) : outcome heap :=
  match n with
  | O => Done h
  | S k => andthen (destruct_T (d + Z.of_nat k * esz) h) (destruct_from d k)
  end.
(** ~AlignedArray() (lines 78-84) *)
Definition delete_array (a : array) (h : heap) : outcome heap :=
  andthen (destruct_from (data a) (Z.to_nat (n_elements a)) h) (free (unaligned_mem a)).

(** the implicit copy constructor copies the three members *)
Definition copy_array (a : array) : array := Array (unaligned_mem a) (data a) (n_elements a).

(** ** Programs

    [arrays] are the live arrays, [others] the other live allocations of the program. *)
Record astate := AState { arrays : Z -> option array; others : list Z; aheap : heap }.
Definition set_array (st : Z -> option array) (id : Z) (a : option array) : Z -> option array :=
  fun i => if i =? id then a else st i.

Inductive areach : astate -> Prop :=
| areach_init : areach (AState (fun _ => None) [] (Heap [] (fun _ => None) []))
| areach_new st os h id n ans a h' :
    areach (AState st os h) -> st id = None -> 0 <= n -> n * esz + 126 < 2 ^ 64 -> malloc_ok h (alloc_size n) ans ->
    new_array n ans h = Done (a, h') -> ans <> None -> areach (AState (set_array st id (Some a)) os h')
| areach_new_from st os h id l ans a h' :
    areach (AState st os h) -> st id = None -> Z.of_nat (length l) * esz + 126 < 2 ^ 64 ->
    malloc_ok h (alloc_size (Z.of_nat (length l))) ans ->
    new_array_from l ans h = Done (a, h') -> ans <> None -> areach (AState (set_array st id (Some a)) os h')
| areach_assign st os h id a i v h' :
    areach (AState st os h) -> st id = Some a -> 0 <= i < n_elements a ->
    assign (elem a i) v h = Done h' -> areach (AState st os h')
| areach_delete st os h id a h' :
    areach (AState st os h) -> st id = Some a -> delete_array a h = Done h' ->
    areach (AState (set_array st id None) os h')
| areach_malloc st os h size b h' :
    areach (AState st os h) -> 0 < size -> malloc_ok h size (Some b) ->
    malloc h size (Some b) = (b, h') -> areach (AState st (b :: os) h')
| areach_free st os1 os2 b h h' :
    areach (AState st (os1 ++ b :: os2) h) -> free b h = Done h' -> areach (AState st (os1 ++ os2) h').
End Aligned.
