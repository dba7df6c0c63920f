(** * Properties: AlignedArray *)
From Coq Require Import ZArith List Lia Bool ZifyNat ZifyBool.
From Verif Require Import AlignedModel AlignedProof.
Import ListNotations.
Open Scope Z_scope.

(** the 64 byte cache line an address belongs to *)
Definition line (p : Z) : Z := p / 64.

Section Props.
Context {V : Type} (v0 : V) (esz : Z) (trivial : bool).

(** ** C42 *)

(** Elements start at a multiple of 64 (so also of 16), and all cache lines that
    contain a byte of an element are inside of one live allocation. *)
Theorem C42_alignment s id a : 0 < esz -> areach v0 esz trivial s -> arrays s id = Some a ->
  elem esz a 0 mod 64 = 0 /\
  exists b z, In (b, z) (live (aheap s)) /\
    forall i p, 0 <= i < n_elements a -> elem esz a i <= p < elem esz a (i + 1) ->
      b <= 64 * line p /\ 64 * line p + 64 <= b + z.
Proof.
  intros Hz H E. pose proof (areach_inv v0 esz trivial Hz s H) as [K A _ _ _ _]. pose proof (A _ _ E) as Ka.
  pose proof (region_pos esz _ _ K Ka) as Hu. pose proof (ao_data _ _ _ Ka) as D. pose proof (ao_n _ _ _ Ka) as Hn.
  split.
  - unfold elem. rewrite Z.mul_0_l, Z.add_0_r, D. now apply align_range; lia.
  - exists (unaligned_mem a), (n_elements a * esz + 126). split; [exact (ao_live _ _ _ Ka)|].
    intros i p Hi Hp. unfold elem in Hp. rewrite D in Hp. unfold line.
    replace (unaligned_mem a + (n_elements a * esz + 126)) with (unaligned_mem a + n_elements a * esz + 126) by lia.
    apply line_inside; nia.
Qed.

(** Elements of different arrays are never in the same cache line. *)
Theorem C42_no_false_sharing s id1 id2 a1 a2 i1 i2 p1 p2 : 0 < esz -> areach v0 esz trivial s ->
  arrays s id1 = Some a1 -> arrays s id2 = Some a2 -> id1 <> id2 ->
  0 <= i1 < n_elements a1 -> elem esz a1 i1 <= p1 < elem esz a1 (i1 + 1) ->
  0 <= i2 < n_elements a2 -> elem esz a2 i2 <= p2 < elem esz a2 (i2 + 1) ->
  line p1 <> line p2.
Proof.
  intros Hz H E1 E2 Hne Hi1 Hp1 Hi2 Hp2. pose proof (areach_inv v0 esz trivial Hz s H) as [K A S _ _ _].
  pose proof (A _ _ E1) as K1. pose proof (A _ _ E2) as K2.
  pose proof (region_pos esz _ _ K K1) as U1. pose proof (region_pos esz _ _ K K2) as U2.
  pose proof (S _ _ _ _ E1 E2 Hne) as Hd.
  pose proof (ao_data _ _ _ K1) as D1. pose proof (ao_data _ _ _ K2) as D2. unfold elem in *. rewrite D1 in Hp1. rewrite D2 in Hp2.
  pose proof (ao_n _ _ _ K1) as N1. pose proof (ao_n _ _ _ K2) as N2.
  pose proof (line_inside (unaligned_mem a1) (n_elements a1 * esz) ltac:(lia) ltac:(nia) p1 ltac:(nia)) as L1.
  pose proof (line_inside (unaligned_mem a2) (n_elements a2 * esz) ltac:(lia) ltac:(nia) p2 ltac:(nia)) as L2.
  pose proof (hk_apart _ K _ _ (ao_live _ _ _ K1) (ao_live _ _ _ K2) Hd) as Ap. unfold apart in Ap. cbn [region fst snd] in Ap.
  unfold line. lia.
Qed.

(** Nor do they share a line with other memory of the program. *)
Theorem C42_no_sharing_with_others s id a i p b z q : 0 < esz -> areach v0 esz trivial s ->
  arrays s id = Some a -> In b (others s) -> In (b, z) (live (aheap s)) ->
  0 <= i < n_elements a -> elem esz a i <= p < elem esz a (i + 1) -> b <= q < b + z ->
  line p <> line q.
Proof.
  intros Hz H E Hb Hl Hi Hp Hq. pose proof (areach_inv v0 esz trivial Hz s H) as [K A S _ _ OS].
  pose proof (A _ _ E) as Ka. pose proof (region_pos esz _ _ K Ka) as U. pose proof (ao_data _ _ _ Ka) as D. pose proof (ao_n _ _ _ Ka) as Hn.
  unfold elem in *. rewrite D in Hp.
  pose proof (line_inside (unaligned_mem a) (n_elements a * esz) ltac:(lia) ltac:(nia) p ltac:(nia)) as L1.
  assert (Hd : fst (region esz a) <> fst (b, z)) by (cbn; intros Q; apply (OS _ _ E); now rewrite Q).
  pose proof (hk_apart _ K _ _ (ao_live _ _ _ Ka) Hl Hd) as Ap. unfold apart in Ap. cbn [region fst snd] in Ap.
  unfold line. pose proof (Z.div_mod q 64 ltac:(lia)). pose proof (Z.mod_pos_bound q 64 ltac:(lia)). lia.
Qed.

(** If malloc() succeeds, so does the constructor: n elements with the value T(),
    created from the first to the last. *)
Theorem C42_construct st os h n b : 0 < esz -> areach v0 esz trivial (AState st os h) ->
  0 <= n -> n * esz + 126 < 2 ^ 64 -> malloc_ok h (n * esz + 126) (Some b) ->
  exists a h', new_array v0 esz n (Some b) h = Done (a, h') /\ n_elements a = n /\
    (forall i, 0 <= i < n -> objs h' (elem esz a i) = Some v0) /\
    (forall id c i, st id = Some c -> 0 <= i < n_elements c -> objs h' (elem esz c i) = objs h (elem esz c i)) /\
    trace h' = trace h ++ map (fun k => Created (elem esz a (Z.of_nat k))) (seq 0 (Z.to_nat n)).
Proof.
  intros Hz H Hn Ho Hm. pose proof (areach_inv v0 esz trivial Hz _ H) as I.
  rewrite <- (alloc_size_ok esz Hz n Hn Ho) in Hm.
  destruct (new_array_ok v0 esz Hz h n b (ai_heap _ _ I) Hn Ho Hm) as (h' & E & L & K' & Ka & O & U & Tr).
  eexists _, h'. split; [exact E|]. split; [reflexivity|]. split; [exact O|]. split; [|exact Tr].
  intros id c i Ec Hi. apply U. intros j Hj.
  destruct (Z.eq_dec (unaligned_mem c) b) as [Q|Q].
  - exfalso. pose proof (ao_live _ _ _ (ai_arr _ _ I _ _ Ec)) as Lc. cbn [aheap] in Lc.
    destruct K' as [_ N _]. rewrite L in N. cbn [map fst] in N. inversion N; subst. apply H2. now apply (in_map fst) in Lc.
  - pose proof (ai_arr _ _ I _ _ Ec) as Kc. cbn [aheap] in Kc.
    assert (Kc' : array_ok esz (Heap (live h') (fun _ => Some v0) []) c).
    { destruct Kc as [L1 N1 D1 O1]. constructor; [cbn [live]; rewrite L; now right | exact N1 | exact D1 | discriminate]. }
    assert (Ka' : array_ok esz (Heap (live h') (fun _ => Some v0) []) (Array b (align b) n)).
    { destruct Ka as [L1 N1 D1 O1]. constructor; [exact L1 | exact N1 | exact D1 | discriminate]. }
    exact (elems_differ esz Hz (Heap (live h') (fun _ => Some v0) []) c _ i j K' Kc' Ka' Q Hi Hj).
Qed.

(** The constructor from a vector: the same, with the values of the vector. *)
Theorem C42_construct_from st os h l b : 0 < esz -> areach v0 esz trivial (AState st os h) ->
  Z.of_nat (length l) * esz + 126 < 2 ^ 64 -> malloc_ok h (Z.of_nat (length l) * esz + 126) (Some b) ->
  exists a h', new_array_from v0 esz l (Some b) h = Done (a, h') /\ n_elements a = Z.of_nat (length l) /\
    (forall k, (k < length l)%nat -> objs h' (elem esz a (Z.of_nat k)) = nth_error l k).
Proof.
  intros Hz H Ho Hm. pose proof (areach_inv v0 esz trivial Hz _ H) as I.
  rewrite <- (alloc_size_ok esz Hz _ (Nat2Z.is_nonneg _) Ho) in Hm.
  destruct (new_array_from_ok v0 esz Hz h l b (ai_heap _ _ I) Ho Hm) as (h' & E & L & K' & Ka & O & U & Tr).
  eexists _, h'. split; [exact E|]. split; [reflexivity|]. exact O.
Qed.

(** The destructor never fails; it destroys the elements from the last to the
    first and gives the memory back; nothing else changes. *)
Theorem C42_destruct st os h id a : 0 < esz -> areach v0 esz trivial (AState st os h) -> st id = Some a ->
  exists h', delete_array esz trivial a h = Done h' /\
    trace h' = trace h ++ map (fun k => Destroyed (elem esz a (Z.of_nat k))) (rev (seq 0 (Z.to_nat (n_elements a)))) /\
    (forall x, In x (live h') <-> In x (live h) /\ fst x <> unaligned_mem a) /\
    (forall id' c i, id' <> id -> st id' = Some c -> 0 <= i < n_elements c -> objs h' (elem esz c i) = objs h (elem esz c i)).
Proof.
  intros Hz H E. pose proof (areach_inv v0 esz trivial Hz _ H) as I. pose proof (ai_arr _ _ I _ _ E) as Ka.
  destruct (delete_ok esz trivial Hz h a (ai_heap _ _ I) Ka) as (h' & D & L & O & U & Tr).
  exists h'. split; [exact D|]. split; [exact Tr|]. split.
  - intros x. rewrite L, filter_In. intuition lia.
  - intros id' c i Hne Ec Hi. apply U. intros k Hk.
    apply (elems_differ esz Hz h c a i k (ai_heap _ _ I) (ai_arr _ _ I _ _ Ec) Ka (ai_sep _ _ I _ _ _ _ Ec E Hne) Hi Hk).
Qed.

(** Assignment to an element never fails and changes only this element. *)
Theorem C42_assign st os h id a i v : 0 < esz -> areach v0 esz trivial (AState st os h) -> st id = Some a -> 0 <= i < n_elements a ->
  exists h', assign esz (elem esz a i) v h = Done h' /\ objs h' (elem esz a i) = Some v /\
    forall id' c j, st id' = Some c -> 0 <= j < n_elements c -> (id', j) <> (id, i) -> objs h' (elem esz c j) = objs h (elem esz c j).
Proof.
  intros Hz H E Hi. pose proof (areach_inv v0 esz trivial Hz _ H) as I. pose proof (ai_arr _ _ I _ _ E) as Ka. cbn [aheap] in Ka.
  unfold assign. pose proof (ao_objs _ _ _ Ka i Hi) as Ho. destruct (objs h (elem esz a i)); [|contradiction].
  rewrite (elem_accessible esz Hz h a i (ai_heap _ _ I) Ka Hi). eexists. split; [reflexivity|]. cbn [objs]. unfold set_objs.
  split; [now rewrite Z.eqb_refl|]. intros id' c j Ec Hj Hne.
  destruct (Z.eqb_spec (elem esz c j) (elem esz a i)) as [Q|]; [exfalso | reflexivity].
  destruct (Z.eq_dec id' id) as [->|Hid].
  - rewrite E in Ec. injection Ec as <-. unfold elem in Q. apply (elem_inj esz Hz) in Q. now subst j.
  - revert Q. apply (elems_differ esz Hz h c a j i (ai_heap _ _ I) (ai_arr _ _ I _ _ Ec) Ka (ai_sep _ _ I _ _ _ _ Ec E Hid) Hj Hi).
Qed.

(** If malloc() fails, the elements are created at address 0 all the same. *)
Theorem C42_malloc_failure n h : 0 < esz -> 0 < n -> (forall x, In x (live h) -> 0 < fst x) ->
  new_array v0 esz n None h = Fault BadAccess.
Proof.
  intros Hz Hn Hl. unfold new_array, allocate_aligned_data, malloc. cbn [data].
  rewrite (create_from_fault v0 esz (align 0) (Z.to_nat n) 0 h 0); [reflexivity | lia|].
  replace (align 0) with 0 by reflexivity. cbn [Z.add Z.mul]. unfold accessible. destruct (existsb _ _) eqn:Ex; [|reflexivity].
  apply existsb_exists in Ex. destruct Ex as (x & Hx & Hr). apply Hl in Hx. unfold in_alloc in Hr. lia.
Qed.

(** ** C43 *)

(** The implicit copy constructor: deleting the array and its copy is an error
    (a destructor call for an element that does not exist any more, or, if there
    are none or the destructor does nothing, a second free()). *)
Theorem C43_copy st os h id a h' : 0 < esz -> areach v0 esz trivial (AState st os h) -> st id = Some a ->
  delete_array esz trivial a h = Done h' ->
  exists f, delete_array esz trivial (copy_array a) h' = Fault f /\ (trivial = true \/ n_elements a = 0 -> f = BadFree).
Proof.
  intros Hz H E D. pose proof (areach_inv v0 esz trivial Hz _ H) as I. pose proof (ai_arr _ _ I _ _ E) as Ka. cbn [aheap] in Ka.
  destruct (delete_ok esz trivial Hz h a (ai_heap _ _ I) Ka) as (h1 & D1 & L & O & _ & _). rewrite D in D1. injection D1 as <-.
  pose proof (region_pos esz _ _ (ai_heap _ _ I) Ka) as Hu. pose proof (ao_n _ _ _ Ka) as Hn.
  assert (F : forall g : heap (V := V), live g = live h' -> free (unaligned_mem a) g = Fault BadFree).
  { intros g Lg. unfold free. replace (unaligned_mem a =? 0) with false by lia. rewrite Lg, L.
    replace (existsb _ _) with false; [reflexivity|]. symmetry. apply not_true_iff_false. intros Ex.
    apply existsb_exists in Ex. destruct Ex as (x & Hx & Q). apply filter_In in Hx. lia. }
  assert (T : forall n (g : heap (V := V)), trivial = true -> exists g', destruct_from esz trivial (data a) n g = Done g' /\ live g' = live g).
  { intros n. induction n as [|n IH]; intros g Ht; [now exists g|]. cbn [destruct_from]. unfold destruct_T. rewrite Ht. cbn [andthen].
    set (g1 := Heap _ _ _). destruct (IH g1 Ht) as (g' & Eg & Lg). rewrite Ht in Eg. exists g'. now split. }
  unfold delete_array. cbn [copy_array data n_elements unaligned_mem].
  destruct trivial eqn:Et.
  - destruct (T (Z.to_nat (n_elements a)) h' eq_refl) as (g & Eg & Lg). rewrite Eg. cbn [andthen]. exists BadFree. split; [now apply F | trivial].
  - destruct (Z.to_nat (n_elements a)) as [|k] eqn:Ek.
    + exists BadFree. split; [now apply F | trivial].
    + exists NoObject. cbn [destruct_from]. unfold destruct_T.
      pose proof (O (Z.of_nat k) ltac:(lia)) as Ok. unfold elem in Ok. rewrite Ok. split; [reflexivity|]. intros [Q|Q]; [discriminate | lia].
Qed.
End Props.

(** The condition on the size is needed: if the size of the memory block overflows,
    elements are created outside of it. *)
Theorem C42_overflow_refuted : exists n ans, 0 <= n < 2 ^ 64 /\
  malloc_ok (Heap (V := Z) [] (fun _ => None) []) (alloc_size 4 n) ans /\ ans <> None /\
  new_array 0 4 n ans (Heap [] (fun _ => None) []) = Fault BadAccess.
Proof.
  exists (2 ^ 62), (Some 4096). split; [lia|].
  assert (Ea : alloc_size 4 (2 ^ 62) = 126) by reflexivity.
  split; [rewrite Ea; split; [lia|]; split; [lia | constructor]|]. split; [discriminate|].
  unfold new_array, allocate_aligned_data, malloc. rewrite Ea. cbn [data].
  rewrite (create_from_fault 0 4 _ (Z.to_nat (2 ^ 62)) 0 _ 32); [reflexivity | lia | reflexivity].
Qed.

(** *** An example: two arrays of floats (the second from a vector) and other
    memory in between; the first array starts at 64 * 17, the second at 64 * 20. *)
Definition ex_h0 : heap (V := Z) := Heap [] (fun _ => None) [].
Definition ex_done {X} (o : outcome X) (d : X) : X := match o with Done x => x | Fault _ => d end.
Definition ex_1 := ex_done (new_array 0 4 10 (Some 1048) ex_h0) (Array 0 0 0, ex_h0).
Definition ex_2 := malloc (snd ex_1) 30 (Some 1214).
Definition ex_3 := ex_done (new_array_from 0 4 [5; 6; 7] (Some 1244) (snd ex_2)) (Array 0 0 0, ex_h0).

Example C42_case : exists s, areach 0 4 true s /\ arrays s 1 = Some (Array 1048 1088 10) /\ arrays s 2 = Some (Array 1244 1280 3) /\
  In 1214 (others s) /\ In (1214, 30) (live (aheap s)) /\ objs (aheap s) (elem 4 (Array 1244 1280 3) 2) = Some 7.
Proof.
  set (st0 := fun _ : Z => @None array).
  assert (H1 : areach 0 4 true (AState (set_array st0 1 (Some (fst ex_1))) [] (snd ex_1))).
  { apply (areach_new 0 4 true st0 [] ex_h0 1 10 (Some 1048)); [apply areach_init | reflexivity | lia | lia | | reflexivity | discriminate].
    split; [lia|]. split; [vm_compute; discriminate | constructor]. }
  assert (H2 : areach 0 4 true (AState (set_array st0 1 (Some (fst ex_1))) [1214] (snd ex_2))).
  { apply (areach_malloc 0 4 true _ _ (snd ex_1) 30 1214); [exact H1 | lia | | reflexivity].
    split; [lia|]. split; [vm_compute; discriminate|]. 
    replace (live (snd ex_1)) with [(1048, 166)] by reflexivity. constructor; [right; cbn; lia | constructor]. }
  assert (H3 : areach 0 4 true (AState (set_array (set_array st0 1 (Some (fst ex_1))) 2 (Some (fst ex_3))) [1214] (snd ex_3))).
  { apply (areach_new_from 0 4 true _ _ (snd ex_2) 2 [5; 6; 7] (Some 1244)); [exact H2 | reflexivity | cbn; lia | | reflexivity | discriminate].
    split; [lia|]. split; [vm_compute; discriminate|].
    replace (live (snd ex_2)) with [(1214, 30); (1048, 166)] by reflexivity. repeat (constructor; [right; cbn; lia|]). constructor. }
  eexists. split; [exact H3|]. repeat split; try reflexivity; vm_compute; tauto.
Qed.

Print Assumptions C42_alignment.
Print Assumptions C42_no_false_sharing.
Print Assumptions C42_no_sharing_with_others.
Print Assumptions C42_construct.
Print Assumptions C42_construct_from.
Print Assumptions C42_destruct.
Print Assumptions C42_assign.
Print Assumptions C42_malloc_failure.
Print Assumptions C42_overflow_refuted.
Print Assumptions C43_copy.
