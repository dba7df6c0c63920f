(** * Invariant of programs that use AlignedArray *)
From Coq Require Import ZArith List Lia Bool ZifyNat ZifyBool.
From Verif Require Import AlignedModel.
Import ListNotations.
Open Scope Z_scope.

Section AlignedProof.
Context {V : Type} (v0 : V) (esz : Z) (trivial : bool).
Hypothesis esz_pos : 0 < esz.
Notation heap := (heap (V := V)).
Implicit Types h : heap.

Lemma elem_inj d i j : d + i * esz = d + j * esz -> i = j.
Proof. intros H. assert (i * esz = j * esz) as E by lia. apply Z.mul_reg_r in E; lia. Qed.

Lemma create_from_ok d n : forall i0 h,
  (forall k, 0 <= k < Z.of_nat n -> accessible h (d + (i0 + k) * esz) esz = true) ->
  exists h', create_from v0 esz d i0 n h = Done h' /\ live h' = live h /\
    (forall k, 0 <= k < Z.of_nat n -> objs h' (d + (i0 + k) * esz) = Some v0) /\
    (forall q, (forall k, 0 <= k < Z.of_nat n -> q <> d + (i0 + k) * esz) -> objs h' q = objs h q) /\
    trace h' = trace h ++ map (fun k => Created (d + (i0 + Z.of_nat k) * esz)) (seq 0 n).
Proof.
  induction n as [|n IH]; intros i0 h H.
  - exists h. split; [reflexivity|]. split; [reflexivity|]. split; [lia|]. split; [reflexivity|]. now rewrite app_nil_r.
  - cbn [create_from]. unfold create. pose proof (H 0 ltac:(lia)) as H0. rewrite Z.add_0_r in H0. rewrite H0. cbn [andthen].
    set (h1 := Heap _ _ _). destruct (IH (i0 + 1) h1) as (h' & E & L & O & U & Tr).
    { intros k Hk. replace (i0 + 1 + k) with (i0 + (k + 1)) by lia. apply (H (k + 1)). lia. }
    exists h'. split; [exact E|]. split; [exact L|]. split; [|split].
    + intros k Hk. destruct (Z.eq_dec k 0) as [->|Hk0].
      * rewrite U; [cbn [h1 objs]; unfold set_objs; now rewrite Z.add_0_r, Z.eqb_refl|].
        intros k Hk'. intros Q. apply elem_inj in Q. lia.
      * replace (i0 + k) with (i0 + 1 + (k - 1)) by lia. apply O. lia.
    + intros q Hq. rewrite U.
      * cbn [h1 objs]. unfold set_objs. specialize (Hq 0 ltac:(lia)). rewrite Z.add_0_r in Hq.
        destruct (Z.eqb_spec q (d + i0 * esz)); [contradiction | reflexivity].
      * intros k Hk. replace (i0 + 1 + k) with (i0 + (k + 1)) by lia. apply Hq. lia.
    + rewrite Tr. cbn [h1 trace seq map]. rewrite <- app_assoc. cbn [app]. f_equal. f_equal; [do 2 f_equal; lia|].
      rewrite <- seq_shift, map_map. apply map_ext. intros k. do 2 f_equal. lia.
Qed.

(** a failing element makes the loop fail *)
Lemma create_from_fault d n : forall i0 h k, 0 <= k < Z.of_nat n -> accessible h (d + (i0 + k) * esz) esz = false ->
  create_from v0 esz d i0 n h = Fault BadAccess.
Proof.
  induction n as [|n IH]; intros i0 h k Hk Ha; [lia|]. cbn [create_from]. unfold create.
  destruct (accessible h (d + i0 * esz) esz) eqn:E; [|reflexivity]. cbn [andthen].
  destruct (Z.eq_dec k 0) as [->|Hk0]; [rewrite Z.add_0_r in Ha; congruence|].
  apply (IH _ _ (k - 1)); [lia|]. replace (i0 + 1 + (k - 1)) with (i0 + k) by lia. exact Ha.
Qed.

Lemma destruct_from_ok d n : forall h,
  (forall k, 0 <= k < Z.of_nat n -> objs h (d + k * esz) <> None) ->
  exists h', destruct_from esz trivial d n h = Done h' /\ live h' = live h /\
    (forall k, 0 <= k < Z.of_nat n -> objs h' (d + k * esz) = None) /\
    (forall q, (forall k, 0 <= k < Z.of_nat n -> q <> d + k * esz) -> objs h' q = objs h q) /\
    trace h' = trace h ++ map (fun k => Destroyed (d + Z.of_nat k * esz)) (rev (seq 0 n)).
Proof.
  induction n as [|n IH]; intros h H.
  - exists h. split; [reflexivity|]. split; [reflexivity|]. split; [lia|]. split; [reflexivity|]. now rewrite app_nil_r.
  - cbn [destruct_from]. unfold destruct_T. pose proof (H (Z.of_nat n) ltac:(lia)) as H0.
    set (h1 := Heap (live h) (set_objs h (d + Z.of_nat n * esz) None) (trace h ++ [Destroyed (d + Z.of_nat n * esz)])).
    replace (if trivial then Done h1 else match objs h (d + Z.of_nat n * esz) with Some _ => Done h1 | None => Fault NoObject end) with (Done h1)
      by (destruct trivial; [reflexivity|]; destruct (objs h _); [reflexivity | contradiction]).
    cbn [andthen]. destruct (IH h1) as (h' & E & L & O & U & Tr).
    { intros k Hk. cbn [h1 objs]. unfold set_objs. destruct (Z.eqb_spec (d + k * esz) (d + Z.of_nat n * esz)) as [Q|_].
      - apply elem_inj in Q. lia.
      - apply H. lia. }
    exists h'. split; [exact E|]. split; [exact L|]. split; [|split].
    + intros k Hk. destruct (Z.eq_dec k (Z.of_nat n)) as [->|Hk0]; [|apply O; lia].
      rewrite U; [cbn [h1 objs]; unfold set_objs; now rewrite Z.eqb_refl|]. intros k Hk' Q. apply elem_inj in Q. lia.
    + intros q Hq. rewrite U.
      * cbn [h1 objs]. unfold set_objs. specialize (Hq (Z.of_nat n) ltac:(lia)). destruct (Z.eqb_spec q (d + Z.of_nat n * esz)); [contradiction | reflexivity].
      * intros k Hk. apply Hq. lia.
    + rewrite Tr. cbn [h1 trace]. rewrite <- app_assoc. f_equal. rewrite seq_S, rev_app_distr. reflexivity.
Qed.

Lemma copy_to_ok (l : list V) : forall p h,
  (forall k, 0 <= k < Z.of_nat (length l) -> accessible h (p + k * esz) esz = true /\ objs h (p + k * esz) <> None) ->
  exists h', copy_to esz p l h = Done h' /\ live h' = live h /\
    (forall k, (k < length l)%nat -> objs h' (p + Z.of_nat k * esz) = nth_error l k) /\
    (forall q, (forall k, 0 <= k < Z.of_nat (length l) -> q <> p + k * esz) -> objs h' q = objs h q) /\
    trace h' = trace h.
Proof.
  induction l as [|v l IH]; intros p h H; cbn [length] in *.
  - exists h. split; [reflexivity|]. split; [reflexivity|]. split; [lia|]. split; reflexivity.
  - cbn [copy_to]. unfold assign. destruct (H 0 ltac:(lia)) as [Ha Ho]. rewrite Z.mul_0_l, Z.add_0_r in Ha, Ho. rewrite Ha.
    set (h1 := Heap (live h) (set_objs h p (Some v)) (trace h)).
    replace (match objs h p with Some _ => Done h1 | None => Fault NoObject end) with (Done h1) by (destruct (objs h p); [reflexivity | contradiction]).
    cbn [andthen]. destruct (IH (p + esz) h1) as (h' & E & L & O & U & Tr).
    { intros k Hk. replace (p + esz + k * esz) with (p + (k + 1) * esz) by lia. destruct (H (k + 1) ltac:(lia)) as [Ha' Ho'].
      split; [exact Ha'|]. cbn [h1 objs]. unfold set_objs. destruct (Z.eqb_spec (p + (k + 1) * esz) p) as [Q|_]; [|exact Ho'].
      assert (Q' : p + (k + 1) * esz = p + 0 * esz) by lia. apply elem_inj in Q'. lia. }
    exists h'. split; [exact E|]. split; [exact L|]. split; [|split].
    + intros [|k] Hk.
      * rewrite U; [cbn [h1 objs nth_error]; unfold set_objs; replace (p + Z.of_nat 0 * esz) with p by lia; now rewrite Z.eqb_refl|].
        intros k Hk' Q. assert (Q' : p + 0 * esz = p + (k + 1) * esz) by lia. apply elem_inj in Q'. lia.
      * cbn [nth_error]. rewrite <- O by lia. f_equal. lia.
    + intros q Hq. rewrite U.
      * cbn [h1 objs]. unfold set_objs. specialize (Hq 0 ltac:(lia)). destruct (Z.eqb_spec q p); [lia | reflexivity].
      * intros k Hk. replace (p + esz + k * esz) with (p + (k + 1) * esz) by lia. apply Hq. lia.
    + exact Tr.
Qed.

(** ** Alignment *)
Lemma align_range u : 0 <= u -> u <= align u <= u + 63 /\ align u mod 64 = 0.
Proof.
  intros Hu. unfold align, cache_line_size. pose proof (Z.mod_pos_bound u 64 ltac:(lia)).
  destruct (Z.eqb_spec (u mod 64) 0) as [E|E]; [lia|]. split; [lia|].
  replace (u + (64 - u mod 64)) with ((u / 64 + 1) * 64) by (pose proof (Z.div_mod u 64 ltac:(lia)); lia). apply Z.mod_mul. lia.
Qed.

Lemma alloc_size_ok n : 0 <= n -> n * esz + 126 < 2 ^ 64 -> alloc_size esz n = n * esz + 126.
Proof. intros Hn Ho. unfold alloc_size, u64, cache_line_size. rewrite Z.mod_small; nia. Qed.

(** ** The invariant *)
Definition apart (x y : Z * Z) : Prop := fst x + snd x <= fst y \/ fst y + snd y <= fst x.
Record heap_ok (l : list (Z * Z)) : Prop := {
  hk_pos : Forall (fun x => 0 < fst x /\ 0 < snd x) l;
  hk_nodup : NoDup (map fst l);
  hk_apart : forall x y, In x l -> In y l -> fst x <> fst y -> apart x y }.

(** the region of an array *)
Definition region (a : array) : Z * Z := (unaligned_mem a, n_elements a * esz + 126).
Record array_ok h (a : array) : Prop := {
  ao_live : In (region a) (live h);
  ao_n : 0 <= n_elements a;
  ao_data : data a = align (unaligned_mem a);
  ao_objs : forall i, 0 <= i < n_elements a -> objs h (elem esz a i) <> None }.
Record ainv (s : astate) : Prop := {
  ai_heap : heap_ok (live (aheap s));
  ai_arr : forall id a, arrays s id = Some a -> array_ok (aheap s) a;
  ai_sep : forall i j a b, arrays s i = Some a -> arrays s j = Some b -> i <> j -> unaligned_mem a <> unaligned_mem b;
  ai_others : forall b, In b (others s) -> exists z, In (b, z) (live (aheap s));
  ai_nodup : NoDup (others s);
  ai_osep : forall id a, arrays s id = Some a -> ~ In (unaligned_mem a) (others s) }.

Lemma region_pos h a : heap_ok (live h) -> array_ok h a -> 0 < unaligned_mem a.
Proof. intros [P _ _] [L _ _ _]. rewrite Forall_forall in P. apply P in L. cbn in L. lia. Qed.

(** the elements of an array, and the cache lines they are in, are in its region *)
Lemma elem_range h a i : heap_ok (live h) -> array_ok h a -> 0 <= i < n_elements a ->
  unaligned_mem a <= data a <= elem esz a i /\ elem esz a i + esz <= data a + n_elements a * esz /\
  data a + n_elements a * esz + 63 <= fst (region a) + snd (region a).
Proof.
  intros K Ka Hi. pose proof (region_pos h a K Ka). destruct (align_range (unaligned_mem a) ltac:(lia)) as [B _].
  rewrite <- (ao_data h a Ka) in B. cbn [region fst snd]. unfold elem. nia.
Qed.
Lemma line_inside u n : 0 <= u -> 0 <= n -> forall p, align u <= p < align u + n ->
  u <= 64 * (p / 64) /\ 64 * (p / 64) + 64 <= u + n + 126.
Proof.
  intros Hu Hn p Hp. destruct (align_range u Hu) as [B M].
  pose proof (Z.div_mod p 64 ltac:(lia)). pose proof (Z.mod_pos_bound p 64 ltac:(lia)).
  assert (align u = 64 * (align u / 64)) by (pose proof (Z.div_mod (align u) 64 ltac:(lia)); lia).
  assert (align u / 64 <= p / 64) by (apply Z.div_le_mono; lia). lia.
Qed.

Lemma elem_accessible h a i : heap_ok (live h) -> array_ok h a -> 0 <= i < n_elements a -> accessible h (elem esz a i) esz = true.
Proof.
  intros K Ka Hi. destruct (elem_range h a i K Ka Hi) as (R1 & R2 & R3). apply existsb_exists. exists (region a).
  split; [exact (ao_live h a Ka)|]. unfold in_alloc. cbn [region fst snd] in *. lia.
Qed.

Lemma elems_differ h a b i j : heap_ok (live h) -> array_ok h a -> array_ok h b -> unaligned_mem a <> unaligned_mem b ->
  0 <= i < n_elements a -> 0 <= j < n_elements b -> elem esz a i <> elem esz b j.
Proof.
  intros K Ka Kb Hn Hi Hj. pose proof (elem_range h a i K Ka Hi). pose proof (elem_range h b j K Kb Hj).
  destruct (hk_apart _ K _ _ (ao_live h a Ka) (ao_live h b Kb) Hn); cbn [region fst snd] in *; lia.
Qed.

Lemma heap_ok_cons l b z : heap_ok l -> 0 < b -> 0 < z -> Forall (fun a => b + z <= fst a \/ fst a + snd a <= b) l -> heap_ok ((b, z) :: l).
Proof.
  intros [P N S] Hb Hz F. rewrite Forall_forall in F, P. constructor.
  - constructor; [cbn; lia|]. apply Forall_forall. exact P.
  - cbn [map fst]. constructor; [|exact N]. intros Hin. apply in_map_iff in Hin. destruct Hin as ([b' z'] & Q & Hin). cbn in Q. subst b'.
    specialize (F _ Hin). specialize (P _ Hin). cbn in *. lia.
  - intros x y [<-|Hx] [<-|Hy] Hne; [contradiction Hne; reflexivity | exact (F _ Hy) | | exact (S _ _ Hx Hy Hne)].
    specialize (F _ Hx). unfold apart. cbn [fst snd] in *. lia.
Qed.

Lemma heap_ok_filter l p : heap_ok l -> heap_ok (filter (fun a => negb (fst a =? p)) l).
Proof.
  intros [P N S]. constructor.
  - apply Forall_forall. intros x Hx. apply filter_In in Hx. rewrite Forall_forall in P. now apply P.
  - revert N. clear. induction l as [|[b z] l IH]; intros N; [constructor|]. inversion N; subst. cbn [filter fst].
    destruct (negb (b =? p)); [|now apply IH]. cbn [map fst]. constructor; [|now apply IH].
    intros Hin. apply in_map_iff in Hin. destruct Hin as (x & Q & Hin). apply filter_In in Hin. apply H1. apply in_map_iff. exists x. tauto.
  - intros x y Hx Hy. apply filter_In in Hx, Hy. apply S; tauto.
Qed.

(** ** Creating an array *)
Lemma new_array_ok h n b : heap_ok (live h) -> 0 <= n -> n * esz + 126 < 2 ^ 64 ->
  malloc_ok h (alloc_size esz n) (Some b) ->
  exists h', new_array v0 esz n (Some b) h = Done (Array b (align b) n, h') /\
    live h' = (b, n * esz + 126) :: live h /\
    heap_ok (live h') /\ array_ok h' (Array b (align b) n) /\
    (forall i, 0 <= i < n -> objs h' (align b + i * esz) = Some v0) /\
    (forall q, (forall i, 0 <= i < n -> q <> align b + i * esz) -> objs h' q = objs h q) /\
    trace h' = trace h ++ map (fun k => Created (align b + Z.of_nat k * esz)) (seq 0 (Z.to_nat n)).
Proof.
  intros K Hn Ho (Hb & _ & F). unfold new_array, allocate_aligned_data, malloc. rewrite alloc_size_ok in * by assumption.
  cbn [data]. set (h1 := Heap _ _ _).
  assert (K1 : heap_ok (live h1)) by (apply heap_ok_cons; [exact K | exact Hb | nia | exact F]).
  destruct (align_range b ltac:(lia)) as [B _].
  destruct (create_from_ok (align b) (Z.to_nat n) 0 h1) as (h' & E & L & O & U & Tr).
  { intros k Hk. apply existsb_exists. exists (b, n * esz + 126). split; [now left|]. unfold in_alloc. cbn [fst snd]. nia. }
  exists h'. rewrite E. cbn [andthen]. split; [reflexivity|]. split; [exact L|]. rewrite L. split; [exact K1|].
  assert (O' : forall i, 0 <= i < n -> objs h' (align b + i * esz) = Some v0) by (intros i Hi; apply (O i); lia).
  split; [|split; [exact O'|split]].
  - constructor; cbn [n_elements data unaligned_mem]; [rewrite L; now left | exact Hn | reflexivity|].
    intros i Hi. unfold elem. cbn [data]. rewrite O' by exact Hi. discriminate.
  - intros q Hq. rewrite U; [reflexivity|]. intros k Hk. apply Hq. lia.
  - exact Tr.
Qed.

(** other arrays are not affected *)
Lemma array_ok_frame h h' a : array_ok h a -> (forall x, In x (live h) -> In x (live h')) ->
  (forall i, 0 <= i < n_elements a -> objs h (elem esz a i) <> None -> objs h' (elem esz a i) <> None) -> array_ok h' a.
Proof. intros [L N D O] Hl Ho. constructor; [now apply Hl | exact N | exact D|]. intros i Hi. now apply Ho, O. Qed.

Lemma ainv_new st os h h' id b n :
  ainv (AState st os h) -> st id = None ->
  live h' = (b, n * esz + 126) :: live h -> heap_ok (live h') -> array_ok h' (Array b (align b) n) ->
  (forall q, (forall i, 0 <= i < n -> q <> align b + i * esz) -> objs h' q = objs h q) ->
  ainv (AState (set_array st id (Some (Array b (align b) n))) os h').
Proof.
  intros [K A S Os ND OS] Hid L K' Ka U. cbn [arrays others aheap] in *.
  assert (Hfresh : forall z, ~ In (b, z) (live h)).
  { intros z Hin. destruct K' as [_ N _]. rewrite L in N. cbn [map fst] in N. inversion N; subst. apply H1. now apply (in_map fst) in Hin. }
  assert (Af : forall id a, st id = Some a -> unaligned_mem a <> b).
  { intros id' a E Q. apply A in E. destruct E as [Hl _ _ _]. unfold region in Hl. rewrite Q in Hl. now apply Hfresh in Hl. }
  constructor; cbn [arrays others aheap].
  - exact K'.
  - intros id' a E. unfold set_array in E. destruct (id' =? id); [injection E as <-; exact Ka|].
    pose proof (A _ _ E) as Ka'. apply (array_ok_frame h); [exact Ka' | intros x Hx; rewrite L; now right|].
    intros i Hi Hsome. rewrite U; [exact Hsome|]. intros j Hj.
    assert (Ka'' : array_ok (Heap ((b, n * esz + 126) :: live h) (fun _ => Some v0) []) a).
    { destruct Ka' as [L1 N1 D1 O1]. constructor; [now right | exact N1 | exact D1 | discriminate]. }
    assert (Kb : array_ok (Heap ((b, n * esz + 126) :: live h) (fun _ => Some v0) []) (Array b (align b) n)).
    { destruct Ka as [L1 N1 D1 O1]. constructor; [now left | exact N1 | exact D1 | discriminate]. }
    rewrite L in K'. apply (elems_differ (Heap ((b, n * esz + 126) :: live h) (fun _ => Some v0) []) a (Array b (align b) n) i j K' Ka'' Kb (Af _ _ E) Hi Hj).
  - intros i j a a' Ei Ej Hne. unfold set_array in Ei, Ej.
    destruct (Z.eqb_spec i id), (Z.eqb_spec j id); [congruence | | | exact (S _ _ _ _ Ei Ej Hne)].
    + injection Ei as <-. cbn. intros Q. now apply (Af _ _ Ej).
    + injection Ej as <-. cbn. exact (Af _ _ Ei).
  - intros b' Hb'. destruct (Os _ Hb') as (z & Hz). exists z. rewrite L. now right.
  - exact ND.
  - intros id' a E. unfold set_array in E. destruct (id' =? id); [injection E as <-|exact (OS _ _ E)]. cbn.
    intros Hin. destruct (Os _ Hin) as (z & Hz). now apply Hfresh in Hz.
Qed.

Lemma new_array_from_ok h l b : heap_ok (live h) -> Z.of_nat (length l) * esz + 126 < 2 ^ 64 ->
  malloc_ok h (alloc_size esz (Z.of_nat (length l))) (Some b) ->
  let n := Z.of_nat (length l) in
  exists h', new_array_from v0 esz l (Some b) h = Done (Array b (align b) n, h') /\
    live h' = (b, n * esz + 126) :: live h /\
    heap_ok (live h') /\ array_ok h' (Array b (align b) n) /\
    (forall k, (k < length l)%nat -> objs h' (align b + Z.of_nat k * esz) = nth_error l k) /\
    (forall q, (forall i, 0 <= i < n -> q <> align b + i * esz) -> objs h' q = objs h q) /\
    trace h' = trace h ++ map (fun k => Created (align b + Z.of_nat k * esz)) (seq 0 (length l)).
Proof.
  intros K Ho Hm n. destruct (new_array_ok h n b K ltac:(lia) Ho Hm) as (h1 & E & L & K1 & Ka & O & U & Tr).
  unfold new_array_from. fold n. rewrite E. cbn [andthen fst snd data].
  destruct (copy_to_ok l (align b) h1) as (h' & E' & L' & O' & U' & Tr').
  { intros k Hk. split; [apply (elem_accessible h1 (Array b (align b) n) k K1 Ka); exact Hk | rewrite O by exact Hk; discriminate]. }
  rewrite E'. cbn [andthen]. exists h'. split; [reflexivity|]. rewrite L'. split; [exact L|]. split; [exact K1|].
  split; [|split; [exact O'|split]].
  - destruct Ka as [L1 N1 D1 O1]. constructor; [rewrite L'; exact L1 | exact N1 | exact D1|].
    intros i Hi. unfold elem in *. cbn [data n_elements] in *. rewrite <- (Z2Nat.id i) by lia.
    rewrite O' by lia. rewrite nth_error_Some. lia.
  - intros q Hq. rewrite U' by exact Hq. apply U. exact Hq.
  - rewrite Tr', Tr. unfold n. now rewrite Nat2Z.id.
Qed.

(** ** Deleting an array *)
Lemma existsb_live h a : array_ok h a -> existsb (fun x => fst x =? unaligned_mem a) (live h) = true.
Proof. intros Ka. apply existsb_exists. exists (region a). split; [exact (ao_live h a Ka)|]. cbn. lia. Qed.

Lemma delete_ok h a : heap_ok (live h) -> array_ok h a ->
  exists h', delete_array esz trivial a h = Done h' /\
    live h' = filter (fun x => negb (fst x =? unaligned_mem a)) (live h) /\
    (forall k, 0 <= k < n_elements a -> objs h' (elem esz a k) = None) /\
    (forall q, (forall k, 0 <= k < n_elements a -> q <> elem esz a k) -> objs h' q = objs h q) /\
    trace h' = trace h ++ map (fun k => Destroyed (data a + Z.of_nat k * esz)) (rev (seq 0 (Z.to_nat (n_elements a)))).
Proof.
  intros K Ka. pose proof (ao_n h a Ka) as Hn. unfold delete_array.
  destruct (destruct_from_ok (data a) (Z.to_nat (n_elements a)) h) as (h1 & E & L & O & U & Tr).
  { intros k Hk. apply (ao_objs h a Ka). lia. }
  rewrite E. cbn [andthen]. unfold free. pose proof (region_pos h a K Ka). replace (unaligned_mem a =? 0) with false by lia.
  rewrite L, (existsb_live h a Ka). eexists. split; [reflexivity|]. cbn [live objs trace].
  split; [reflexivity|]. split; [|split].
  - intros k Hk. apply O. lia.
  - intros q Hq. apply U. intros k Hk. apply Hq. lia.
  - exact Tr.
Qed.

Lemma areach_inv s : areach v0 esz trivial s -> ainv s.
Proof.
  induction 1 as [|st os h id n ans a h' H IH Hid Hn Ho Hm E Hs|st os h id l ans a h' H IH Hid Ho Hm E Hs|st os h id a i v h' H IH Hid Hi E|st os h id a h' H IH Hid E
                 |st os h size b h' H IH Hz Hm E|st os1 os2 b h h' H IH E].
  - constructor; cbn [arrays others aheap live].
    + constructor; [constructor | constructor | contradiction].
    + discriminate.
    + discriminate.
    + contradiction.
    + constructor.
    + discriminate.
  - destruct ans as [b|]; [clear Hs | contradiction].
    destruct (new_array_ok h n b (ai_heap _ IH) Hn Ho Hm) as (h1 & E1 & L & K1 & Ka & O & U & _). rewrite E in E1. injection E1 as -> ->.
    now apply (ainv_new st os h).
  - destruct ans as [b|]; [clear Hs | contradiction].
    destruct (new_array_from_ok h l b (ai_heap _ IH) Ho Hm) as (h1 & E1 & L & K1 & Ka & O & U & _). rewrite E in E1. injection E1 as -> ->.
    now apply (ainv_new st os h).
  - unfold assign in E. destruct (objs h (elem esz a i)); [|discriminate]. destruct (accessible h _ esz); [|discriminate].
    injection E as <-. destruct IH as [K A S Os ND OS]. constructor; cbn [arrays others aheap live] in *; try assumption.
    intros id' a' E'. destruct (A _ _ E') as [L1 N1 D1 O1]. constructor; cbn [live objs]; try assumption.
    intros j Hj. unfold set_objs. destruct (_ =? _); [discriminate | now apply O1].
  - destruct IH as [K A S Os ND OS]. cbn [arrays others aheap] in *. pose proof (A _ _ Hid) as Ka.
    destruct (delete_ok h a K Ka) as (h1 & E1 & L & O & U & _). rewrite E in E1. injection E1 as ->.
    assert (Keep : forall x, In x (live h) -> fst x <> unaligned_mem a -> In x (live h1)).
    { intros x Hx Hne. rewrite L. apply filter_In. split; [exact Hx|]. lia. }
    constructor; cbn [arrays others aheap].
    + rewrite L. now apply heap_ok_filter.
    + intros id' a' E'. unfold set_array in E'. destruct (Z.eqb_spec id' id) as [|Hne]; [discriminate|].
      pose proof (A _ _ E') as Ka'. pose proof (S _ _ _ _ E' Hid Hne) as Hu. destruct Ka' as [L1 N1 D1 O1] eqn:Eq. clear Eq.
      constructor; [apply Keep; [exact L1 | exact Hu] | exact N1 | exact D1|].
      intros j Hj. rewrite U; [now apply O1|]. intros k Hk. apply (elems_differ h a' a j k K (A _ _ E') Ka Hu Hj Hk).
    + intros i j x y Ei Ej Hne. unfold set_array in Ei, Ej. destruct (i =? id); [discriminate|]. destruct (j =? id); [discriminate|].
      exact (S _ _ _ _ Ei Ej Hne).
    + intros b Hb. destruct (Os _ Hb) as (z & Hz). exists z. apply Keep; [exact Hz|]. cbn. intros ->. exact (OS _ _ Hid Hb).
    + exact ND.
    + intros id' a' E'. unfold set_array in E'. destruct (id' =? id); [discriminate | exact (OS _ _ E')].
  - unfold malloc in E. injection E as <-. destruct IH as [K A S Os ND OS]. cbn [arrays others aheap live] in *.
    destruct Hm as (Hb & _ & F).
    assert (K' : heap_ok ((b, size) :: live h)) by (apply heap_ok_cons; assumption).
    assert (Hfresh : forall z, ~ In (b, z) (live h)).
    { intros z Hin. destruct K' as [_ N _]. cbn [map fst] in N. inversion N; subst. apply H2. now apply (in_map fst) in Hin. }
    constructor; cbn [arrays others aheap live].
    + exact K'.
    + intros id a Ea. apply (array_ok_frame h); [exact (A _ _ Ea) | intros x Hx; now right | trivial].
    + exact S.
    + intros b' [<-|Hb']; [exists size; now left|]. destruct (Os _ Hb') as (z & Hz'). exists z. now right.
    + constructor; [|exact ND]. intros Hin. destruct (Os _ Hin) as (z & Hz'). now apply Hfresh in Hz'.
    + intros id a Ea [Q|Hin]; [|exact (OS _ _ Ea Hin)]. destruct (A _ _ Ea) as [L1 _ _ _]. unfold region in L1. rewrite <- Q in L1. now apply Hfresh in L1.
  - destruct IH as [K A S Os ND OS]. cbn [arrays others aheap live] in *.
    assert (Hin : In b (os1 ++ b :: os2)) by (apply in_app_iff; right; now left).
    destruct (Os _ Hin) as (z & Hz). unfold free in E.
    assert (Hb : 0 < b). { destruct K as [P _ _]. rewrite Forall_forall in P. apply P in Hz. cbn in Hz. lia. }
    replace (b =? 0) with false in E by lia.
    replace (existsb _ _) with true in E by (symmetry; apply existsb_exists; exists (b, z); split; [exact Hz | cbn; lia]).
    injection E as <-. apply NoDup_remove in ND. destruct ND as [ND Hnin].
    constructor; cbn [arrays others aheap live].
    + now apply heap_ok_filter.
    + intros id a Ea. destruct (A _ _ Ea) as [L1 N1 D1 O1]. constructor; cbn [live objs]; try assumption.
      apply filter_In. split; [exact L1|]. cbn [region fst]. pose proof (OS _ _ Ea) as Q.
      destruct (Z.eqb_spec (unaligned_mem a) b) as [<-|]; [contradiction | reflexivity].
    + exact S.
    + intros b' Hb'. assert (Hb'' : In b' (os1 ++ b :: os2)) by (apply in_app_iff in Hb'; apply in_app_iff; cbn; tauto).
      destruct (Os _ Hb'') as (z' & Hz'). exists z'. apply filter_In. split; [exact Hz'|]. cbn [fst].
      destruct (Z.eqb_spec b' b) as [->|]; [contradiction | reflexivity].
    + exact ND.
    + intros id a Ea Hin'. apply (OS _ _ Ea). apply in_app_iff in Hin'. apply in_app_iff. cbn. tauto.
Qed.
End AlignedProof.
