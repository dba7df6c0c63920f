(** * Properties: what does not hold

    Each theorem exhibits a program, found by running the model (Session.v), for
    which a plausible property fails. *)
From Coq Require Import ZArith Reals List Lia Lra Bool ZifyNat ZifyBool.
From Flocq Require Import Core BinarySingleNaN.
From Verif Require Import Arith ArithR ArithF Mem FirModel IirModel Tables ResamplerModel Wp Stage Cascade
  ResamplerProof ResamplerOk Spec SpecOk SpecR Client Feed Twin StreamFacts Cases Session.
Import ListNotations.
Open Scope Z_scope.

Definition sse_platform := Platform true false.

(** the numbers a float list stands for, in a form that can be compared *)
Definition bits (x : list F32) : list SpecFloat.spec_float := map (@B2SF 24 128) x.
Definition finite (x : list F32) : Prop := Forall (fun v : b32 => is_finite v = true) x.
Definition ok_list (r : res (list F32)) : list F32 := match r with Ok z => z | Err _ => [] end.

Lemma ok_list_ok (r : res (list F32)) : (match r with Ok _ => true | Err _ => false end) = true -> r = Ok (ok_list r).
Proof. destruct r; [reflexivity | discriminate]. Qed.
Lemma bits_neq (x y : list F32) : bits x <> bits y -> x <> y.
Proof. intros H ->. now apply H. Qed.
Lemma bits_inj (x y : list F32) : bits x = bits y -> x = y.
Proof.
  revert y. induction x as [|a x IH]; intros [|b y] H; try discriminate; [reflexivity|].
  injection H as Ha H. f_equal; [exact (B2SF_inj 24 128 a b Ha) | exact (IH _ H)].
Qed.
Lemma finite_ok (x : list F32) : forallb (fun v : b32 => is_finite v) x = true -> finite x.
Proof. intros H. apply Forall_forall. intros v Hv. rewrite forallb_forall in H. now apply H. Qed.

Lemma run_example plat md ratio prec use_sse f bs :
  let s := session (A := F32) plat md ratio prec use_sse f 0 bs in
  configb f ratio prec && forallb (fun sb => (0 <=? fst sb) && sizeb f md ratio (len (snd sb))) bs &&
    (match s with Ok _ => true | Err _ => false end) = true ->
  exists st (m : mem F32), reach plat st m /\
    st 0 = Some (Obj (built plat 0 md ratio prec use_sse f) (map entry_for bs) (ok_list s)).
Proof.
  intros s H. apply andb_prop in H. destruct H as [H1 H2]. apply ok_list_ok in H2.
  exact (session_reach plat md ratio prec use_sse f 0 bs _ H1 H2).
Qed.

(** ** C05 *)

(** an arbitrary signal with small integer values *)
Definition some_signal (n : nat) : list F32 := map (fun k => b32_dy (Z.of_nat k * 7919 mod 1000 + 1) (-10)) (seq 0 n).

(** one block of eight samples, or eight blocks of one sample *)
Theorem C05_partition_bit_exact_refuted :
  exists plat st1 (m1 : mem F32) o1 st2 (m2 : mem F32) o2,
    reach plat st1 m1 /\ st1 0 = Some o1 /\ reach plat st2 m2 /\ st2 0 = Some o2 /\
    o_res o1 = o_res o2 /\ r_filter (o_res o1) = FILTER_FIR /\ r_mode (o_res o1) = UP /\
    o_in o1 = o_in o2 /\ finite (o_in o1) /\ o_out o1 <> o_out o2.
Proof.
  set (b1 := [(0, some_signal 8)]). set (b2 := map (fun v : F32 => (0, [v])) (some_signal 8)).
  destruct (run_example sse_platform UP 2 PREC_48DB true FILTER_FIR b1) as (st1 & m1 & H1 & O1); [vm_compute; reflexivity|].
  destruct (run_example sse_platform UP 2 PREC_48DB true FILTER_FIR b2) as (st2 & m2 & H2 & O2); [vm_compute; reflexivity|].
  eexists sse_platform, st1, m1, _, st2, m2, _.
  split; [exact H1|]. split; [exact O1|]. split; [exact H2|]. split; [exact O2|].
  split; [reflexivity|]. split; [reflexivity|]. split; [reflexivity|]. split; [reflexivity|].
  split; [apply finite_ok; vm_compute; reflexivity|].
  apply bits_neq. cbn [o_out]. vm_compute. discriminate.
Qed.
(** the same block at another address *)
Theorem C05_alignment_bit_exact_refuted :
  exists plat st1 (m1 : mem F32) o1 st2 (m2 : mem F32) o2,
    reach plat st1 m1 /\ st1 0 = Some o1 /\ reach plat st2 m2 /\ st2 0 = Some o2 /\
    o_res o1 = o_res o2 /\ r_filter (o_res o1) = FILTER_FIR /\ r_mode (o_res o1) = UP /\
    map e_block (o_log o1) = map e_block (o_log o2) /\ finite (o_in o1) /\ o_out o1 <> o_out o2.
Proof.
  set (b1 := [(0, some_signal 25)]). set (b2 := [(1, some_signal 25)]).
  destruct (run_example sse_platform UP 2 PREC_48DB true FILTER_FIR b1) as (st1 & m1 & H1 & O1); [vm_compute; reflexivity|].
  destruct (run_example sse_platform UP 2 PREC_48DB true FILTER_FIR b2) as (st2 & m2 & H2 & O2); [vm_compute; reflexivity|].
  eexists sse_platform, st1, m1, _, st2, m2, _.
  split; [exact H1|]. split; [exact O1|]. split; [exact H2|]. split; [exact O2|].
  split; [reflexivity|]. split; [reflexivity|]. split; [reflexivity|]. split; [reflexivity|].
  split; [apply finite_ok; vm_compute; reflexivity|].
  apply bits_neq. cbn [o_out]. vm_compute. discriminate.
Qed.
(** downsampling: 20 samples at once, or 2 at a time *)
Theorem C05_downsampling_bit_exact_refuted :
  exists plat st1 (m1 : mem F32) o1 st2 (m2 : mem F32) o2,
    reach plat st1 m1 /\ st1 0 = Some o1 /\ reach plat st2 m2 /\ st2 0 = Some o2 /\
    o_res o1 = o_res o2 /\ r_filter (o_res o1) = FILTER_FIR /\ r_mode (o_res o1) = DOWN /\
    o_in o1 = o_in o2 /\ finite (o_in o1) /\ o_out o1 <> o_out o2.
Proof.
  set (x := some_signal 20). set (b1 := [(0, x)]).
  set (b2 := map (fun k => (0, [nth (2 * k) x f0; nth (2 * k + 1) x f0])) (seq 0 10)).
  destruct (run_example sse_platform DOWN 2 PREC_48DB true FILTER_FIR b1) as (st1 & m1 & H1 & O1); [vm_compute; reflexivity|].
  destruct (run_example sse_platform DOWN 2 PREC_48DB true FILTER_FIR b2) as (st2 & m2 & H2 & O2); [vm_compute; reflexivity|].
  eexists sse_platform, st1, m1, _, st2, m2, _.
  split; [exact H1|]. split; [exact O1|]. split; [exact H2|]. split; [exact O2|].
  split; [reflexivity|]. split; [reflexivity|]. split; [reflexivity|]. split; [reflexivity|].
  split; [apply finite_ok; vm_compute; reflexivity|].
  apply bits_neq. cbn [o_out]. vm_compute. discriminate.
Qed.

(** ** C30 *)
Definition infinity : F32 := B754_infinity false.
Definition is_NaN (v : F32) : Prop := (v : b32) = B754_nan.

(** Linear interpolation of a signal that is 0 except for sample 8, which is
    infinite.  The window of output j consists of samples j/2-1 and j/2.
    Output 10, five samples earlier, is NaN with vector code; without it, it is 0. *)
Definition one_inf : list F32 := repeat f0 8 ++ [infinity] ++ repeat f0 13.

Theorem C30_sse_window_refuted :
  exists plat st (m : mem F32) o, reach plat st m /\ st 0 = Some o /\
    r_filter (o_res o) = FILTER_FIR /\ r_mode (o_res o) = UP /\ r_ratio (o_res o) = 2 /\ r_prec (o_res o) = PREC_LINEAR /\
    (forall k, 0 <= k < 22 -> k <> 8 -> smp (o_in o) k = f0) /\
    is_NaN (smp (o_out o) 10) /\ is_NaN (smp (o_out o) 24) /\
    forall plat' st' (m' : mem F32) id' o', reach plat' st' m' -> st' id' = Some o' ->
      vector plat' FILTER_FIR (r_use_sse (o_res o')) = false ->
      r_filter (o_res o') = FILTER_FIR -> r_mode (o_res o') = UP -> r_ratio (o_res o') = 2 -> r_prec (o_res o') = PREC_LINEAR ->
      o_in o' = o_in o -> smp (o_out o') 10 = f0 /\ smp (o_out o') 24 = f0.
Proof.
  set (b := [(0, one_inf)]).
  destruct (run_example sse_platform UP 2 PREC_LINEAR true FILTER_FIR b) as (st & m & H & O); [vm_compute; reflexivity|].
  eexists sse_platform, st, m, _.
  split; [exact H|]. split; [exact O|]. split; [reflexivity|]. split; [reflexivity|]. split; [reflexivity|]. split; [reflexivity|].
  assert (Ei : forall l z, o_in (A := F32) (Obj l (map entry_for b) z) = one_inf) by reflexivity.
  split; [|split; [|split]].
  - intros k Hk Hne. rewrite Ei.
    assert (Hc : forall n, (n < 22)%nat -> n <> 8%nat -> smp one_inf (Z.of_nat n) = f0).
    { intros n Hn Hn8. do 22 (destruct n as [|n]; [try reflexivity; exfalso; apply Hn8; reflexivity|]). lia. }
    rewrite <- (Z2Nat.id k) by lia. apply Hc; lia.
  - vm_compute. reflexivity.
  - vm_compute. reflexivity.
  - intros plat' st' m' id' o' H' E' V Hf Hm Hr Hp Hi. rewrite Ei in Hi.
    rewrite (reach_resample plat' _ _ _ _ H' E') by (intros _; rewrite Hf; exact V).
    rewrite Hf, Hm, Hr, Hp, Hi, V. vm_compute. split; reflexivity.
Qed.

(** ** C13 *)

(** Downsampling by 4 (linear interpolation, no vector code).  A call with a
    block of two samples 1, 1 returns and writes nothing (there is no room for
    any output, see [prepare], so that a write would be an error).  When blocks of zeros
    follow, the first output sample is 3/16.  A resampler that never saw the two
    samples gives 0, one that saw them as the beginning of its input gives 1/16. *)
Definition mem_of {X} (r : res (X * mem F32)) : mem F32 := match r with Ok (_, m) => m | Err _ => fun _ _ => None end.
Definition is_ok {X} (r : res X) : bool := match r with Ok _ => true | Err _ => false end.
Lemma mem_of_ok (r : res (unit * mem F32)) : is_ok r = true -> r = Ok (tt, mem_of r).
Proof. destruct r as [[[] m]|]; [reflexivity | discriminate]. Qed.

Definition c13_new := construct (A := F32) sse_platform 0 DOWN 4 PREC_LINEAR false FILTER_FIR (fun _ _ => None).
Definition c13_obj := built sse_platform 0 DOWN 4 PREC_LINEAR false FILTER_FIR.
Definition c13_first := run_call c13_obj (feed_call 0 [f1; f1]) (prepare [f1; f1] 0 0 (mem_of c13_new)).
Definition c13_second := run_call c13_obj (feed_call 0 (repeat f0 8)) (prepare (repeat f0 8) 0 2 (mem_of c13_first)).

Definition c13_out : F32 := match mem_of c13_second (User 1) 0 with Some z => z | None => f0 end.
Lemma get_some (x : option F32) : (match x with Some _ => true | None => false end) = true ->
  x = Some (match x with Some z => z | None => f0 end).
Proof. destruct x; [reflexivity | discriminate]. Qed.

Lemma down4_first (x : list F32) : 4 <= size x ->
  smp (resample (A := F32) FILTER_FIR DOWN PREC_LINEAR false 4 x) 0 =
  fir_down_at (coeffs FILTER_FIR DOWN PREC_LINEAR 2) (tab 1 (fir_down_at (coeffs FILTER_FIR DOWN PREC_LINEAR 4) (firstn 4 x))) 0.
Proof.
  intros Sx. change (resample FILTER_FIR DOWN PREC_LINEAR false 4 x) with
    (fir_down2 (coeffs FILTER_FIR DOWN PREC_LINEAR 2) (fir_down2 (coeffs FILTER_FIR DOWN PREC_LINEAR 4) x)).
  set (c2 := coeffs FILTER_FIR DOWN PREC_LINEAR 2). set (c4 := coeffs FILTER_FIR DOWN PREC_LINEAR 4).
  assert (S4 : 2 <= size (fir_down2 c4 x)).
  { unfold fir_down2. pose proof (Z.div_le_mono 4 (size x) 2 ltac:(lia) Sx) as Q. rewrite size_tab; [exact Q|].
    change (4 / 2) with 2 in Q. lia. }
  unfold fir_down2 at 1. rewrite smp_tab.
  2: { pose proof (Z.div_le_mono 2 (size (fir_down2 c4 x)) 2 ltac:(lia) S4) as Q. change (2 / 2) with 1 in Q. lia. }
  assert (D : forall a b : list F32, smp a 0 = smp b 0 -> fir_down_at c2 a 0 = fir_down_at c2 b 0).
  { intros a b E. change (length c2) with 2%nat.
    change (fir_down_at c2 a 0) with (fadd (fadd (fadd f0 (fmul f0 (smp c2 0))) (fmul (smp a 0) (smp c2 1))) (fmul fhalf f0)).
    change (fir_down_at c2 b 0) with (fadd (fadd (fadd f0 (fmul f0 (smp c2 0))) (fmul (smp b 0) (smp c2 1))) (fmul fhalf f0)).
    now rewrite E. }
  apply D. rewrite smp_tab by lia. unfold fir_down2. rewrite smp_tab.
  2: { pose proof (Z.div_le_mono 4 (size x) 2 ltac:(lia) Sx) as Q. change (4 / 2) with 2 in Q. lia. }
  apply (D x (firstn 4 x)). destruct x as [|x0 x]; reflexivity.
Qed.

Theorem C13_rejected_block_has_no_effect_refuted :
  exists plat r (m0 m1 m2 : mem F32) q1 q2,
    construct plat 0 DOWN 4 PREC_LINEAR false FILTER_FIR (fun _ _ => None) = Ok ((r, true), m0) /\
    let a1 := prepare [f1; f1] 0 0 m0 in
    c_n q1 = 2 /\ has a1 (c_input q1) 2 (nthZ [f1; f1]) /\ run_call r q1 a1 = Ok (tt, m1) /\
    let a2 := prepare (repeat f0 8) 0 2 m1 in
    c_n q2 = 8 /\ has a2 (c_input q2) 8 (nthZ (repeat f0 8)) /\ run_call r q2 a2 = Ok (tt, m2) /\
    exists z, m2 (pb (c_output q2)) (po (c_output q2)) = Some z /\
    forall plat' st (m : mem F32) id o w, reach plat' st m -> st id = Some o ->
      r_filter (o_res o) = FILTER_FIR -> r_mode (o_res o) = DOWN -> r_ratio (o_res o) = 4 -> r_prec (o_res o) = PREC_LINEAR ->
      vector plat' FILTER_FIR (r_use_sse (o_res o)) = false ->
      o_in o = repeat f0 8 ++ w \/ o_in o = [f1; f1] ++ repeat f0 8 ++ w ->
      smp (o_out o) 0 <> z.
Proof.
  exists sse_platform, c13_obj, (mem_of c13_new), (mem_of c13_first), (mem_of c13_second), (feed_call 0 [f1; f1]), (feed_call 0 (repeat f0 8)).
  split.
  { destruct (reach_new_progress (A := F32) sse_platform (fun _ => None) (fun _ _ => None) 0 DOWN 4 PREC_LINEAR false FILTER_FIR
      (reach_init sse_platform _) eq_refl) as (m' & Hc & _ & _).
    - right. right. left. reflexivity.
    - intros _. left. reflexivity.
    - cbn zeta in Hc. unfold mem_of, c13_new. rewrite Hc. reflexivity. }
  intros a1. split; [reflexivity|]. split.
  { intros k Hk. assert (k = 0 \/ k = 1) as [->| ->] by lia; reflexivity. }
  split; [apply (mem_of_ok c13_first); vm_compute; reflexivity|].
  intros a2. split; [reflexivity|]. split.
  { intros k Hk. cbn [feed_call c_input pb po a2]. unfold a2, prepare. rewrite Z.add_0_l.
    change (len (repeat f0 8) + 0) with 8. replace (_ && _) with true by lia. reflexivity. }
  split; [apply (mem_of_ok c13_second); vm_compute; reflexivity|].
  exists c13_out. split; [apply get_some; vm_compute; reflexivity|].
  assert (Bz : B2SF (c13_out : b32) = SpecFloat.S754_finite false 12582912 (-26)) by (vm_compute; reflexivity).
  intros plat' st m id o w H E Hf Hm Hr Hp V Hi.
  rewrite (reach_resample plat' _ _ _ _ H E) by (intros _; rewrite Hf; exact V).
  rewrite Hf, Hm, Hr, Hp, V. intros Q.
  assert (Sz : 4 <= size (o_in o)) by (unfold size; destruct Hi as [-> | ->]; rewrite !app_length; cbn [length repeat]; lia).
  rewrite down4_first in Q by exact Sz.
  apply (f_equal (@B2SF 24 128)) in Q. rewrite Bz in Q. revert Q.
  destruct Hi as [-> | ->].
  - change (firstn 4 (repeat f0 8 ++ w)) with (repeat (f0 (a := F32)) 4). vm_compute. discriminate.
  - change (firstn 4 ([f1; f1] ++ repeat f0 8 ++ w)) with [f1 (a := F32); f1; f0; f0]. vm_compute. discriminate.
Qed.

(** ** C44 *)

(** Linear FIR downsampling by 2 of the block 0, 1, .., 15 with vector code.  Not
    in place, the output is the one of the program without vector code (all
    results are exact).  In place, with the output written over the
    beginning of the input, it is different. *)
Definition in_place_call (b : list F32) : call (A := F32) :=
  Call (addr_ex 0 (len b)) false (fun _ _ _ => f0) (Ptr (User 0) 0) (len b) (Ptr (User 0) 0).
Definition c44_new := construct (A := F32) sse_platform 0 DOWN 2 PREC_LINEAR true FILTER_FIR (fun _ _ => None).
Definition c44_obj := built sse_platform 0 DOWN 2 PREC_LINEAR true FILTER_FIR.
Definition c44_block : list F32 := map (fun k => b32_dy (Z.of_nat k) 0) (seq 0 16).
Definition c44_run := run_call c44_obj (in_place_call c44_block) (prepare c44_block 0 0 (mem_of c44_new)).

Theorem C44_fir_in_place_refuted :
  exists plat r (m0 m1 : mem F32) b q z,
    construct plat 0 DOWN 2 PREC_LINEAR true FILTER_FIR (fun _ _ => None) = Ok ((r, true), m0) /\
    finite b /\ size b = 16 /\
    let a := prepare b 0 0 m0 in
    c_n q = size b /\ has a (c_input q) (len b) (nthZ b) /\ c_output q = c_input q /\
    run_call r q a = Ok (tt, m1) /\ peek m1 (c_output q) 8 = Ok z /\
    (exists st (m : mem F32) o, reach plat st m /\ st 0 = Some o /\ o_res o = r /\ map e_block (o_log o) = [b] /\
       o_out o <> z /\
       forall plat' st' (m' : mem F32) id o', reach plat' st' m' -> st' id = Some o' ->
         r_filter (o_res o') = FILTER_FIR -> r_mode (o_res o') = DOWN -> r_ratio (o_res o') = 2 ->
         r_prec (o_res o') = PREC_LINEAR ->
         vector plat' FILTER_FIR (r_use_sse (o_res o')) = false -> o_in o' = b ->
         o_out o' = o_out o).
Proof.
  exists sse_platform, c44_obj, (mem_of c44_new), (mem_of c44_run), c44_block,
    (in_place_call c44_block), (ok_list (peek (mem_of c44_run) (Ptr (User 0) 0) 8)).
  split.
  { destruct (reach_new_progress (A := F32) sse_platform (fun _ => None) (fun _ _ => None) 0 DOWN 2 PREC_LINEAR true FILTER_FIR
      (reach_init sse_platform _) eq_refl) as (m' & Hc & _ & _).
    - right. left. reflexivity.
    - intros _. left. reflexivity.
    - cbn zeta in Hc. unfold mem_of, c44_new. rewrite Hc. reflexivity. }
  split; [apply finite_ok; vm_compute; reflexivity|]. split; [reflexivity|].
  intros a1. split; [reflexivity|]. split.
  { intros k Hk. change (len c44_block) with 16 in Hk. cbn [in_place_call c_input pb po]. unfold a1, prepare. rewrite Z.add_0_l.
    change (len c44_block + 0) with 16. replace (_ && _) with true by lia. reflexivity. }
  split; [reflexivity|].
  split; [apply (mem_of_ok c44_run); vm_compute; reflexivity|].
  split; [apply ok_list_ok; vm_compute; reflexivity|].
  destruct (run_example sse_platform DOWN 2 PREC_LINEAR true FILTER_FIR [(0, c44_block)]) as (st & m & H & O);
    [vm_compute; reflexivity|].
  eexists st, m, _. split; [exact H|]. split; [exact O|]. split; [reflexivity|]. split; [reflexivity|].
  split.
  - apply bits_neq. cbn [o_out]. vm_compute. discriminate.
  - intros plat' st' m' id o' H' E' Hf Hm Hr Hp V Hi.
    rewrite (reach_resample plat' _ _ _ _ H' E') by (intros _; rewrite Hf; exact V).
    rewrite Hf, Hm, Hr, Hp, V, Hi. apply bits_inj. cbn [o_out]. vm_compute. reflexivity.
Qed.

(** ** C33 *)

(** two all-pass sections (last input, last output of the first, of the second), fed with a zero *)
Definition silent_step (c d : F32) (s : F32 * F32 * F32) : F32 * F32 * F32 :=
  let '(x, v, y) := s in
  let v' := fadd (fmul (fsub f0 v) c) x in (f0, v', fadd (fmul (fsub v' y) d) v).
Definition bits3 (s : F32 * F32 * F32) := let '(x, v, y) := s in bits [x; v; y].
Lemma bits3_inj s t : bits3 s = bits3 t -> s = t.
Proof. destruct s as [[x v] y], t as [[x' v'] y']. intros H. apply bits_inj in H. now injection H as -> -> ->. Qed.

(** f applied n times *)
Fixpoint iter {X} (n : nat) (f : X -> X) (x : X) : X := match n with O => x | S k => iter k f (f x) end.
Lemma silent_run c d n : forall x v y j, (j < n)%nat ->
  nth j (allpass_from d v y (allpass_from c x v (repeat f0 n))) f0 = snd (iter (S j) (silent_step c d) (x, v, y)).
Proof.
  induction n as [|n IH]; intros x v y j Hj; [lia|]. destruct j as [|j]; [reflexivity|].
  change (iter (S (S j)) (silent_step c d) (x, v, y)) with (iter (S j) (silent_step c d) (silent_step c d (x, v, y))).
  cbn [silent_step]. rewrite <- IH by lia. reflexivity.
Qed.
Lemma chain2_smp (c d v : F32) n (j : Z) : 0 < j <= Z.of_nat n ->
  smp (chain [c; d] (v :: repeat f0 n)) j =
  snd (iter (Z.to_nat j) (silent_step c d) (v, fadd (fmul (fsub v f0) c) f0,
    fadd (fmul (fsub (fadd (fmul (fsub v f0) c) f0) f0) d) f0)).
Proof.
  intros Hj. unfold smp. replace (j <? 0) with false by lia. replace (Z.to_nat j) with (S (Z.to_nat (j - 1))) by lia.
  rewrite <- (silent_run c d n) by lia. reflexivity.
Qed.
Lemma silent_run1 c d y n : forall x v j, (j < n)%nat ->
  nth j (allpass_from c x v (repeat f0 n)) f0 = snd (fst (iter (S j) (silent_step c d) (x, v, y))).
Proof.
  revert y. induction n as [|n IH]; intros y x v j Hj; [lia|]. destruct j as [|j]; [reflexivity|].
  change (iter (S (S j)) (silent_step c d) (x, v, y)) with (iter (S j) (silent_step c d) (silent_step c d (x, v, y))).
  cbn [silent_step]. rewrite <- IH by lia. reflexivity.
Qed.
Lemma chain1_smp (c v : F32) n (j : Z) : 0 < j <= Z.of_nat n ->
  smp (chain [c] (v :: repeat f0 n)) j =
  snd (fst (iter (Z.to_nat j) (silent_step c f1) (v, fadd (fmul (fsub v f0) c) f0,
    fadd (fmul (fsub (fadd (fmul (fsub v f0) c) f0) f0) f1) f0))).
Proof.
  intros Hj. unfold smp. replace (j <? 0) with false by lia. replace (Z.to_nat j) with (S (Z.to_nat (j - 1))) by lia.
  rewrite <- (silent_run1 c f1 _ n) by lia. reflexivity.
Qed.
Lemma weave_odd (x y : list F32) j : length x = length y -> 0 <= j -> smp (weave x y) (2 * j + 1) = smp y j.
Proof.
  intros L Hj. rewrite <- (weave_odds x y L) at 2. rewrite smp_odds. now replace (j <? 0) with false by lia.
Qed.
Lemma iter_period {X} (f : X -> X) n a b k : iter n f k = a -> f a = b -> f b = a ->
  forall j, (n <= j)%nat -> iter j f k = if Nat.even (j - n) then a else b.
Proof.
  intros Hn Ha Hb j Hj. replace j with (n + (j - n))%nat at 1 by lia. generalize (j - n)%nat as i. clear j Hj. revert k Hn.
  induction n as [|n IH]; intros k Hn i; [|cbn [iter Nat.add]; apply IH; exact Hn].
  cbn in Hn. subst k. cbn [Nat.add]. assert (P : forall i, iter i f a = (if Nat.even i then a else b) /\ iter i f b = if Nat.even i then b else a).
  { clear i. induction i as [|i [IH1 IH2]]; [now split|]. cbn [iter]. rewrite Ha, Hb, IH1, IH2, Nat.even_succ, <- Nat.negb_even.
    destruct (Nat.even i); now split. }
  now apply P.
Qed.

Definition iir48 : list F32 := coeffs FILTER_IIR UP PREC_48DB 2.
Lemma even_of_nat i : Z.even (Z.of_nat i) = Nat.even i.
Proof. induction i as [|i IH]; [reflexivity|]. rewrite Nat2Z.inj_succ, Z.even_succ, Nat.even_succ, <- Z.negb_even, <- Nat.negb_even. now f_equal. Qed.
(** 15738486 * 2^-49, about -151 dB *)
Definition residue : F32 := b32_dy 15738486 (-49).
Definition minus_residue : F32 := b32_dy (-15738486) (-49).

Lemma residue_val : (B2R (residue : b32) = 15738486 * / 2 ^ 49 /\ B2R (minus_residue : b32) = - (15738486 * / 2 ^ 49))%R.
Proof.
  split; rewrite <- SF2R_B2SF.
  - replace (B2SF _) with (SpecFloat.S754_finite false 15738486 (-49)) by (vm_compute; reflexivity). unfold SF2R, F2R; cbn -[IZR Z.pow_pos]. lra.
  - replace (B2SF _) with (SpecFloat.S754_finite true 15738486 (-49)) by (vm_compute; reflexivity). unfold SF2R, F2R; cbn -[IZR Z.pow_pos]. lra.
Qed.

(** the second chain of sections of the vector code, and the one of the other code *)
Lemma sse_chain n j : 138 <= j <= Z.of_nat n ->
  smp (chain [smp iir48 1; f1] (f1 :: repeat f0 n)) j = if Z.even j then minus_residue else residue.
Proof.
  intros Hj. rewrite chain2_smp by lia.
  rewrite (iter_period _ 138 (f0, f0, minus_residue) (f0, f0, residue) _) by (lia || (apply bits3_inj; vm_compute; reflexivity)).
  rewrite <- even_of_nat. replace (Z.of_nat (Z.to_nat j - 138)) with (j - 138) by lia. rewrite Z.even_sub. now destruct (Z.even j).
Qed.
Lemma scalar_chain n j : 138 <= j <= Z.of_nat n -> smp (chain [smp iir48 1] (f1 :: repeat f0 n)) j = f0.
Proof.
  intros Hj. rewrite chain1_smp by lia.
  rewrite (iter_period _ 138 (f0, f0, minus_residue) (f0, f0, residue) _) by (lia || (apply bits3_inj; vm_compute; reflexivity)).
  now destruct (Nat.even _).
Qed.
Lemma zero_chain cs n : (forall c, In c cs -> fadd (fmul (fsub f0 f0) c) f0 = (f0 : F32)) -> chain cs (repeat (f0 : F32) n) = repeat f0 n.
Proof.
  induction cs as [|c cs IH]; intros H; [reflexivity|].
  change (chain cs (allpass c (repeat f0 n)) = repeat f0 n).
  replace (allpass c (repeat f0 n)) with (repeat (f0 : F32) n); [apply IH; intros; apply H; now right|].
  clear IH. induction n as [|n IH]; [reflexivity|]. unfold allpass. cbn [repeat allpass_from].
  rewrite (H c) by now left. f_equal. exact IH.
Qed.

(** One sample, then silence of any length, in any blocks.  From sample 138 on,
    every second output sample of the upsampler is plus or minus the residue,
    with a sign that alternates forever.  Without vector code it is 0. *)
Theorem C33_up plat st (m : mem F32) id o n :
  reach plat st m -> st id = Some o ->
  let r := o_res o in
  r_filter r = FILTER_IIR -> r_mode r = UP -> r_ratio r = 2 -> r_prec r = PREC_48DB ->
  o_in o = f1 :: repeat f0 n ->
  forall j, 138 <= j <= Z.of_nat n ->
    B2R (smp (o_out o) (2 * j + 1) : b32) =
      (if vector plat FILTER_IIR (r_use_sse r) then (if Z.even j then - (15738486 * / 2 ^ 49) else 15738486 * / 2 ^ 49) else 0)%R.
Proof.
  intros H E r Hf Hm Hr Hp Hi j Hj.
  rewrite (reach_resample plat _ _ _ _ H E) by (fold r; rewrite Hf; discriminate). fold r. rewrite Hf, Hm, Hr, Hp, Hi.
  destruct residue_val as [R1 R2].
  destruct (vector plat FILTER_IIR (r_use_sse r)).
  - change (resample FILTER_IIR UP PREC_48DB true 2 (f1 :: repeat f0 n)) with
      (weave (chain [smp iir48 0; smp iir48 2] (f1 :: repeat (f0 (a := F32)) n)) (chain [smp iir48 1; f1] (f1 :: repeat f0 n))).
    rewrite weave_odd by (now rewrite !chain_length || lia). rewrite sse_chain by exact Hj. destruct (Z.even j); [exact R2 | exact R1].
  - change (resample FILTER_IIR UP PREC_48DB false 2 (f1 :: repeat f0 n)) with
      (weave (chain [smp iir48 0; smp iir48 2] (f1 :: repeat (f0 (a := F32)) n)) (chain [smp iir48 1] (f1 :: repeat f0 n))).
    rewrite weave_odd by (now rewrite !chain_length || lia). rewrite scalar_chain by exact Hj. reflexivity.
Qed.

(** The same for the downsampler, for every output sample. *)
Theorem C33_down plat st (m : mem F32) id o n :
  reach plat st m -> st id = Some o ->
  let r := o_res o in
  r_filter r = FILTER_IIR -> r_mode r = DOWN -> r_ratio r = 2 -> r_prec r = PREC_48DB ->
  o_in o = f1 :: repeat f0 (2 * n + 1) ->
  forall j, 138 <= j <= Z.of_nat n ->
    B2R (smp (o_out o) j : b32) =
      (if vector plat FILTER_IIR (r_use_sse r) then (if Z.even j then - (15738486 * / 2 ^ 50) else 15738486 * / 2 ^ 50) else 0)%R.
Proof.
  intros H E r Hf Hm Hr Hp Hi j Hj.
  rewrite (reach_resample plat _ _ _ _ H E) by (fold r; rewrite Hf; discriminate). fold r. rewrite Hf, Hm, Hr, Hp, Hi.
  assert (Ev : evens (f1 :: repeat (f0 (a := F32)) (2 * n + 1)) = f1 :: repeat f0 n).
  { replace (2 * n + 1)%nat with (S (2 * n)) by lia. cbn [repeat evens]. f_equal. clear. induction n as [|n IH]; [reflexivity|].
    replace (2 * S n)%nat with (S (S (2 * n))) by lia. cbn [repeat evens]. now rewrite IH. }
  assert (Od : odds (f1 :: repeat (f0 (a := F32)) (2 * n + 1)) = repeat f0 (S n)).
  { replace (2 * n + 1)%nat with (S (2 * n)) by lia. cbn [repeat odds]. f_equal. clear. induction n as [|n IH]; [reflexivity|].
    replace (2 * S n)%nat with (S (S (2 * n))) by lia. cbn [repeat odds]. now rewrite IH. }
  assert (Zc : chain [smp iir48 0; smp iir48 2] (repeat f0 (S n)) = repeat f0 (S n)).
  { apply zero_chain. intros c [<-|[<-|[]]]; apply (B2SF_inj 24 128); vm_compute; reflexivity. }
  assert (Hz : forall f (x : list F32), size x = Z.of_nat (S n) -> smp (zip f (repeat f0 (S n)) x) j = f f0 (smp x j)).
  { intros f x Sx. unfold smp. replace (j <? 0) with false by lia. unfold size in Sx. rewrite zip_nth by (rewrite ?repeat_length; lia).
    rewrite nth_repeat. reflexivity. }
  assert (Sc : forall cs, size (chain cs (f1 :: repeat (f0 (a := F32)) n)) = Z.of_nat (S n)).
  { intros cs. unfold size. rewrite chain_length. cbn [length]. now rewrite repeat_length. }
  destruct (vector plat FILTER_IIR (r_use_sse r)).
  - change (resample FILTER_IIR DOWN PREC_48DB true 2 (f1 :: repeat f0 (2 * n + 1))) with
      (zip (fun a b => fmul (fadd b a) fhalf) (chain [smp iir48 0; smp iir48 2] (odds (f1 :: repeat (f0 (a := F32)) (2 * n + 1))))
        (chain [smp iir48 1; f1] (evens (f1 :: repeat (f0 (a := F32)) (2 * n + 1))))).
    rewrite Ev, Od, Zc, Hz by apply Sc. rewrite sse_chain by exact Hj. rewrite <- SF2R_B2SF.
    destruct (Z.even j).
    + replace (B2SF _) with (SpecFloat.S754_finite true 15738486 (-50)) by (vm_compute; reflexivity). unfold SF2R, F2R; cbn -[IZR Z.pow_pos]. lra.
    + replace (B2SF _) with (SpecFloat.S754_finite false 15738486 (-50)) by (vm_compute; reflexivity). unfold SF2R, F2R; cbn -[IZR Z.pow_pos]. lra.
  - change (resample FILTER_IIR DOWN PREC_48DB false 2 (f1 :: repeat f0 (2 * n + 1))) with
      (zip (fun a b => fmul fhalf (fadd a b)) (chain [smp iir48 0; smp iir48 2] (odds (f1 :: repeat (f0 (a := F32)) (2 * n + 1))))
        (chain [smp iir48 1] (evens (f1 :: repeat (f0 (a := F32)) (2 * n + 1))))).
    rewrite Ev, Od, Zc, Hz by apply Sc. rewrite scalar_chain by exact Hj. reflexivity.
Qed.

(** non-vacuity: such programs exist, with the silence in blocks of any size *)
Lemma concat_silence k b : concat (repeat (repeat (f0 (a := F32)) b) k) = repeat f0 (k * b).
Proof. induction k as [|k IH]; [reflexivity|]. cbn [repeat concat Nat.mul]. now rewrite repeat_app, IH. Qed.
Example C33_up_case b k : (0 < b)%nat ->
  exists st (m : mem F32) o, reach sse_platform st m /\ st 0 = Some o /\
    vector sse_platform FILTER_IIR (r_use_sse (o_res o)) = true /\
    r_filter (o_res o) = FILTER_IIR /\ r_mode (o_res o) = UP /\ r_ratio (o_res o) = 2 /\ r_prec (o_res o) = PREC_48DB /\
    o_in o = f1 :: repeat f0 (k * b).
Proof.
  intros Hb. destruct (feed (A := F32) sse_platform UP 2 PREC_48DB true FILTER_IIR 0 ((0, [f1]) :: repeat (0, repeat f0 b) k)) as (st & m & o & H & E & Er & Ei).
  - apply (configb_ok FILTER_IIR 2 PREC_48DB). reflexivity.
  - constructor; [split; [cbn; lia | cbn; lia]|]. apply Forall_forall. intros x Hx. apply repeat_spec in Hx. subst x.
    split; [cbn; lia|]. cbn [snd size_ok]. unfold len. rewrite repeat_length. lia.
  - exists st, m, o. split; [exact H|]. split; [exact E|]. rewrite Er. do 5 (split; [reflexivity|]). rewrite Ei.
    cbn [map concat snd app]. f_equal. rewrite <- concat_silence. f_equal. clear. induction k as [|k IH]; [reflexivity|]. cbn. now f_equal.
Qed.

Print Assumptions C05_partition_bit_exact_refuted.
Print Assumptions C05_alignment_bit_exact_refuted.
Print Assumptions C05_downsampling_bit_exact_refuted.
Print Assumptions C30_sse_window_refuted.
Print Assumptions C13_rejected_block_has_no_effect_refuted.
Print Assumptions C44_fir_in_place_refuted.
Print Assumptions C33_up.
Print Assumptions C33_down.
