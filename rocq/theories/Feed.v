(** * Every signal can be fed to every configuration, in any partition

    Shows that the programs quantified over by [reach] exist: for every valid
    configuration and every sequence of blocks of supported sizes there is a
    program that feeds exactly these blocks. *)
From Coq Require Import ZArith List Lia Bool ZifyNat ZifyBool.
From Verif Require Import Arith Mem FirModel IirModel Tables ResamplerModel Wp Stage Cascade
  ResamplerProof ResamplerOk Spec SpecOk Client.
Import ListNotations.
Open Scope Z_scope.

Section Feed.
Context {A : arith} (plat : platform).
Implicit Types m : mem A.

(** an address space: the two temporaries, then the input, then the output,
    shifted by a whole number of floats to get any alignment *)
Definition addr_ex (shift n : Z) (b : blk) : Z :=
  match b with
  | Tmp2 => 2 ^ 20
  | User 0 => 2 ^ 21 + 4 * shift
  | User 1 => 2 ^ 21 + 4 * shift + 4 * (n + 2)
  | _ => 0
  end.

Lemma addr_ex_ok shift n : addr_ok (addr_ex shift n).
Proof. constructor; intros; try reflexivity. right. unfold paddr. cbn. lia. Qed.

(** the client writes its input and makes room for the output *)
Definition prepare (b : list A) (over out : Z) m : mem A := fun b' i =>
  match b' with
  | User 0 => if (0 <=? i) && (i <? len b + over) then Some (nthZ b i) else None
  | User 1 => if (0 <=? i) && (i <? out) then Some f0 else None
  | _ => m b' i
  end.

Definition feed_call (shift : Z) (b : list A) : call (A := A) :=
  Call (addr_ex shift (len b)) false (fun _ _ _ => f0) (Ptr (User 0) 0) (len b) (Ptr (User 1) 0).

Lemma over_range vec f md ratio : 0 <= over_read vec f md ratio <= 2.
Proof. unfold over_read. destruct f, md, (vec && (1 <? ratio)); lia. Qed.

Lemma out_size_nonneg md ratio n : 0 <= n -> 1 <= ratio -> 0 <= out_size md ratio n.
Proof. intros. unfold out_size. destruct md; [nia | apply Z.div_pos; lia]. Qed.

Lemma feed_call_ok (r : resampler) shift b m : 0 <= shift -> 1 <= r_ratio r ->
  size_ok (r_filter r) (r_mode r) (r_ratio r) (len b) ->
  call_ok plat r (prepare b (r_over plat r) (r_out r (len b)) m) (feed_call shift b) b.
Proof.
  intros Hsh Hr Hs. pose proof (len_nonneg b) as Lb.
  assert (Ho : 0 <= r_over plat r <= 2) by apply over_range.
  assert (Hz : 0 <= r_out r (len b)) by (apply out_size_nonneg; lia).
  constructor; cbn [feed_call c_addr c_n c_input c_output pb po padd].
  - apply addr_ex_ok.
  - reflexivity.
  - exact Hs.
  - now exists 0.
  - now exists 1.
  - intros k Hk. cbn [pb po prepare]. replace (_ && _) with true by lia. reflexivity.
  - intros k Hk. cbn [pb po padd prepare]. replace (_ && _) with true by lia. discriminate.
  - intros k Hk. cbn [pb po prepare]. replace (_ && _) with true by lia. discriminate.
  - left. left. discriminate.
  - intros _. left. right. unfold paddr. cbn [pb po addr_ex]. lia.
  - intros t [->| ->]; split; left; unfold paddr; cbn [pb po addr_ex]; lia.
Qed.

(** one more block *)
Lemma feed_one st m id o b shift : 0 <= shift -> reach plat st m -> st id = Some o ->
  size_ok (r_filter (o_res o)) (r_mode (o_res o)) (r_ratio (o_res o)) (len b) ->
  exists m' z, reach plat (set_obj st id (Some (obj_call o (feed_call shift b) b z))) m'.
Proof.
  intros Hsh H E Hs. set (m1 := prepare b (r_over plat (o_res o)) (r_out (o_res o) (len b)) m).
  assert (H1 : reach plat st m1).
  { apply reach_client with m; [exact H|]. intros b' i Hu _. unfold m1, prepare.
    destruct b'; try reflexivity. exfalso. apply Hu. now exists k. }
  assert (Hr : 1 <= r_ratio (o_res o)).
  { destruct (reach_inv _ _ _ H _ _ E) as (_ & Hr & _). destruct Hr as [->|[->|[->| ->]]]; lia. }
  destruct (reach_call_progress plat st m1 id o (feed_call shift b) b H1 E
    (feed_call_ok (o_res o) shift b m Hsh Hr Hs)) as (m' & z & _ & _ & _ & _ & R).
  exists m', z. exact R.
Qed.

Lemma set_obj_same st id (o : option (obj (A := A))) : set_obj st id o id = o.
Proof. unfold set_obj. now rewrite Z.eqb_refl. Qed.
Lemma set_obj_other st id (o : option (obj (A := A))) id' : id' <> id -> set_obj st id o id' = st id'.
Proof. intros H. unfold set_obj. destruct (Z.eqb_spec id' id); [contradiction | reflexivity]. Qed.

Definition valid (f : rfilter) (ratio prec : Z) : Prop :=
  ratio_no ratio /\ (2 <= ratio -> has_tables f prec).

(** any blocks, each with its own alignment *)
Theorem feed md ratio prec use_sse f id (bs : list (Z * list A)) :
  valid f ratio prec ->
  Forall (fun sb => 0 <= fst sb /\ size_ok f md ratio (len (snd sb))) bs ->
  exists st m (o : obj (A := A)), reach plat st m /\ st id = Some o /\
    o_res o = built plat id md ratio prec use_sse f /\ o_in o = concat (map snd bs).
Proof.
  intros [Hr HT] Hb. induction bs as [|[s b] bs IH] using rev_ind.
  - destruct (reach_new_progress (A := A) plat (fun _ => None) (fun _ _ => None) id md ratio prec use_sse f
      (reach_init plat _) eq_refl Hr HT) as (m' & _ & _ & H).
    eexists _, m', _. split; [exact H|]. split; [apply set_obj_same|]. split; reflexivity.
  - apply Forall_app in Hb. destruct Hb as [Hb Hs]. inversion Hs as [|? ? [H0 Hsz] _]; subst.
    destruct (IH Hb) as (st & m & o & H & E & Er & Ei). cbn [fst snd] in *.
    destruct (feed_one st m id o b s H0 H E) as (m' & z & R).
    { rewrite Er. exact Hsz. }
    eexists _, m', _. split; [exact R|]. split; [apply set_obj_same|]. split; [exact Er|].
    rewrite o_in_call, map_app, concat_app, Ei. cbn [map concat snd]. now rewrite app_nil_r.
Qed.
End Feed.
