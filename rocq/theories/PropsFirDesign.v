(** * Properties: the design of the FIR filters *)
From Coq Require Import ZArith Reals List Bool Lia Lra.
From Flocq Require Import Core BinarySingleNaN.
From Interval Require Import Tactic.
From Verif Require Import Arith ArithF Tables Cascade ResamplerModel ResamplerOk ConfigFacts LitProof PropsLit FirDesign FirDesignCert.
Import ListNotations.
Open Scope Z_scope.

(** ** C78 *)

(** Every FIR table is the output of mkfir.sh: the window with the parameters given there exists,
    and whatever satisfies its definition gives the literals of the source, up to 2e-16 and to a
    relative error of 6e-14. *)
Theorem C78_design s p n latt : In (s, p, n, latt) mkfir_calls ->
  exists t, fir_table s p = Some t /\ length t = n /\
  (exists w, ultrwin n (3 / 4) latt w) /\
  forall w, ultrwin n (3 / 4) latt w -> forall i, (i < n)%nat ->
    let d := nth i t (Dec 0 0) in
    let v := (IZR (dmant d) * powerRZ 10 (dexp d))%R in
    let c := us_sinc w (mkfir_position n i) in
    (Rabs (v - c) <= 2 / 10 ^ 16)%R /\ (Rabs (v - c) <= 6 / 10 ^ 14 * Rabs c)%R.
Proof.
  intros H. assert (G : exists t, fir_table s p = Some t /\ designed n latt t).
  { unfold mkfir_calls in H. cbn [In] in H.
    repeat (destruct H as [H|H]; [injection H as <- <- <- <-; eexists; split; [reflexivity|] |]); [.. | contradiction].
    - exact designed_2_24.
    - exact designed_4_24.
    - exact designed_8_24.
    - exact designed_2_20.
    - exact designed_4_20.
    - exact designed_8_20.
    - exact designed_2_16.
    - exact designed_4_16.
    - exact designed_8_16.
    - exact designed_2_12.
    - exact designed_4_12.
    - exact designed_8_12.
    - exact designed_2_8.
    - exact designed_4_8.
    - exact designed_8_8. }
  destruct G as (t & E & G). exists t. split; [exact E | exact G].
Qed.

(** All tables except the one for linear interpolation are made by mkfir.sh. *)
Theorem C78_all s p t : stage_no s -> fir_table s p = Some t ->
  (exists latt, In (s, p, length t, latt) mkfir_calls) \/ p = PREC_LINEAR.
Proof.
  intros Hs H. unfold fir_table in H. destruct (Z.eqb_spec p 1) as [->|Hp]; [right; reflexivity|]. left.
  destruct Hs as [->|[->| ->]]; cbn [Z.eqb Pos.eqb andb] in H.
  all: destruct (Z.eqb_spec p 24) as [->|_]; [injection H as <-; eexists; unfold mkfir_calls; cbn [In length]; tauto|].
  all: destruct (Z.eqb_spec p 20) as [->|_]; [injection H as <-; eexists; unfold mkfir_calls; cbn [In length]; tauto|].
  all: destruct (Z.eqb_spec p 16) as [->|_]; [injection H as <-; eexists; unfold mkfir_calls; cbn [In length]; tauto|].
  all: destruct (Z.eqb_spec p 12) as [->|_]; [injection H as <-; eexists; unfold mkfir_calls; cbn [In length]; tauto|].
  all: destruct (Z.eqb_spec p 8) as [->|_]; [injection H as <-; eexists; unfold mkfir_calls; cbn [In length]; tauto|].
  all: discriminate.
Qed.

(** The coefficients in use at run time: binary32 numbers that differ from the designed filter by little
    more than the rounding. *)
Theorem C78_run_time s p n latt w i k : In (s, p, n, latt) mkfir_calls -> ultrwin n (3 / 4) latt w -> (i < n)%nat -> k = 0 \/ k = 1 ->
  exists t, fir_table s p = Some t /\
  let f := lit (A := F32) (nth i t (Dec 0 0)) k : b32 in
  let c := (us_sinc w (mkfir_position n i) * 2 ^ Z.to_nat k)%R in
  is_finite f = true /\ (Rabs (B2R f - c) <= 5961 / 10 ^ 11 * Rabs c)%R.
Proof.
  intros HI HW Hi Hk. destruct (C78_design s p n latt HI) as (t & E & L & _ & G). exists t. split; [exact E|].
  specialize (G w HW i Hi). cbv zeta in G |- *. destruct G as [_ G]. set (d := nth i t (Dec 0 0)) in *.
  assert (Hs : stage_no s /\ In p [1; 8; 12; 16; 20; 24]).
  { unfold mkfir_calls in HI. cbn [In] in HI. repeat (destruct HI as [HI|HI]; [injection HI as <- <- _ _; split; [unfold stage_no; auto | cbn; tauto]|]). contradiction. }
  destruct Hs as [Hs Hp].
  destruct (C75_nearest s p d k Hs Hp Hk) as (F & _ & N); [left; exists t; split; [exact E | apply nth_In; lia]|].
  cbv zeta in N. split; [exact F|]. set (v := (IZR (dmant d) * powerRZ 10 (dexp d))%R) in *. set (c := us_sinc w (mkfir_position n i)) in *.
  set (z := (2 ^ Z.to_nat k)%R) in *. assert (Hz : (0 < z)%R) by (apply pow_lt; lra). set (f := B2R _) in *.
  rewrite Rabs_mult, (Rabs_pos_eq z) in N |- * by lra.
  assert (B : (Rabs (v * z - c * z) <= 6 / 10 ^ 14 * Rabs c * z)%R).
  { replace (v * z - c * z)%R with ((v - c) * z)%R by ring. rewrite Rabs_mult, (Rabs_pos_eq z) by lra. apply Rmult_le_compat_r; lra. }
  assert (V : (Rabs v <= Rabs c + 6 / 10 ^ 14 * Rabs c)%R).
  { replace v with (c + (v - c))%R by ring. eapply Rle_trans; [apply Rabs_triang|]. lra. }
  replace (f - c * z)%R with ((f - v * z) + (v * z - c * z))%R by ring. eapply Rle_trans; [apply Rabs_triang|].
  eapply Rle_trans; [apply Rplus_le_compat; [exact N | exact B]|].
  apply (Rmult_le_compat_r z) in V; [|lra]. set (a := (Rabs c * z)%R). assert (0 <= a)%R by (apply Rmult_le_pos; [apply Rabs_pos | lra]).
  replace (6 / 10 ^ 14 * Rabs c * z)%R with (6 / 10 ^ 14 * a)%R by (unfold a; ring).
  replace ((Rabs c + 6 / 10 ^ 14 * Rabs c) * z)%R with (a + 6 / 10 ^ 14 * a)%R in V by (unfold a; ring).
  replace (5961 / 10 ^ 11 * (Rabs c * z))%R with (5961 / 10 ^ 11 * a)%R by (unfold a; ring). lra.
Qed.

(** The largest filter: the coefficient next to the centre. *)
Example C78_case : exists w, ultrwin 52 (3 / 4) 138 w /\ (Rabs (us_sinc w 1 - 31748269557078473 / 10 ^ 17) <= 2 / 10 ^ 16)%R.
Proof.
  destruct (C78_design 2 24 52 138) as (t & E & L & (w & HW) & G); [left; reflexivity|]. exists w. split; [exact HW|].
  injection E as <-. destruct (G w HW 26%nat ltac:(lia)) as [G1 _]. change (mkfir_position 52 26) with 1 in G1.
  change (nth 26 fir_coeffs2_24 (Dec 0 0)) with (Dec (31748269557078473) (-17)) in G1. cbn [dmant dexp] in G1.
  rewrite Rabs_minus_sym in G1. replace (powerRZ 10 (-17)) with (/ 10 ^ 17)%R in G1 by reflexivity. exact G1.
Qed.
(** the window itself at this position *)
Example C78_case_window w : ultrwin 52 (3 / 4) 138 w -> (9973 / 10000 < w 1%nat < 9975 / 10000)%R.
Proof.
  intros HW. destruct (C78_design 2 24 52 138) as (t & E & L & _ & G); [left; reflexivity|].
  injection E as <-. destruct (G w HW 26%nat ltac:(lia)) as [G1 _]. change (mkfir_position 52 26) with 1 in G1.
  change (nth 26 fir_coeffs2_24 (Dec 0 0)) with (Dec (31748269557078473) (-17)) in G1. cbn [dmant dexp] in G1.
  replace (powerRZ 10 (-17)) with (/ 10 ^ 17)%R in G1 by reflexivity.
  unfold us_sinc, sinc in G1. destruct (Req_EM_T (1 * 0.5) 0) as [Z|_]; [exfalso; lra|].
  replace (PI * (1 * 0.5))%R with (PI / 2)%R in G1 by lra. rewrite sin_PI2 in G1. change (Z.abs_nat 1) with 1%nat in G1.
  set (u := w 1%nat) in *. replace (1 / (PI / 2) * u / 2)%R with (u / PI)%R in G1 by (field; apply PI_neq0).
  pose proof PI_RGT_0. apply Rabs_le_inv in G1. set (y := (u / PI)%R) in *. assert (EU : u = (y * PI)%R) by (unfold y; field; lra). rewrite EU.
  assert (Y : (0.3174826955707845 <= y <= 0.3174826955707850)%R) by lra. clearbody y. clear - Y. split; interval with (i_prec 60).
Qed.

Print Assumptions C78_design.
Print Assumptions C78_all.
Print Assumptions C78_run_time.
