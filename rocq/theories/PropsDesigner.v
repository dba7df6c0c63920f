(** * Properties of the filter design code (hiir/fnc.hpp, hiir/PolyphaseIir2Designer.cpp, filter-design/mkiir.cc)

    In exact arithmetic; a failed assert is DBad, a division by zero or a root of a
    negative number is DNaN, DFuel means that a loop was not finished. *)
From Coq Require Import ZArith Reals List Lia Lra Psatz Bool.
From Coquelicot Require Import Coquelicot.
From Interval Require Import Tactic.
From Verif Require Import Arith Tables DesignerModel DesignerProof DesignerPhase DesignerGdly DesignerTables.
Import ListNotations.
Open Scope R_scope.

(** ** C45: integer powers *)
Theorem C45_ipowp x n : (0 <= n < 2 ^ 63)%Z -> ipow x n = DOk (powerRZ x n).
Proof.
  intros H. rewrite ipow_ok by assumption. f_equal. destruct n as [|p|p]; [reflexivity| |lia]. cbn [powerRZ]. now rewrite Z2Nat.inj_pos.
Qed.
Theorem C45_ipowp_negative x n : (n < 0)%Z -> ipow x n = DBad.
Proof. exact (ipow_neg x n). Qed.
Example C45_case : ipow 3 5 = DOk 243.
Proof. rewrite C45_ipowp by lia. f_equal. unfold powerRZ. change (Pos.to_nat 5) with 5%nat. ring. Qed.

(** ** C46: the group delay *)
(** One branch of the filter is a product of sections (a + z^-2) / (1 + a z^-2)
    (ph_flag = false) or (a - z^-2) / (1 - a z^-2): every second coefficient.  Every
    function that is minus the phase of this product near w has the result as derivative in w. *)
Theorem C46_group_delay l f ph : (0 < List.length l)%nat -> 0 <= f < 0.5 -> List.Forall (fun a => 0 <= a < 1) l ->
  exists g, compute_group_delay l (Z.of_nat (List.length l)) f ph = DOk g /\
  (let w := 2 * hiir_PI * f in
   (forall theta d, locally w (fun v => half ph (evens l) v = (cos (theta v), - sin (theta v))) -> is_derive theta w d -> d = g) /\
   (exists theta, (forall v, half ph (evens l) v = (cos (theta v), - sin (theta v))) /\ is_derive theta w g)).
Proof.
  intros Hl Hf Hc. eexists. split.
  - apply group_delay_ok; [assumption|assumption|]. revert Hc. apply Forall_impl. intros a Ha. lra.
  - cbv zeta.
    assert (He : List.Forall (fun a => -1 < a < 1) (evens l)).
    { assert (S : forall m (r : list R), (List.length r <= m)%nat -> List.Forall (fun a => 0 <= a < 1) r -> List.Forall (fun a => -1 < a < 1) (evens r)).
      { induction m as [|m IH]; intros [|x [|y r]] L H; cbn [evens List.length] in *; try lia; try constructor;
          inversion H as [|? ? Hx H']; subst; try (lra || constructor). inversion H'; subst. apply IH; [lia|assumption]. }
      now apply (S (List.length l) l). }
    split.
    + intros theta d Hp Hd. now apply (phase_derive ph (evens l) theta _ d).
    + exists (th_sum ph (evens l)). split; [intros v; now apply th_sum_phase|now apply th_sum_derive].
Qed.
(** what half means *)
Example C46_half a b c w : half false [a; b; c] w = (section false a w * (section false b w * (section false c w * RtoC 1)))%C.
Proof. reflexivity. Qed.

(** the third argument of create_impl_iir_with_coeffs is the group delay at 1 kHz, to six decimals *)
Theorem C46_literals stage bits t gd : In bits [8; 12; 16; 20; 24]%Z -> In stage [2; 4; 8]%Z ->
  iir_table stage bits = Some (t, gd) ->
  exists g, compute_group_delay (map dec_val t) (Z.of_nat (List.length t)) (1000 / (44100 * IZR stage)) false = DOk g /\
  Rabs (g - dec_val gd) <= 0.00000051.
Proof.
  intros Hb Hs E. destruct (mkiir_ok 23 bits stage ltac:(lia) Hb Hs) as (t' & gd' & l & g & E' & _ & _ & _ & F).
  rewrite E in E'. injection E' as <- <-.
  assert (N : List.Forall2 near12 (map dec_val t) t).
  { clear. induction t as [|d t IH]; constructor; [|exact IH]. unfold near12. replace (dec_val d - dec_val d) with 0 by ring. rewrite Rabs_R0. interval with (i_prec 60). }
  destruct (F _ N) as [F1 F2].
  exists (gd_sum stage (map dec_val t)). split; [|exact F2].
  replace (List.length t) with (List.length (map dec_val t)) by apply map_length.
  assert (Hst : 1 <= IZR stage) by (apply IZR_le; cbn [In] in Hs; lia).
  rewrite group_delay_ok; [reflexivity| | |exact F1].
  - rewrite map_length. cbn [In] in Hb, Hs.
    destruct Hb as [<-|[<-|[<-|[<-|[<-|[]]]]]]; destruct Hs as [<-|[<-|[<-|[]]]]; injection E as <- <-; cbn; lia.
  - set (s := IZR stage) in *. assert (Es : 1000 / (44100 * s) * (44100 * s) = 1000) by (field; lra).
    set (z := 1000 / (44100 * s)) in *. split; nra.
Qed.

(** test_group_delay, mkiir.cc:16-50 (switched off in main): the coefficients of the hiir documentation give the group
    delays that the text expects; with %f the program would print 3.999999, 2.758001, 1.600000 *)
Definition doc_coeffs2 : list R := [0.029771566661791642; 0.11293802507590323; 0.23389457050522444; 0.37412196640361606;
  0.51845353417401152; 0.65849242953158127; 0.79323734846738669; 0.92851085864352823].
Definition doc_coeffs4 : list R := [0.039003493679774473; 0.15935669751127579; 0.3760341917496039; 0.73417946269919343].
Definition doc_coeffs8 : list R := [0.11116740519894572; 0.53837812120804285].
Theorem C46_documented :
  (exists g, mk_group_delay 2 doc_coeffs2 8 = DOk g /\ Rabs (g - 3.999999) <= 0.0000005) /\
  (exists g, mk_group_delay 4 doc_coeffs4 4 = DOk g /\ Rabs (g - 2.758001) <= 0.0000005) /\
  (exists g, mk_group_delay 8 doc_coeffs8 2 = DOk g /\ Rabs (g - 1.600000) <= 0.0000005).
Proof.
  unfold mk_group_delay. split; [|split].
  - change (compute_group_delay doc_coeffs2 8) with (compute_group_delay doc_coeffs2 (Z.of_nat (List.length doc_coeffs2))). rewrite group_delay_ok; [|apply Nat.lt_0_succ | lra | unfold doc_coeffs2; repeat (constructor; [lra|]); constructor].
    eexists. split; [reflexivity|]. unfold doc_coeffs2. cbn [evens map sum_list]. unfold gd1, hiir_PI. interval with (i_prec 60).
  - change (compute_group_delay doc_coeffs4 4) with (compute_group_delay doc_coeffs4 (Z.of_nat (List.length doc_coeffs4))). rewrite group_delay_ok; [|apply Nat.lt_0_succ | lra | unfold doc_coeffs4; repeat (constructor; [lra|]); constructor].
    eexists. split; [reflexivity|]. unfold doc_coeffs4. cbn [evens map sum_list]. unfold gd1, hiir_PI. interval with (i_prec 60).
  - change (compute_group_delay doc_coeffs8 2) with (compute_group_delay doc_coeffs8 (Z.of_nat (List.length doc_coeffs8))). rewrite group_delay_ok; [|apply Nat.lt_0_succ | lra | unfold doc_coeffs8; repeat (constructor; [lra|]); constructor].
    eexists. split; [reflexivity|]. unfold doc_coeffs8. cbn [evens map sum_list]. unfold gd1, hiir_PI. interval with (i_prec 60).
Qed.
Example C46_case : exists t, iir_table 2 16 = Some (t, Dec 3258518 (-6)) /\ List.length t = 6%nat.
Proof. eexists. split; reflexivity. Qed.

(** ** C47: compute_phase_delay is not the phase delay *)
(** For no coefficient and no frequency is (result * w) a phase of the section: neither of
    (a + z^-1) / (1 + a z^-1), nor, in the lower half of the band, of (a + z^-2) / (1 + a z^-2). *)
Lemma not_phase x theta c : phase_of theta c -> 0 < x - theta < 2 * PI -> ~ phase_of x c.
Proof.
  unfold phase_of. intros -> H E. injection E as E1 E2.
  assert (C : cos (x - theta) = 1).
  { rewrite cos_minus, <- E1. assert (sin x = sin theta) as -> by lra. pose proof (sin2_cos2 theta) as T. unfold Rsqr in T. lra. }
  set (d := x - theta) in *. assert (S : sin (d / 2) = 0).
  { replace d with (2 * (d / 2)) in C by field. rewrite cos_2a_sin in C. nra. }
  assert (0 < sin (d / 2)) by (apply sin_gt_0; lra). lra.
Qed.
Theorem C47_not_the_phase_delay a f : 0 <= a < 1 -> 0 < f < 0.5 ->
  let w := 2 * hiir_PI * f in
  exists d, compute_phase_delay a f = DOk d /\
  (forall theta, phase_of theta (section1 a w) -> d <> theta / w) /\
  (f <= 0.25 -> forall theta, phase_of theta (section false a w) -> d <> theta / w).
Proof.
  intros Ha Hf w. eexists. split; [exact (phase_delay_ok a f Ha Hf)|]. fold w.
  pose proof hiir_PI_bounds as P. pose proof PI_RGT_0.
  assert (Hw : 0 < w < PI) by (unfold w; nra).
  assert (Hw2 : w < hiir_PI) by (unfold w; nra).
  pose proof (th1_range a w Ha Hw) as T. set (t1 := th false a (w / 2)) in *.
  assert (K : forall theta c, phase_of theta c -> ~ phase_of (2 * hiir_PI - t1) c -> (2 * hiir_PI - t1) / w <> theta / w).
  { intros theta c Hp Hn E. apply Hn. replace (2 * hiir_PI - t1) with theta; [exact Hp|].
    apply Rmult_eq_reg_r with (/ w); [symmetry; exact E|]. apply Rinv_neq_0_compat. lra. }
  split.
  - intros theta Hp. apply (K theta _ Hp). apply (not_phase _ t1); [|lra].
    unfold section1, t1. apply th_phase. lra.
  - intros H4 theta Hp. apply (K theta _ Hp).
    assert (W2 : 2 * w <= hiir_PI) by (unfold w; nra).
    pose proof (th1_range a (2 * w) Ha ltac:(lra)) as T2. replace (2 * w / 2) with w in T2 by field.
    apply (not_phase _ (th false a w)); [|lra]. apply th_phase. lra.
Qed.
(** a section that is a pure delay of one sample *)
Lemma Rdiv0 x : 0 / x = 0.
Proof. unfold Rdiv. apply Rmult_0_l. Qed.
Example C47_case : exists d, compute_phase_delay 0 0.1 = DOk d /\ 8.99 < d < 9.01 /\ phase_of (2 * hiir_PI * 0.1) (section1 0 (2 * hiir_PI * 0.1)).
Proof.
  eexists. split; [apply phase_delay_ok; lra|]. cbv zeta. unfold th. rewrite !Rmult_0_l, Rdiv0, atan_0.
  pose proof hiir_PI_bounds as P. set (x := hiir_PI) in *.
  assert (K : forall y z, y <> 0 -> z = 9 * y -> z / y = 9) by (intros y z Hy ->; field; exact Hy).
  rewrite K by lra.
  split; [lra|]. unfold section1. replace (2 * x * 0.1) with (th false 0 (2 * x * 0.1 / 2)) at 1; [apply th_phase; lra|].
  unfold th. rewrite !Rmult_0_l, Rdiv0, atan_0. lra.
Qed.

(** ** C51: the parameters of the transition band *)
Theorem C51_transition t : 0 < t < 0.5 -> exists k q, compute_transition_param t = DOk (k, q) /\
  0 < k < 1 /\ 0 < q < 0.612.
Proof. intros H. exists (tk t), (tq t). split; [now apply transition_ok|]. split; [now apply tk_bounds|now apply tq_bounds]. Qed.
Theorem C51_rejected t : ~ 0 < t < 0.5 -> compute_transition_param t = DBad.
Proof.
  intros H. unfold compute_transition_param, dassert. destruct gt_dec; [|reflexivity]. destruct lt_dec; [lra|reflexivity].
Qed.
(** 18 kHz pass band at 44.1 kHz *)
Example C51_case : exists k q, compute_transition_param (9 / 98) = DOk (k, q) /\ 0.5569 < k < 0.557 /\ 0.0231 < q < 0.0232.
Proof. exists (tk (9 / 98)), (tq (9 / 98)). split; [apply transition_ok; lra|]. destruct kq2_ok as [A B]. lra. Qed.

(** ** C52: the number of coefficients *)
(** the result, if positive, is the smallest number of coefficients with the requested attenuation *)
Theorem C52_smallest att t n : 0 < att -> 0 < t < 0.5 -> compute_nbr_coefs_from_proto att t = DOk n -> (0 < n)%Z ->
  (exists a, compute_atten_from_order_tbw n t = DOk a /\ att <= a) /\
  forall m, (0 < m < n)%Z -> exists a, compute_atten_from_order_tbw m t = DOk a /\ a < att.
Proof.
  intros Ha Ht E Hn. destruct (nbr_coefs_minimal att t n Ha Ht E Hn) as [H1 H2]. split.
  - eexists. split; [now apply atten_from_order_ok|exact H1].
  - intros m Hm. eexists. split; [apply atten_from_order_ok; [lia|assumption]|now apply H2].
Qed.
Theorem C52_total att t : 0 < att -> 0 < t < 0.5 -> exists n, compute_nbr_coefs_from_proto att t = DOk n.
Proof. intros Ha Ht. destruct (nbr_coefs_ok att t Ha Ht) as (o & _ & E). eauto. Qed.
Theorem C52_attenuation n t : (0 < n)%Z -> 0 < t < 0.5 ->
  exists a, compute_atten_from_order_tbw n t = DOk a /\ 0 < a /\ exists a', compute_atten_from_order_tbw (n + 1) t = DOk a' /\ a < a'.
Proof.
  intros Hn Ht. eexists. split; [now apply atten_from_order_ok|]. split; [apply atten_pos|].
  eexists. split; [apply atten_from_order_ok; [lia|assumption]|].
  destruct (tq_bounds t Ht) as [Q1 Q2]. set (q := tq t) in *. clearbody q.
  unfold atten_of, log10. assert (Lq : ln q < 0) by (rewrite <- ln_1; apply ln_increasing; lra).
  assert (Ho : IZR (n * 2 + 1) + 2 = IZR ((n + 1) * 2 + 1)) by (rewrite <- plus_IZR; f_equal; lia).
  set (x := exp (IZR (n * 2 + 1) * 0.5 * ln q)). set (y := exp (IZR ((n + 1) * 2 + 1) * 0.5 * ln q)).
  assert (Hy : 0 < y) by apply exp_pos. assert (Hxy : y < x) by (apply exp_increasing; rewrite <- Ho; nra).
  pose proof ln10. assert (Hl : ln (4 * y / (1 + 4 * y)) < ln (4 * x / (1 + 4 * x))).
  { apply ln_increasing; [apply Rdiv_lt_0_compat; lra|].
    apply Rmult_lt_reg_r with ((1 + 4 * y) * (1 + 4 * x)); [nra|].
    replace (4 * y / (1 + 4 * y) * ((1 + 4 * y) * (1 + 4 * x))) with (4 * y * (1 + 4 * x)) by (field; lra).
    replace (4 * x / (1 + 4 * x) * ((1 + 4 * y) * (1 + 4 * x))) with (4 * x * (1 + 4 * y)) by (field; lra). nra. }
  assert (ln (4 * y / (1 + 4 * y)) / ln 10 < ln (4 * x / (1 + 4 * x)) / ln 10).
  { apply Rmult_lt_compat_r; [apply Rinv_0_lt_compat; lra|exact Hl]. }
  lra.
Qed.
(** a number of coefficients is not always positive, although the next step asserts it *)
Theorem C52_positive_refuted : exists att t n, 0 < att /\ 0 < t < 0.5 /\ compute_nbr_coefs_from_proto att t = DOk n /\ (n < 0)%Z /\
  forall fuel, compute_coefs_spec_order_tbw fuel n t = DBad.
Proof.
  exists 0.01, 0.1, (-1)%Z. split; [lra|]. split; [lra|].
  assert (E : compute_nbr_coefs_from_proto 0.01 0.1 = DOk (-1)%Z).
  { destruct (nbr_coefs_ok 0.01 0.1 ltac:(lra) ltac:(lra)) as (o & (H1 & H2 & H3) & ->).
    assert (B : -3 < order_bound 0.01 (tq 0.1) <= -1).
    { unfold order_bound, tq, te, tk, hiir_PI, Rpower. cbv zeta. split; interval with (i_prec 60). }
    assert (o <= -1)%Z by (apply H3; [reflexivity|lra]).
    assert (-3 < o)%Z by (apply lt_IZR; lra).
    assert (o = -2 \/ o = -1)%Z as [-> | ->] by lia; [discriminate|reflexivity]. }
  split; [exact E|]. split; [lia|]. intros fuel. reflexivity.
Qed.
Example C52_case : compute_nbr_coefs_from_proto 96 (9 / 98) = DOk 6%Z.
Proof.
  apply nbr_coefs_is; [lra|lra|lia|]. destruct kq2_ok as [_ Hq]. set (q := tq (9/98)) in *. clearbody q.
  left. unfold order_bound, Rpower. cbn [Z.mul Z.add Z.sub Pos.mul Pos.add]. split; interval with (i_prec 60).
Qed.

(** ** C53: the coefficients *)
(** the sums of compute_acc_num and compute_acc_den end within 23 terms, no assert fails, and
    what is stored is a number between 0 and 1 (unless a root of a negative number is taken) *)
Theorem C53_coefficients fuel n t : (23 <= fuel)%nat -> (0 < n)%Z -> 0 < t < 0.5 ->
  match compute_coefs_spec_order_tbw fuel n t with
  | DOk l => List.length l = Z.to_nat n /\ List.Forall (fun a => 0 <= a <= 1) l
  | DNaN => True
  | DBad | DFuel => False
  end.
Proof. exact (coefs_spec_order_ok fuel n t). Qed.
(** one coefficient, for all transition bandwidths up to 0.2: always a number *)
Theorem C53_one_coefficient fuel t : (23 <= fuel)%nat -> 0.1 <= t <= 0.2 -> exists a, compute_coefs_spec_order_tbw fuel 1 t = DOk [a] /\ 0 < a < 1.
Proof.
  intros Hf Ht. destruct (one_coef_gd fuel t Hf Ht) as (x & Hx & E & _). eexists. split; [exact E|].
  assert (Ex : (1 - x) / (1 + x) * (1 + x) = 1 - x) by (field; lra). set (z := (1 - x) / (1 + x)) in *. split; nra.
Qed.

(** ** C54: the tables of pandaresampler.cc are the output of mkiir.cc *)
Theorem C54_tables fuel bits stage : (23 <= fuel)%nat -> In bits [8; 12; 16; 20; 24]%Z -> In stage [2; 4; 8]%Z ->
  exists t gd l g, iir_table stage bits = Some (t, gd) /\
  mkiir fuel bits stage = DOk (Z.of_nat (List.length t), l, g) /\
  List.Forall2 (fun a d => Rabs (a - dec_val d) <= / 10 ^ 12) l t /\
  Rabs (g - dec_val gd) <= 0.00000051.
Proof.
  intros Hf Hb Hs. destruct (mkiir_ok fuel bits stage Hf Hb Hs) as (t & gd & l & g & H1 & H2 & H3 & H4 & _).
  exists t, gd, l, g. auto.
Qed.
Example C54_case : dec_val (Dec 13533476491166646 (-17)) = 0.13533476491166646 /\ hd_error iir_coeffs2_8 = Some (Dec 13533476491166646 (-17)).
Proof. split; [unfold dec_val; cbn [dexp dmant Z.leb Z.compare Z.opp]; change (10 ^ 17)%Z with 100000000000000000%Z; lra|reflexivity]. Qed.

(** ** C55: the search for a group delay *)
(** for sensible arguments no assert fails and the search ends *)
Theorem C55_no_abort fuel n gd f prec alb aub tlb tub : (23 <= fuel)%nat -> (0 < n <= 256)%Z -> 0 < gd -> 0 <= f < 0.5 -> 0 < prec ->
  0 < alb < aub -> 0 < tlb < tub -> tub < 0.5 ->
  match compute_coefs_spec_order_gdly fuel n gd f prec alb aub tlb tub with DBad | DFuel => False | _ => True end.
Proof.
  intros. pose proof (gdly_no_abort fuel n gd f prec alb aub tlb tub ltac:(assumption) ltac:(assumption) ltac:(assumption) ltac:(assumption) ltac:(assumption) ltac:(assumption) ltac:(assumption) ltac:(assumption)) as H7.
  destruct compute_coefs_spec_order_gdly; cbn [nan_or] in *; easy.
Qed.
(** the frequencies 0.5 <= f_rel < 1, which pass the asserts of this function, fail in the next one *)
Theorem C55_upper_frequencies fuel n gd f prec alb aub tlb tub r : 0.5 <= f ->
  compute_coefs_spec_order_gdly fuel n gd f prec alb aub tlb tub <> DOk r.
Proof. exact (gdly_f_rel fuel n gd f prec alb aub tlb tub r). Qed.
(** "no convergence" is reported only when the search has converged ... *)
Theorem C55_fail_conv fuel n gd f prec alb aub tlb tub l a t :
  compute_coefs_spec_order_gdly fuel n gd f prec alb aub tlb tub = DOk (ResCode_FAIL_CONV, Some (l, a, t)) ->
  exists g, compute_group_delay l n f false = DOk g /\ Rabs (g - gd) <= prec.
Proof. exact (fail_conv_converged fuel n gd f prec alb aub tlb tub l a t). Qed.
(** ... and success may be reported with a group delay outside the tolerance *)
Theorem C55_tolerance_refuted : exists gd prec alb aub l a t g,
  compute_coefs_spec_order_gdly 23 1 gd 0 prec alb aub 0.1 0.2 = DOk (ResCode_OK, Some (l, a, t)) /\
  compute_group_delay l 1 0 false = DOk g /\ Rabs (g - gd) > prec.
Proof. exact (gdly_not_converged 23 ltac:(lia)). Qed.
Example C55_case : exists gd prec alb aub, compute_coefs_spec_order_gdly 23 1 gd 0 prec alb aub 0.1 0.2 <> DNaN.
Proof. destruct C55_tolerance_refuted as (gd & prec & alb & aub & l & a & t & g & E & _). exists gd, prec, alb, aub. rewrite E. discriminate. Qed.

Print Assumptions C45_ipowp.
Print Assumptions C45_ipowp_negative.
Print Assumptions C46_group_delay.
Print Assumptions C46_literals.
Print Assumptions C46_documented.
Print Assumptions C47_not_the_phase_delay.
Print Assumptions C51_transition.
Print Assumptions C51_rejected.
Print Assumptions C52_smallest.
Print Assumptions C52_total.
Print Assumptions C52_attenuation.
Print Assumptions C52_positive_refuted.
Print Assumptions C53_coefficients.
Print Assumptions C53_one_coefficient.
Print Assumptions C54_tables.
Print Assumptions C55_no_abort.
Print Assumptions C55_upper_frequencies.
Print Assumptions C55_fail_conv.
Print Assumptions C55_tolerance_refuted.
