(** * How far the two phases of the IIR stages differ *)
From Coq Require Import ZArith Reals List Lia Lra Psatz Bool ZifyNat ZifyBool.
From Verif Require Import Arith ArithR Tables ResamplerModel ResamplerProof ResamplerOk Spec SpecOk SpecR Client Feed Twin TablesF IirReal TrigPoly IirPhase.
Import ListNotations.
Open Scope Z_scope.

(** ** Sign of a cosine polynomial for D cos theta between m - r and m + r *)
Section AllPoly.
Context (D m r : Z) (theta t : R).
Hypothesis HD : (IZR D * cos theta = IZR m + IZR r * cos t)%R.
Fixpoint cheb_acc (F P0 P1 acc : list Z) : list Z :=
  match F with [] => acc | x :: F => cheb_acc F P1 (cheb_next D m r P0 P1) (addl (scal D acc) (scal x P0)) end.
Lemma cheb_acc_ok F : forall n P0 P1 acc A, is_cheb D theta t n P0 -> is_cheb D theta t (S n) P1 ->
  (cosum acc t * IZR D = IZR D ^ n * A)%R ->
  (cosum (cheb_acc F P0 P1 acc) t * IZR D = IZR D ^ (n + length F) * (A + cosum_from (INR n) F theta))%R.
Proof.
  induction F as [|x F IH]; intros n P0 P1 acc A H0 H1 HA; cbn [cheb_acc length cosum_from].
  - rewrite Nat.add_0_r, Rplus_0_r. exact HA.
  - rewrite (IH (S n) _ _ _ (A + IZR x * cos (INR n * theta))%R).
    + rewrite S_INR. replace (S n + length F)%nat with (n + S (length F))%nat by lia. ring.
    + exact H1.
    + apply (cheb_step D m r theta t HD); assumption.
    + unfold cosum. rewrite cosum_add, !cosum_scal. fold (cosum acc t). fold (cosum P0 t). rewrite H0.
      cbn [pow]. transitivity (IZR D * (cosum acc t * IZR D) + IZR x * (IZR D ^ n * cos (INR n * theta)) * IZR D)%R; [ring|]. rewrite HA. ring.
Qed.
End AllPoly.
Definition pos_check (D m r : Z) (F : list Z) (q : Z) (a : list Z) : bool := certified (cheb_acc D m r F [1] [m; r] []) q a.
Lemma pos_check_ok D m r F q a theta : 0 < D -> 0 < r -> (IZR (m - r) <= IZR D * cos theta <= IZR (m + r))%R ->
  pos_check D m r F q a = true -> (0 <= cosum F theta)%R.
Proof.
  intros HD Hr Hc H. apply IZR_lt in HD, Hr. rewrite minus_IZR, plus_IZR in Hc.
  set (x := ((IZR D * cos theta - IZR m) / IZR r)%R).
  assert (Ex : (x * IZR r = IZR D * cos theta - IZR m)%R) by (unfold x; field; lra).
  assert (Hx : (-1 <= x <= 1)%R) by nra.
  pose (t := acos x). assert (Et : cos t = x) by (apply cos_acos; lra).
  assert (Hcos : (IZR D * cos theta = IZR m + IZR r * cos t)%R) by (rewrite Et; lra).
  apply (certified_ok _ _ _ t) in H.
  assert (E0 : (cosum [] t * IZR D = IZR D ^ 0 * 0)%R) by (unfold cosum; cbn; lra).
  pose proof (cheb_acc_ok D m r theta t Hcos F 0 [1] [m; r] [] 0 (cheb_0 D theta t) (cheb_1 D m r theta t Hcos) E0) as E.
  rewrite Rplus_0_l in E. cbn [INR Nat.add] in E. fold (cosum F theta) in E.
  assert (P : (0 < IZR D ^ length F)%R) by (apply pow_lt; lra).
  set (y := cosum (cheb_acc D m r F [1] [m; r] []) t) in *. clearbody y.
  nra.
Qed.

(** ** Polynomials in e^(it) *)
Lemma csum_add k L : forall M t, csum k (addl L M) t = (csum k L t + csum k M t)%R /\ ssum k (addl L M) t = (ssum k L t + ssum k M t)%R.
Proof.
  revert k. induction L as [|x L IH]; intros k [|y M] t; cbn [addl csum ssum]; try (split; lra).
  destruct (IH (k + 1)%R M t) as [-> ->]. rewrite plus_IZR. split; ring.
Qed.
Lemma csum_scal k z L t : csum k (scal z L) t = (IZR z * csum k L t)%R /\ ssum k (scal z L) t = (IZR z * ssum k L t)%R.
Proof.
  revert k. induction L as [|x L IH]; intros k; cbn [scal map csum ssum]; [split; lra|].
  fold (scal z L). destruct (IH (k + 1)%R) as [-> ->]. rewrite mult_IZR. split; ring.
Qed.
(** times u + v e^(2it) *)
Definition mul2 (u v : Z) (L : list Z) : list Z := addl (scal u L) (0 :: 0 :: scal v L).
Lemma mul2_ok u v L t : let c := csum 0 L t in let s := ssum 0 L t in
  csum 0 (mul2 u v L) t = ((IZR u + IZR v * cos (2 * t)) * c - IZR v * sin (2 * t) * s)%R /\
  ssum 0 (mul2 u v L) t = (IZR v * sin (2 * t) * c + (IZR u + IZR v * cos (2 * t)) * s)%R.
Proof.
  cbv zeta. unfold mul2. destruct (csum_add 0 (scal u L) (0 :: 0 :: scal v L) t) as [-> ->].
  destruct (csum_scal 0 u L t) as [-> ->]. cbn [csum ssum].
  destruct (csum_scal (0 + 1 + 1) v L t) as [-> ->]. destruct (csum_shift (0 + 1) L t) as [-> ->]. destruct (csum_shift 0 L t) as [-> ->].
  replace (2 * t)%R with (t + t)%R by ring. rewrite cos_plus, sin_plus. split; ring.
Qed.

(** X is e^(i al) times Y *)
Definition rot (al : R) (X Y : list Z) (t : R) : Prop :=
  csum 0 X t = (cos al * csum 0 Y t - sin al * ssum 0 Y t)%R /\ ssum 0 X t = (sin al * csum 0 Y t + cos al * ssum 0 Y t)%R.
Lemma rot_id X t : rot 0 X X t.
Proof. unfold rot. rewrite cos_0, sin_0. split; ring. Qed.
Lemma rot_shift t : rot t [0; 1] [1] t.
Proof. unfold rot. cbn [csum ssum]. replace ((0 + 1) * t)%R with t by ring. replace (0 * t)%R with 0%R by ring. rewrite cos_0, sin_0. split; ring. Qed.
Lemma rot_mul2 al u v X Y t : rot al X Y t -> rot al (mul2 u v X) (mul2 u v Y) t.
Proof.
  unfold rot. intros [E1 E2]. destruct (mul2_ok u v X t) as [-> ->]. destruct (mul2_ok u v Y t) as [-> ->]. rewrite E1, E2. split; ring.
Qed.

(** numerators and denominators of sections with the coefficients n / 2^48 *)
Definition num (l : list Z) (X : list Z) : list Z := fold_right (fun n X => mul2 n one48 X) X l.
Definition den (l : list Z) (X : list Z) : list Z := fold_right (fun n X => mul2 one48 n X) X l.
Lemma one48_pos : (0 < IZR one48)%R.
Proof. apply IZR_lt. reflexivity. Qed.
Lemma coef_one48 n : (coef n * IZR one48 = IZR n)%R.
Proof. unfold coef, unit_of. fold one48. rewrite Rmult_assoc, Rinv_l; [apply Rmult_1_r|]. apply Rgt_not_eq, one48_pos. Qed.

Lemma num_section n X Y al t : (-1 < coef n < 1)%R -> rot al X Y t -> rot (lag (coef n) (2 * t) + al) (mul2 n one48 X) (mul2 one48 n Y) t.
Proof.
  intros Hn [E1 E2]. unfold rot. destruct (mul2_ok n one48 X t) as [-> ->]. destruct (mul2_ok one48 n Y t) as [-> ->].
  rewrite E1, E2, <- (coef_one48 n). set (o := IZR one48). destruct (lag_eq (coef n) (2 * t) Hn) as [L1 L2].
  set (c := coef n) in *. set (L := lag c (2 * t)) in *. rewrite cos_plus, sin_plus.
  set (x := csum 0 Y t). set (y := ssum 0 Y t). set (ca := cos al). set (sa := sin al). set (cL := cos L) in *. set (sL := sin L) in *.
  set (C := cos (2 * t)) in *. set (S := sin (2 * t)) in *. clearbody x y ca sa cL sL C S o. change (Arith.T RA) with R in c. clearbody c.
  replace (c * o + o * C)%R with (o * (c + C))%R by ring. rewrite <- L1.
  replace (o * S)%R with (o * (sL * (1 + c * C) + cL * (c * S)))%R by (rewrite L2; reflexivity).
  split; ring.
Qed.
Lemma num_den l X Y al t : Forall (fun n => -1 < coef n < 1)%R l -> rot al X Y t -> rot (lags (map coef l) (2 * t) + al) (num l X) (den l Y) t.
Proof.
  intros F. revert al X Y. induction F as [|n l Hn _ IH]; intros al X Y H; cbn [num den fold_right map lags].
  - now rewrite Rplus_0_l.
  - fold (num l X). fold (den l Y). rewrite Rplus_assoc. apply num_section; [exact Hn|]. now apply IH.
Qed.
Lemma rot_den l X Y al t : rot al X Y t -> rot al (den l X) (den l Y) t.
Proof. intros H. induction l as [|n l IH]; cbn [den fold_right]; [exact H|]. now apply rot_mul2. Qed.
Lemma den_pos l X t : Forall (fun n => -1 < coef n < 1)%R l -> (0 < cosum (autoc X) t -> 0 < cosum (autoc (den l X)) t)%R.
Proof.
  intros F H. induction F as [|n l Hn _ IH]; cbn [den fold_right]; [exact H|]. fold (den l X).
  rewrite autoc_ok in *. destruct (mul2_ok one48 n (den l X) t) as [-> ->]. rewrite <- (coef_one48 n).
  set (c := coef n) in *. set (o := IZR one48). assert (O : (0 < o)%R) by exact one48_pos.
  set (C := cos (2 * t)) in *. set (S := sin (2 * t)) in *. set (x := csum 0 (den l X) t) in *. set (y := ssum 0 (den l X) t) in *.
  pose proof (sin2_cos2 (2 * t)) as T. unfold Rsqr in T. fold C S in T. pose proof (DesignerPhase.circle_pos c (2 * t) Hn) as P. fold C in P.
  clearbody x y C S o. change (Arith.T RA) with R in c. clearbody c.
  replace (_ + _)%R with (o * o * ((1 + c * C) * (1 + c * C) + c * S * (c * S)) * (x * x + y * y))%R by ring.
  repeat apply Rmult_lt_0_compat; nra.
Qed.

Definition whole (ev od : list Z) : list Z := den ev (den od [1]).
Definition differ (ev od : list Z) : list Z := addl (num ev (den od [1])) (scal (-1) (den ev (num od [0; 1]))).
(** |differ|^2 = 4 sin^2 (half_diff) |whole|^2 *)
Lemma differ_ok ev od t : Forall (fun n => -1 < coef n < 1)%R ev -> Forall (fun n => -1 < coef n < 1)%R od ->
  let d := ((lags (map coef od) (2 * t) + t - lags (map coef ev) (2 * t)) / 2)%R in
  (cosum (autoc (differ ev od)) t = 4 * (sin d * sin d) * cosum (autoc (whole ev od)) t /\ 0 < cosum (autoc (whole ev od)) t)%R.
Proof.
  intros Fe Fo d.
  destruct (num_den ev (den od [1]) (den od [1]) 0 t Fe (rot_id _ t)) as [A1 A2].
  destruct (rot_den ev _ _ _ t (num_den od [0; 1] [1] t t Fo (rot_shift t))) as [B1 B2].
  fold (whole ev od) in A1, A2, B1, B2. rewrite Rplus_0_r in A1, A2.
  split.
  - rewrite !autoc_ok. unfold differ. destruct (csum_add 0 (num ev (den od [1])) (scal (-1) (den ev (num od [0; 1]))) t) as [-> ->].
    destruct (csum_scal 0 (-1) (den ev (num od [0; 1])) t) as [-> ->]. rewrite A1, A2, B1, B2.
    set (x := csum 0 (whole ev od) t). set (y := ssum 0 (whole ev od) t).
    set (a := lags (map coef ev) (2 * t)) in *. set (b := (lags (map coef od) (2 * t) + t)%R) in *.
    assert (E : (4 * (sin d * sin d) = 2 - 2 * cos (b - a))%R).
    { replace (b - a)%R with (2 * d)%R by (unfold d; lra). rewrite cos_2a_sin. ring. }
    rewrite E, cos_minus. pose proof (sin2_cos2 a) as Ta. pose proof (sin2_cos2 b) as Tb. unfold Rsqr in Ta, Tb.
    set (ca := cos a) in *. set (sa := sin a) in *. set (cb := cos b) in *. set (sb := sin b) in *. clearbody x y ca sa cb sb.
    replace (IZR (-1)) with (-1)%R by reflexivity.
    transitivity ((sa * sa + ca * ca + (sb * sb + cb * cb) - 2 * (cb * ca + sb * sa)) * (x * x + y * y))%R; [ring|]. rewrite Ta, Tb. ring.
  - unfold whole. apply den_pos; [exact Fe|]. apply den_pos; [exact Fo|]. rewrite autoc_ok. cbn [csum ssum].
    replace (0 * t)%R with 0%R by ring. rewrite cos_0, sin_0. lra.
Qed.

(** ** The tables *)
Definition iir_cert2_8 : Z * list Z := (371, [
  5471043305; 6066389801; 2799694778; 819621376; 611941902; 2071931364; 4399122886; 4117395948 ]).
Definition iir_cert2_12 : Z * list Z := (606, [
  3176610021; 5500284980; 4265276726; 1987926966; 599893531; 144149543; 105276879; 414144578;
  1298950088; 2828765294; 3648073271; 2159135715 ]).
Definition iir_cert2_16 : Z * list Z := (724, [
  2191926902; 4480774913; 4181149777; 2377890942; 901424263; 223460931; 23642899; 67084020;
  167749423; 506866512; 1277874410; 2263276600; 2436922052; 1219132171 ]).
Definition iir_cert2_20 : Z * list Z := (959, [
  1424437188; 3844951736; 4903986182; 3920422367; 2171605195; 848232195; 90541048; -325459543;
  -255954809; 234953035; 417434598; 298401661; 334412631; 710581195; 1331427500; 1778301296;
  1472118944; 568853507 ]).
Definition iir_cert2_24 : Z * list Z := (1078, [
  1221610856; 3859441990; 5771237624; 5416319022; 3575077501; 1752549599; 603394881; -22330554;
  -372791170; -307517069; 199307502; 435833683; 297976376; 140314589; 120022205; 222147233;
  378030899; 461476290; 354981541; 129090670 ]).
Definition iir_cert4_8 : Z * list Z := (238, [
  5793230035; 992342251; -96233597; 174052350; 423447582; 4324985307 ]).
Definition iir_cert4_12 : Z * list Z := (349, [
  4595900620; 1056936160; -43236819; 124493582; -116260327; 161153861; 456489870; 3107460733 ]).
Definition iir_cert4_16 : Z * list Z := (349, [
  4595900620; 1056936160; -43236819; 124493582; -116260327; 161153861; 456489870; 3107460733 ]).
Definition iir_cert4_20 : Z * list Z := (459, [
  5026394025; 1472083014; 103370473; 118031647; 432235942; -406278718; -136205152; 151548042;
  617358900; 3220799946 ]).
Definition iir_cert4_24 : Z * list Z := (573, [
  4811509800; 2942818436; 484194561; -89815963; 299583399; -1130562784; 839548935; 96156333;
  2218466; 22730679; -4604927; 237751833 ]).
Definition iir_cert8_8 : Z * list Z := (122, [
  5558214129; 594480784; -384099634; 3632195040 ]).
Definition iir_cert8_12 : Z * list Z := (229, [
  4731510565; 658011933; -457833842; 430459829; -327302053; 2379265325 ]).
Definition iir_cert8_16 : Z * list Z := (229, [
  4731510565; 658011933; -457833842; 430459829; -327302053; 2379265325 ]).
Definition iir_cert8_20 : Z * list Z := (335, [
  5594790090; 828598895; -500819188; 372472293; -355285393; 440652009; -321829188; 2204349159 ]).
Definition iir_cert8_24 : Z * list Z := (335, [
  5594790090; 828598895; -500819188; 372472293; -355285393; 440652009; -321829188; 2204349159 ]).
Definition iir_cert (stage prec : Z) : Z * list Z :=
  if (stage =? 2) && (prec =? 8) then iir_cert2_8 else
  if (stage =? 2) && (prec =? 12) then iir_cert2_12 else
  if (stage =? 2) && (prec =? 16) then iir_cert2_16 else
  if (stage =? 2) && (prec =? 20) then iir_cert2_20 else
  if (stage =? 2) && (prec =? 24) then iir_cert2_24 else
  if (stage =? 4) && (prec =? 8) then iir_cert4_8 else
  if (stage =? 4) && (prec =? 12) then iir_cert4_12 else
  if (stage =? 4) && (prec =? 16) then iir_cert4_16 else
  if (stage =? 4) && (prec =? 20) then iir_cert4_20 else
  if (stage =? 4) && (prec =? 24) then iir_cert4_24 else
  if (stage =? 8) && (prec =? 8) then iir_cert8_8 else
  if (stage =? 8) && (prec =? 12) then iir_cert8_12 else
  if (stage =? 8) && (prec =? 16) then iir_cert8_16 else
  if (stage =? 8) && (prec =? 20) then iir_cert8_20 else
  if (stage =? 8) && (prec =? 24) then iir_cert8_24 else
  (0, []).
Definition iir_eps_n (stage prec : Z) : Z :=
  if (stage =? 2) && (prec =? 8) then 279000000 else
  if (stage =? 2) && (prec =? 12) then 6530000 else
  if (stage =? 2) && (prec =? 16) then 1020000 else
  if (stage =? 2) && (prec =? 20) then 25700 else
  if (stage =? 2) && (prec =? 24) then 6780 else
  if (stage =? 4) && (prec =? 8) then 25800000 else
  if (stage =? 4) && (prec =? 12) then 720000 else
  if (stage =? 4) && (prec =? 16) then 720000 else
  if (stage =? 4) && (prec =? 20) then 20100 else
  if (stage =? 4) && (prec =? 24) then 1590 else
  if (stage =? 8) && (prec =? 8) then 110000000 else
  if (stage =? 8) && (prec =? 12) then 752000 else
  if (stage =? 8) && (prec =? 16) then 752000 else
  if (stage =? 8) && (prec =? 20) then 5200 else
  if (stage =? 8) && (prec =? 24) then 5200 else
  0.

(** 10^-11 units *)
Definition iir_eps (s p : Z) : R := (IZR (iir_eps_n s p) / 100000000000)%R.
(** the pass band is where cos f is at least (m - r) / D; m + r = D *)
Definition iedge_D (s : Z) : Z := if s =? 2 then 8192 else 4096.
Definition iedge_m (s : Z) : Z := if s =? 2 then 5261 else if s =? 4 then 3689 else 3991.
Definition iedge_r (s : Z) : Z := if s =? 2 then 2931 else if s =? 4 then 407 else 105.
Definition iedge (s : Z) : R := (IZR (iedge_m s - iedge_r s) / IZR (iedge_D s))%R.

Definition iir_freq_check (s p : Z) : bool :=
  let l := iir_ints s p in let e := iir_eps_n s p in let '(q, a) := iir_cert s p in
  pos_check (iedge_D s) (iedge_m s) (iedge_r s)
    (addl (scal (4 * (e * e)) (autoc (whole (evens l) (odds l)))) (scal (- (10 ^ 11 * 10 ^ 11)) (autoc (differ (evens l) (odds l))))) q a.
Lemma iir_freq_check_all : forallb (fun s => forallb (iir_freq_check s) [8; 12; 16; 20; 24]) stages = true.
Proof. vm_compute. reflexivity. Qed.

Theorem half_diff_small s p f : stage_no s -> iir_prec p -> (iedge s <= cos f)%R ->
  (Rabs (sin (half_diff (coeffs (A := RA) FILTER_IIR UP p s) f)) <= iir_eps s p)%R.
Proof.
  intros Hs Hp Hf.
  assert (K : iir_freq_check s p = true).
  { pose proof iir_freq_check_all as H. rewrite forallb_forall in H. specialize (H s ltac:(unfold stages; cbn; unfold stage_no in Hs; lia)).
    rewrite forallb_forall in H. apply H. cbn. unfold iir_prec in Hp. lia. }
  pose proof (iir_stage_unit UP s p Hs Hp) as U.
  assert (E : coeffs (A := RA) FILTER_IIR UP p s = map coef (iir_ints s p)) by now apply iir_coeffs_R. rewrite E in *.
  destruct (evens_map (coef : Z -> R) _ (iir_ints s p) (le_n _)) as [E1 E2].
  assert (U' : Forall (fun n => -1 < coef n < 1)%R (iir_ints s p)) by (apply Forall_map in U; exact U).
  destruct (evens_all _ _ U') as [Ue Uo].
  cut (Rabs (sin ((lags (map (coef : Z -> R) (odds (iir_ints s p))) (2 * f) + f - lags (map (coef : Z -> R) (evens (iir_ints s p))) (2 * f)) / 2)) <= iir_eps s p)%R.
  { rewrite <- E1, <- E2. trivial. }
  set (ev := evens (iir_ints s p)) in *. set (od := odds (iir_ints s p)) in *.
  destruct (differ_ok ev od f Ue Uo) as [G Q]. cbv zeta in G.
  set (d := ((lags (map coef od) (2 * f) + f - lags (map coef ev) (2 * f)) / 2)%R) in *.
  unfold iir_freq_check in K. cbv zeta in K. fold ev od in K. destruct (iir_cert s p) as [q a].
  apply (pos_check_ok _ _ _ _ _ _ f) in K.
  - unfold cosum in K. rewrite cosum_add, !cosum_scal in K. fold (cosum (autoc (whole ev od)) f) in K. fold (cosum (autoc (differ ev od)) f) in K.
    rewrite G, opp_IZR, !mult_IZR in K. unfold iir_eps. set (e := IZR (iir_eps_n s p)) in *.
    replace (IZR (10 ^ 11)) with 100000000000%R in K by reflexivity.
    change (Rabs (sin d) <= e / 100000000000)%R. set (w := cosum (autoc (whole ev od)) f) in *. set (S := sin d) in *. clearbody w S.
    assert (E0 : (0 <= e)%R). { unfold e. apply IZR_le. unfold iir_eps_n. unfold stage_no, iir_prec in *. clear - Hs Hp. destruct Hs as [->|[->| ->]], Hp as [->|[->|[->|[->| ->]]]]; vm_compute; discriminate. }
    assert (S2 : (S * S * (100000000000 * 100000000000) <= e * e)%R) by (apply Rmult_le_reg_l with w; [exact Q | lra]).
    apply Rmult_le_reg_r with 100000000000%R; [lra|]. replace (e / 100000000000 * 100000000000)%R with e by (field).
    rewrite <- (Rabs_pos_eq 100000000000) by lra. rewrite <- Rabs_mult.
    apply Rsqr_incr_0_var; [|exact E0]. rewrite <- Rsqr_abs. unfold Rsqr. lra.
  - unfold iedge_D. destruct (s =? 2); lia.
  - unfold iedge_r. destruct (s =? 2), (s =? 4); lia.
  - pose proof (COS_bound f) as B. unfold iedge in Hf.
    assert (P : (0 < IZR (iedge_D s))%R) by (apply IZR_lt; unfold iedge_D; destruct (s =? 2); lia).
    assert (Em : iedge_m s + iedge_r s = iedge_D s) by (unfold stage_no in Hs; destruct Hs as [->|[->| ->]]; reflexivity).
    rewrite Em. apply (Rmult_le_compat_l _ _ _ (Rlt_le _ _ P)) in Hf. unfold Rdiv in Hf. rewrite <- Rmult_assoc, Rinv_r_simpl_m in Hf by lra. nra.
Qed.
