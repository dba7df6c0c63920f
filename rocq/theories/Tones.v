(** * Sums of sinusoids through FIR stages *)
From Coq Require Import ZArith Reals List Lia Lra Bool ZifyNat ZifyBool.
From Flocq Require Import Core.
From Verif Require Import Arith ArithR Tables ResamplerModel ResamplerProof ResamplerOk Spec SpecOk SpecR TablesF TableFacts DelayFacts FirReal TrigPoly FreqFir.
Import ListNotations.
Open Scope Z_scope.

(** ** The gain is at most 1.006 for every frequency *)
Definition full_cert2_24 : Z * list Z := (3, [
  1312572; -2691084; 2457710; -439499; -1046984; 514608; 581179; -425564; -372689; 335214; 261072;
  -260165; -193140; 199756; 147468; -151449; -114323; 113024; 88925; -82743; -68794; 59216; 52580;
  -41277; -39495; 27915; 29026; -18231; -20787; 11434; 14450; -6836; -9710; 3857; 6277; -2023;
  -3883; 961; 2281; -393; -1261; 120; 648; -10; -303; -21; 125; 21; -43; -12; 10; 5 ]).
Definition full_cert4_24 : Z * list Z := (4, [
  1196906; -2242309; 1372533; 308960; -553095; -128003; 222545; 63815; -74950; -26554; 18803; 7933;
  -3011; -1460; 215; 115 ]).
Definition full_cert8_24 : Z * list Z := (4, [
  1337687; -2332865; 1118801; 429961; -350108; -149914; 85209; 41584; -12337; -6667; 696; 399 ]).
Definition full_cert2_20 : Z * list Z := (3, [
  1328244; -2717617; 2446084; -389738; -1059487; 470731; 598255; -385651; -388426; 297580; 273223;
  -224186; -200913; 165527; 150832; -119443; -113712; 83841; 85066; -56927; -62572; 37140; 44918;
  -23087; -31258; 13517; 20945; -7325; -13413; 3566; 8134; -1466; -4616; 421; 2407; 9; -1123; -123;
  445; 107; -133; -65 ]).
Definition full_cert4_20 : Z * list Z := (4, [
  1211754; -2255112; 1345997; 329461; -529347; -137843; 201174; 64971; -60716; -24124; 12290; 5801;
  -1188; -638 ]).
Definition full_cert8_20 : Z * list Z := (4, [
  1391717; -2354714; 1019936; 448637; -278141; -136854; 50129; 27617; -3685; -2178 ]).
Definition full_cert2_16 : Z * list Z := (3, [
  1349960; -2751987; 2428274; -324460; -1071629; 412597; 614847; -332389; -401976; 247461; 281112;
  -176908; -202530; 121656; 146649; -79894; -104852; 49496; 73003; -28385; -48879; 14585; 31062;
  -6265; -18437; 1796; 9994; 196; -4773; -802; 1867; 916 ]).
Definition full_cert4_16 : Z * list Z := (4, [
  1300227; -2316321; 1184497; 414937; -392371; -156973; 101262; 48624; -13429; -7538 ]).
Definition full_cert8_16 : Z * list Z := (4, [
  1451019; -2371398; 911703; 454836; -204457; -114280; 21568; 13197 ]).
Definition full_cert2_12 : Z * list Z := (3, [
  1389199; -2794993; 2393932; -238476; -1079151; 339616; 627119; -268175; -409578; 189433; 281418;
  -124589; -195554; 75632; 133756; -41020; -88135; 18343; 54841; -4862; -31559; -2444; 16265; 8084 ]).
Definition full_cert4_12 : Z * list Z := (4, [
  1343661; -2339229; 1103498; 442065; -323789; -151714; 59059; 33924 ]).
Definition full_cert8_12 : Z * list Z := (4, [
  1557909; -2380477; 726567; 432530; -101320; -66309 ]).
Definition full_cert2_8 : Z * list Z := (3, [
  1543119; -2876275; 2265958; -35586; -1071909; 182442; 634565; -141847; -410776; 83916; 273502;
  -33258; -180447; -9272; 112060; 60120 ]).
Definition full_cert4_8 : Z * list Z := (4, [
  1418054; -2346073; 1006017; 458423; -273627; -165390 ]).
Definition full_cert8_8 : Z * list Z := (4, [
  1675174; -2359435; 551366; 391464 ]).
Definition full_cert (stage prec : Z) : Z * list Z :=
  if (stage =? 2) && (prec =? 24) then full_cert2_24 else
  if (stage =? 4) && (prec =? 24) then full_cert4_24 else
  if (stage =? 8) && (prec =? 24) then full_cert8_24 else
  if (stage =? 2) && (prec =? 20) then full_cert2_20 else
  if (stage =? 4) && (prec =? 20) then full_cert4_20 else
  if (stage =? 8) && (prec =? 20) then full_cert8_20 else
  if (stage =? 2) && (prec =? 16) then full_cert2_16 else
  if (stage =? 4) && (prec =? 16) then full_cert4_16 else
  if (stage =? 8) && (prec =? 16) then full_cert8_16 else
  if (stage =? 2) && (prec =? 12) then full_cert2_12 else
  if (stage =? 4) && (prec =? 12) then full_cert4_12 else
  if (stage =? 8) && (prec =? 12) then full_cert8_12 else
  if (stage =? 2) && (prec =? 8) then full_cert2_8 else
  if (stage =? 4) && (prec =? 8) then full_cert4_8 else
  if (stage =? 8) && (prec =? 8) then full_cert8_8 else
  (0, []).
(** 1.006 * 2^47 *)
Definition full_units : Z := 2 ^ 47 * 10060 / 10000.
Fixpoint odd_list (b : list Z) : list Z := match b with [] => [] | x :: b => 0 :: -2 * x :: odd_list b end.
Definition full_check (s p : Z) : bool :=
  certified (addl [full_units] (odd_list (half_table s p))) (fst (full_cert s p)) (snd (full_cert s p)).
Lemma full_check_all : forallb (fun s => forallb (full_check s) [8; 12; 16; 20; 24]) stages = true.
Proof. vm_compute. reflexivity. Qed.
Lemma full_check_ok s p : stage_no s -> hq_prec p -> full_check s p = true.
Proof.
  intros Hs Hp. pose proof full_check_all as H. rewrite forallb_forall in H.
  specialize (H s ltac:(unfold stages; cbn; unfold stage_no in Hs; lia)). rewrite forallb_forall in H.
  apply H. unfold hq_prec in Hp. cbn. lia.
Qed.
Lemma odd_list_ok th b : forall n, cosum_from (INR n - 1) (odd_list b) th = (-2 * odd_sum th n b)%R.
Proof.
  induction b as [|x b IH]; intros n; cbn [odd_list cosum_from odd_sum]; [lra|].
  replace (INR n - 1 + 1)%R with (INR n) by ring. replace (INR n + 1)%R with (INR (S (S n)) - 1)%R by (rewrite !S_INR; ring).
  rewrite IH. change (IZR 0) with 0%R. replace (IZR (-2 * x)) with (-2 * IZR x)%R by (rewrite <- mult_IZR; reflexivity). lra.
Qed.
Lemma full_upper s p w : stage_no s -> hq_prec p -> (response (coeffs (A := RA) FILTER_FIR UP p s) w <= 1.006)%R.
Proof.
  intros Hs Hp. rewrite response_odd by (try apply hq_fir; assumption).
  pose proof (certified_ok _ _ _ (w / 2) (full_check_ok s p Hs Hp)) as H. unfold cosum in H. rewrite cosum_add in H.
  pose proof (odd_list_ok (w / 2) (half_table s p) 1) as E. replace (INR 1 - 1)%R with 0%R in E by (cbn; lra). rewrite E in H. clear E.
  cbn [cosum_from] in H. rewrite Rmult_0_l, cos_0 in H.
  pose proof (unit_ratio UP 2 8) as U. cbn [half] in U. pose proof (unit_pos UP 2 8) as U0.
  assert (L : (IZR full_units * 10000 <= 10060 * IZR (2 ^ 47))%R) by (rewrite <- !mult_IZR; apply IZR_le; vm_compute; discriminate).
  set (S := odd_sum (w / 2) 1 (half_table s p)) in *.
  assert (M : (2 * S <= 1.006 * IZR (2 ^ 47))%R) by lra.
  apply (Rmult_le_compat_l (unit_of UP)) in M; [|lra]. replace (unit_of UP * (1.006 * IZR (2 ^ 47)))%R with (1.006 * (unit_of UP * IZR (2 ^ 47)))%R in M by ring.
  rewrite U in M. lra.
Qed.
Lemma full_band s p w : stage_no s -> hq_prec p -> (Rabs (response (coeffs (A := RA) FILTER_FIR UP p s) w) <= 1.006)%R.
Proof.
  intros Hs Hp. apply Rabs_le. split; [|now apply full_upper].
  pose proof (full_upper s p (w + 2 * PI) Hs Hp) as H. rewrite response_2pi in H by (try apply hq_fir; assumption). lra.
Qed.

(** ** Sums of sinusoids *)
Record wav := Wav { w_amp : R; w_frq : R; w_ph : R }.
Definition at_ (u : wav) (k : Z) : R := (w_amp u * sin (w_frq u * IZR k + w_ph u))%R.
Fixpoint total (ws : list wav) (k : Z) : R := match ws with [] => 0%R | u :: ws => (at_ u k + total ws k)%R end.
Fixpoint mass (ws : list wav) : R := match ws with [] => 0%R | u :: ws => (Rabs (w_amp u) + mass ws)%R end.
Definition is_sum (x : list RA) (lo : Z) (ws : list wav) : Prop := 0 <= lo /\ forall k, lo <= k < size x -> smp x k = total ws k.

Lemma total_app a b k : total (a ++ b) k = (total a k + total b k)%R.
Proof. induction a as [|u a IH]; cbn [app total]; [lra|]. rewrite IH. lra. Qed.
Lemma mass_app a b : mass (a ++ b) = (mass a + mass b)%R.
Proof. induction a as [|u a IH]; cbn [app mass]; [lra|]. rewrite IH. lra. Qed.
Lemma mass_pos a : (0 <= mass a)%R.
Proof. induction a as [|u a IH]; cbn [mass]; [lra|]. pose proof (Rabs_pos (w_amp u)). lra. Qed.
Lemma at_bound u k : (Rabs (at_ u k) <= Rabs (w_amp u))%R.
Proof.
  unfold at_. rewrite Rabs_mult. pose proof (Rabs_pos (w_amp u)). pose proof (SIN_bound (w_frq u * IZR k + w_ph u)) as B.
  assert (Rabs (sin (w_frq u * IZR k + w_ph u)) <= 1)%R by (apply Rabs_le; lra). nra.
Qed.
Lemma total_bound ws k : (Rabs (total ws k) <= mass ws)%R.
Proof.
  induction ws as [|u ws IH]; cbn [total mass]; [rewrite Rabs_R0; lra|]. 
  eapply Rle_trans; [apply Rabs_triang|]. pose proof (at_bound u k). lra.
Qed.
Lemma mass_flat_map (F : wav -> list wav) c ws : (forall u, mass (F u) <= c * Rabs (w_amp u))%R -> (mass (flat_map F ws) <= c * mass ws)%R.
Proof.
  intros H. induction ws as [|u ws IH]; cbn [flat_map mass]; [lra|]. rewrite mass_app. specialize (H u). lra.
Qed.
Lemma mass_map (F : wav -> wav) c ws : (forall u, In u ws -> Rabs (w_amp (F u)) <= c * Rabs (w_amp u))%R -> (mass (map F ws) <= c * mass ws)%R.
Proof.
  induction ws as [|u ws IH]; intros H; cbn [map mass]; [lra|]. 
  specialize (IH ltac:(intros; apply H; now right)). specialize (H u ltac:(now left)). lra.
Qed.

Lemma sin_2kpi x k : sin (x + 2 * IZR k * PI) = sin x.
Proof.
  destruct (Z_le_gt_dec 0 k) as [Hn|Hn].
  - rewrite <- (Z2Nat.id k) by lia. rewrite <- INR_IZR_INZ. apply sin_period.
  - rewrite <- (sin_period (x + 2 * IZR k * PI) (Z.to_nat (- k))). f_equal. rewrite INR_IZR_INZ, Z2Nat.id by lia. rewrite opp_IZR. ring.
Qed.
Lemma at_image a v p j : at_ (Wav a (v + PI) p) j = ((if Z.even j then 1 else -1) * at_ (Wav a v p) j)%R.
Proof.
  unfold at_. cbn [w_amp w_frq w_ph]. pose proof (Z.div_mod j 2 ltac:(lia)) as D. pose proof (Zmod_even j) as ME. destruct (Z.even j).
  - replace ((v + PI) * IZR j + p)%R with (v * IZR j + p + 2 * IZR (j / 2) * PI)%R; [rewrite sin_2kpi; ring|].
    replace (IZR j) with (2 * IZR (j / 2))%R by (rewrite <- mult_IZR; f_equal; lia). ring.
  - replace ((v + PI) * IZR j + p)%R with (v * IZR j + p + PI + 2 * IZR (j / 2) * PI)%R; [rewrite sin_2kpi, neg_sin; ring|].
    replace (IZR j) with (2 * IZR (j / 2) + 1)%R by (rewrite <- mult_IZR, <- plus_IZR; f_equal; lia). ring.
Qed.

(** ** One stage *)

(** A sinusoid gives one of half the frequency and its image. *)
Definition up_wav (t : list RA) (u : wav) : list wav :=
  let A := response t (w_frq u) in
  let ph := (w_ph u - w_frq u * (IZR (size t - 1) / 2))%R in
  [Wav (w_amp u * ((1 + A) / 2))%R (w_frq u / 2)%R ph; Wav (w_amp u * ((A - 1) / 2))%R (w_frq u / 2 + PI)%R ph].
Definition down_wav (t : list RA) (u : wav) : wav :=
  Wav (w_amp u * (response t (2 * w_frq u) + / 2))%R (2 * w_frq u)%R (w_ph u - w_frq u * IZR (size t - 1))%R.

Lemma up_pair a A u (e : bool) : ((if e then A else 1) * (a * u) = a * ((1 + A) / 2) * u + ((if e then 1 else -1) * (a * ((A - 1) / 2) * u) + 0))%R.
Proof. destruct e; field. Qed.
Lemma up_sum s p x lo ws : stage_no s -> fir_prec p -> is_sum x lo ws ->
  let t := coeffs (A := RA) FILTER_FIR UP p s in is_sum (fir_up2 t x) (2 * (lo + size t - 1)) (flat_map (up_wav t) ws).
Proof.
  intros Hs Hp [H0 HX] t. destruct (ft_facts UP s p Hs Hp) as (_ & Ev & N2 & _). fold t in Ev, N2.
  pose proof (ft_sym UP s p Hs Hp) as Hsym. fold t in Hsym.
  assert (LN : Z.of_nat (length t) = size t) by reflexivity.
  apply Z.even_spec in Ev. destruct Ev as [h Eh]. assert (Hh : size t / 2 = h) by (rewrite Eh, Z.mul_comm, Z.div_mul; lia).
  assert (Sz : size (fir_up2 t x) = 2 * size x) by (unfold fir_up2; rewrite size_tab; unfold size; lia).
  split; [lia|]. intros j Hj. rewrite Sz in Hj. unfold fir_up2. rewrite smp_tab by lia. unfold fir_up_at. rewrite Hh.
  pose proof (Z.div_mod j 2 ltac:(lia)). pose proof (Z.mod_pos_bound j 2 ltac:(lia)). pose proof (Zmod_even j) as ME.
  assert (Each : forall u, (if Z.even j then sumR (length t) (fun i => at_ u (j / 2 - size t + 1 + i) * smp t i)%R else at_ u (j / 2 - h + 1)) = total (up_wav t u) j).
  { intros [a w q]. unfold up_wav. cbn [total w_amp w_frq w_ph]. rewrite at_image. unfold at_. cbn [w_amp w_frq w_ph].
    rewrite <- up_pair. destruct (Z.even j).
    - rewrite (sumR_ext _ _ (fun i => (a * (sin ((w * IZR (j / 2 - size t + 1) + q) + w * IZR i) * smp t i))%R)).
      2: { intros i Hi. rewrite (plus_IZR _ i). replace (w * (IZR (j / 2 - size t + 1) + IZR i) + q)%R with (w * IZR (j / 2 - size t + 1) + q + w * IZR i)%R by ring. ring. }
      rewrite sumR_scal, sine_sum by exact Hsym. unfold response. rewrite LN.
      replace (w * IZR (j / 2 - size t + 1) + q + w * (IZR (size t - 1) / 2))%R with (w / 2 * IZR j + (q - w * (IZR (size t - 1) / 2)))%R; [ring|].
      replace (IZR j) with (2 * IZR (j / 2))%R by (rewrite <- mult_IZR; f_equal; lia). rewrite plus_IZR, !minus_IZR. lra.
    - replace (w / 2 * IZR j + (q - w * (IZR (size t - 1) / 2)))%R with (w * IZR (j / 2 - h + 1) + q)%R; [ring|].
      replace (IZR j) with (2 * IZR (j / 2) + 1)%R by (rewrite <- mult_IZR, <- plus_IZR; f_equal; lia).
      rewrite Eh, plus_IZR, !minus_IZR, mult_IZR. lra. }
  assert (All : (if Z.even j then sumR (length t) (fun i => total ws (j / 2 - size t + 1 + i) * smp t i)%R else total ws (j / 2 - h + 1)) = total (flat_map (up_wav t) ws) j).
  { clear HX. induction ws as [|u ws IH].
    - cbn [flat_map total]. destruct (Z.even j); [|reflexivity].
      rewrite (sumR_ext _ _ (fun _ => 0%R)) by (intros; lra). apply sumR_0.
    - cbn [flat_map]. rewrite total_app, <- IH, <- Each. cbn [total]. destruct (Z.even j); [|reflexivity].
      rewrite <- sumR_plus. apply sumR_ext. intros i Hi. lra. }
  rewrite <- All. destruct (Z.even j).
  - rewrite mac_sum. apply sumR_ext. intros i Hi. rewrite HX by lia. reflexivity.
  - apply HX. lia.
Qed.

Lemma down_sum s p x lo lo' ws : stage_no s -> fir_prec p -> is_sum x lo ws ->
  let t := coeffs (A := RA) FILTER_FIR DOWN p s in lo <= 2 * (lo' - size t + 1) -> is_sum (fir_down2 t x) lo' (map (down_wav t) ws).
Proof.
  intros Hs Hp [H0 HX] t HL. destruct (ft_facts DOWN s p Hs Hp) as (_ & Ev & N2 & _). fold t in Ev, N2.
  pose proof (ft_sym DOWN s p Hs Hp) as Hsym. fold t in Hsym.
  assert (LN : Z.of_nat (length t) = size t) by reflexivity.
  apply Z.even_spec in Ev. destruct Ev as [h Eh]. assert (Hh : size t / 2 = h) by (rewrite Eh, Z.mul_comm, Z.div_mul; lia).
  assert (Sx : 0 <= size x) by (unfold size; lia). pose proof (Z.div_mod (size x) 2 ltac:(lia)). pose proof (Z.mod_pos_bound (size x) 2 ltac:(lia)).
  assert (Sz : size (fir_down2 t x) = size x / 2) by (unfold fir_down2; rewrite size_tab; lia).
  split; [lia|]. intros n Hn. rewrite Sz in Hn. unfold fir_down2. rewrite smp_tab by lia. unfold fir_down_at. rewrite Hh, mac_sum.
  rewrite (sumR_ext _ _ (fun i => (total ws (2 * (n - size t + 1 + i)) * smp t i)%R)) by (intros i Hi; rewrite HX by lia; reflexivity).
  rewrite HX by lia. change (@fadd RA) with Rplus. change (@fmul RA) with Rmult. change (@fhalf RA) with (/ 2)%R. clear HX.
  induction ws as [|[a w q] ws IH].
  - cbn [map total]. rewrite (sumR_ext _ _ (fun _ => 0%R)) by (intros; lra). rewrite sumR_0. lra.
  - cbn [map total]. rewrite <- IH.
    rewrite (sumR_ext _ _ (fun i => (at_ (Wav a w q) (2 * (n - size t + 1 + i)) * smp t i + total ws (2 * (n - size t + 1 + i)) * smp t i)%R)) by (intros i Hi; lra).
    rewrite sumR_plus. unfold at_, down_wav. cbn [w_amp w_frq w_ph].
    rewrite (sumR_ext _ _ (fun i => (a * (sin ((w * IZR (2 * (n - size t + 1)) + q) + 2 * w * IZR i) * smp t i))%R)).
    2: { intros i Hi. replace (w * IZR (2 * (n - size t + 1 + i)) + q)%R with (w * IZR (2 * (n - size t + 1)) + q + 2 * w * IZR i)%R; [ring|].
         rewrite !mult_IZR, (plus_IZR _ i). ring. }
    rewrite sumR_scal, sine_sum by exact Hsym. unfold response. rewrite LN.
    replace (w * IZR (2 * (n - size t + 1)) + q + 2 * w * (IZR (size t - 1) / 2))%R with (2 * w * IZR n + (q - w * IZR (size t - 1)))%R
      by (rewrite mult_IZR, plus_IZR, !minus_IZR; lra).
    replace (w * IZR (2 * (n - h) + 1) + q)%R with (2 * w * IZR n + (q - w * IZR (size t - 1)))%R
      by (rewrite Eh, plus_IZR, mult_IZR, !minus_IZR, mult_IZR; lra).
    lra.
Qed.

Lemma eps_pos s p : (0 <= fir_eps s p)%R.
Proof.
  unfold fir_eps. assert (0 <= IZR (eps_n s p))%R; [|lra]. apply IZR_le. unfold eps_n.
  destruct (s =? 2), (s =? 4), (p =? 8), (p =? 12), (p =? 16), (p =? 20); lia.
Qed.

(** ** Accuracy of one stage *)
Section Near.
Variables (s p : Z).
Hypotheses (Hs : stage_no s) (Hp : hq_prec p).
Let tu : list RA := coeffs (A := RA) FILTER_FIR UP p s.
Let td : list RA := coeffs (A := RA) FILTER_FIR DOWN p s.
Notation A := (response tu).

Lemma half_sums a : (Rabs a <= 1.006 -> Rabs ((1 + a) / 2) + Rabs ((a - 1) / 2) <= 1.006)%R.
Proof. intros H. apply Rabs_le_inv in H. unfold Rabs. destruct (Rcase_abs _), (Rcase_abs _); lra. Qed.
Lemma mass_up u : (mass (up_wav tu u) <= 1.006 * Rabs (w_amp u))%R.
Proof.
  unfold up_wav. cbn [mass w_amp]. rewrite !Rabs_mult. pose proof (half_sums _ (full_band s p (w_frq u) Hs Hp)) as H. fold tu in H. pose proof (Rabs_pos (w_amp u)). nra.
Qed.
Lemma gain_down v : (response td (2 * v) + / 2 = (1 + A (2 * v)) / 2)%R.
Proof. unfold td. rewrite response_down by (try apply hq_fir; assumption). fold tu. lra. Qed.
Lemma amp_down u : (Rabs (w_amp (down_wav td u)) <= 1.003 * Rabs (w_amp u))%R.
Proof.
  unfold down_wav. cbn [w_amp]. rewrite gain_down, Rabs_mult. pose proof (Rabs_pos (w_amp u)).
  assert (Rabs ((1 + A (2 * w_frq u)) / 2) <= 1.003)%R; [|nra].
  pose proof (full_band s p (2 * w_frq u) Hs Hp) as H1. fold tu in H1. apply Rabs_le_inv in H1. apply Rabs_le. lra.
Qed.

(** the sinusoid that an upsampling stage should produce *)
Definition half_wav (n : Z) (u : wav) : wav := Wav (w_amp u) (w_frq u / 2)%R (w_ph u - w_frq u * (IZR (n - 1) / 2))%R.
Definition up_rest (u : wav) : list wav :=
  let ph := (w_ph u - w_frq u * (IZR (size tu - 1) / 2))%R in
  [Wav (w_amp u * ((A (w_frq u) - 1) / 2))%R (w_frq u / 2)%R ph; Wav (w_amp u * ((A (w_frq u) - 1) / 2))%R (w_frq u / 2 + PI)%R ph].
Lemma up_split vs k : total (flat_map (up_wav tu) vs) k = total (map (half_wav (size tu)) vs ++ flat_map up_rest vs) k.
Proof.
  rewrite total_app. induction vs as [|u vs IH]; cbn [flat_map map total]; [lra|]. rewrite !total_app, IH. unfold up_wav, up_rest. cbn [total]. unfold half_wav, at_. cbn [w_amp w_frq w_ph].
  lra.
Qed.
(** the sinusoid that a downsampling stage should produce *)
Definition twice_wav (n : Z) (u : wav) : wav := Wav (w_amp u) (2 * w_frq u)%R (w_ph u - w_frq u * IZR (n - 1))%R.
Definition down_rest (u : wav) : wav := Wav (w_amp u * ((A (2 * w_frq u) - 1) / 2))%R (2 * w_frq u)%R (w_ph u - w_frq u * IZR (size td - 1))%R.
Lemma down_split vs k : total (map (down_wav td) vs) k = total (map (twice_wav (size td)) vs ++ map down_rest vs) k.
Proof.
  rewrite total_app. induction vs as [|u vs IH]; cbn [map total]; [lra|]. rewrite IH. unfold down_wav, down_rest, twice_wav, at_. cbn [w_amp w_frq w_ph].
  rewrite gain_down. lra.
Qed.

(** with any bounds of the error of the gain at the frequencies *)
Lemma mass_up_rest_gen eps vs : Forall (fun u => Rabs (A (w_frq u) - 1) <= eps)%R vs -> (mass (flat_map up_rest vs) <= eps * mass vs)%R.
Proof.
  induction 1 as [|u vs R Hv IH]; cbn [flat_map mass]; [lra|]. rewrite mass_app. 
  assert (mass (up_rest u) <= eps * Rabs (w_amp u))%R; [|lra].
  unfold up_rest. cbn [mass w_amp]. rewrite Rabs_mult.
  replace ((A (w_frq u) - 1) / 2)%R with ((A (w_frq u) - 1) * / 2)%R by lra. rewrite Rabs_mult, (Rabs_pos_eq (/ 2)) by lra. pose proof (Rabs_pos (w_amp u)). nra.
Qed.
Lemma mass_down_rest vs : Forall (fun u => edge s <= cos (w_frq u))%R vs -> (mass (map down_rest vs) <= fir_eps s p / 2 * mass vs)%R.
Proof.
  intros Hv. apply mass_map. intros u Hu. rewrite Forall_forall in Hv. specialize (Hv u Hu).
  unfold down_rest. cbn [w_amp]. rewrite Rabs_mult. pose proof (response_pass s p (2 * w_frq u) Hs Hp) as R. fold tu in R.
  replace (2 * w_frq u / 2)%R with (w_frq u) in R by lra. specialize (R Hv).
  replace ((A (2 * w_frq u) - 1) / 2)%R with ((A (2 * w_frq u) - 1) * / 2)%R by lra. rewrite Rabs_mult, (Rabs_pos_eq (/ 2)) by lra. pose proof (Rabs_pos (w_amp u)). nra.
Qed.

Lemma up_near_sum_gen eps x lo vs rest e : is_sum x lo (vs ++ rest) -> (mass rest <= e)%R ->
  Forall (fun u => Rabs (A (w_frq u) - 1) <= eps)%R vs ->
  exists rest', is_sum (fir_up2 tu x) (2 * (lo + size tu - 1)) (map (half_wav (size tu)) vs ++ rest') /\
    (mass rest' <= 1.006 * e + eps * mass vs)%R.
Proof.
  intros H He Hv. apply (up_sum s p _ _ _ Hs (hq_fir p Hp)) in H. fold tu in H.
  exists (flat_map up_rest vs ++ flat_map (up_wav tu) rest). split.
  - destruct H as [H0 H]. split; [exact H0|]. intros k Hk. rewrite H by exact Hk. rewrite flat_map_app, app_assoc, !(total_app _ (flat_map _ rest)). f_equal. apply up_split.
  - rewrite mass_app. pose proof (mass_flat_map (up_wav tu) 1.006 rest mass_up). pose proof (mass_up_rest_gen eps vs Hv). lra.
Qed.
Lemma up_near_sum x lo vs rest e : is_sum x lo (vs ++ rest) -> (mass rest <= e)%R ->
  Forall (fun u => edge s <= cos (w_frq u / 2))%R vs ->
  exists rest', is_sum (fir_up2 tu x) (2 * (lo + size tu - 1)) (map (half_wav (size tu)) vs ++ rest') /\
    (mass rest' <= 1.006 * e + fir_eps s p * mass vs)%R.
Proof.
  intros H He Hv. apply (up_near_sum_gen (fir_eps s p) x lo vs rest e H He). eapply Forall_impl; [|exact Hv]. intros u Hu. exact (response_pass s p _ Hs Hp Hu).
Qed.
Lemma down_near_sum x lo lo' vs rest e : is_sum x lo (vs ++ rest) -> (mass rest <= e)%R -> lo <= 2 * (lo' - size td + 1) ->
  Forall (fun u => edge s <= cos (w_frq u))%R vs ->
  exists rest', is_sum (fir_down2 td x) lo' (map (twice_wav (size td)) vs ++ rest') /\
    (mass rest' <= 1.003 * e + fir_eps s p / 2 * mass vs)%R.
Proof.
  intros H He HL Hv. apply (down_sum s p _ _ lo' _ Hs (hq_fir p Hp)) in H; [|exact HL]. fold td in H.
  exists (map down_rest vs ++ map (down_wav td) rest). split.
  - destruct H as [H0 H]. split; [exact H0|]. intros k Hk. rewrite H by exact Hk. rewrite map_app, app_assoc, !(total_app _ (map _ rest)). f_equal. apply down_split.
  - rewrite mass_app. pose proof (mass_map (down_wav td) 1.003 rest (fun u _ => amp_down u)). pose proof (mass_down_rest vs Hv). lra.
Qed.
End Near.

(** ** An upsampling stage, something that keeps frequencies, a downsampling stage *)

(** T turns each sinusoid u of the input into the sinusoids F u of the same frequency (up to
    multiples of 2 pi): the first one is delayed by d, its amplitude is multiplied by g;
    for frequencies in the band B the relative error is at most e; L samples later *)
Definition same_frq (v : R) (u : wav) : Prop := exists n, w_frq u = (v + 2 * IZR n * PI)%R.
Record keeps (T : list RA -> list RA) (L : Z) (d : R) (B : R -> Prop) (e kap : R) (F : wav -> list wav) : Prop := {
  k_size : forall x, size (T x) = size x;
  k_sum : forall x lo ws, is_sum x lo ws -> is_sum (T x) (lo + L) (flat_map F ws);
  k_L : 0 <= L;
  k_frq : forall u, Forall (same_frq (w_frq u)) (F u);
  k_mass : forall u, (mass (F u) <= kap * Rabs (w_amp u))%R;
  k_head : forall u, exists g R, F u = Wav (g * w_amp u)%R (w_frq u) (w_ph u - w_frq u * d)%R :: R /\
    (B (w_frq u) -> Rabs (g - 1) * Rabs (w_amp u) + mass R <= e * Rabs (w_amp u))%R }.

Lemma keeps_id B : keeps (fun x => x) 0 0 B 0 1 (fun u => [u]).
Proof.
  constructor.
  - reflexivity.
  - intros x lo ws H. assert (E : forall l : list wav, flat_map (fun u => [u]) l = l) by (induction l; cbn; congruence). now rewrite E, Z.add_0_r.
  - lia.
  - intros u. constructor; [|constructor]. exists 0. ring.
  - intros u. cbn [mass]. lra.
  - intros [a w q]. exists 1%R, []. cbn [w_amp w_frq w_ph mass]. split; [do 2 f_equal; ring|]. intros _. rewrite Rminus_eq_0, Rabs_R0. lra.
Qed.

Lemma response_4pi s p v n : stage_no s -> fir_prec p ->
  response (coeffs (A := RA) FILTER_FIR UP p s) (v + 4 * IZR n * PI) = response (coeffs (A := RA) FILTER_FIR UP p s) v.
Proof.
  intros Hs Hp. assert (P : forall k v, response (coeffs (A := RA) FILTER_FIR UP p s) (v + 4 * INR k * PI) = response (coeffs (A := RA) FILTER_FIR UP p s) v).
  { intros k. induction k as [|k IH]; intros u; [cbn [INR]; f_equal; ring|].
    replace (u + 4 * INR (S k) * PI)%R with (u + 4 * INR k * PI + 2 * PI + 2 * PI)%R by (rewrite S_INR; ring). rewrite !response_2pi by assumption. rewrite IH. ring. }
  destruct (Z_le_gt_dec 0 n) as [Hn|Hn].
  - rewrite <- (Z2Nat.id n) by lia. rewrite <- INR_IZR_INZ. apply P.
  - rewrite <- (P (Z.to_nat (- n)) (v + 4 * IZR n * PI)%R). f_equal. rewrite INR_IZR_INZ, Z2Nat.id by lia. rewrite opp_IZR. ring.
Qed.

Lemma eps_small s p : stage_no s -> hq_prec p -> (fir_eps s p <= 0.00576)%R.
Proof. intros [->|[->| ->]] [->|[->|[->|[->| ->]]]]; unfold fir_eps; cbn [eps_n Z.eqb Pos.eqb]; lra. Qed.

Lemma quarter_sq a : (((1 + a) / 2) * ((1 + a) / 2) + ((1 - a) / 2) * ((1 - a) / 2) = (1 + a * a) / 2)%R.
Proof. field. Qed.
Lemma around_num eps e kap g h m mr m2 p2 : (0 <= eps <= 0.00576 -> 0 <= e -> 0 <= kap -> 0 <= m -> 0 <= mr -> 0 <= p2 <= eps / 2 ->
  1 - eps / 2 <= h <= 1 + eps / 2 -> Rabs (g - 1) * (m * h) + mr <= e * (m * h) -> m2 <= kap * (m * p2) ->
  Rabs (g * h * h - 1) * m + (h * mr + p2 * m2) <= (eps * 1.0015 + 1.0058 * e + kap * (0.0015 * eps)) * m)%R.
Proof.
  intros He0 He Hk Hm Hr Hp Hh HE K2.
  assert (A1 : (Rabs (g * h * h - 1) <= h * h * Rabs (g - 1) + Rabs (h * h - 1))%R).
  { replace (g * h * h - 1)%R with (h * h * (g - 1) + (h * h - 1))%R by ring. eapply Rle_trans; [apply Rabs_triang|].
    rewrite (Rabs_mult (h * h)), (Rabs_pos_eq (h * h)) by nra. lra. }
  assert (A2 : (Rabs (h * h - 1) <= eps * 1.0015)%R) by (apply Rabs_le; nra).
  assert (A3 : (h * h <= 1.0058)%R) by nra.
  assert (A4 : (h * (Rabs (g - 1) * (m * h) + mr) <= h * (e * (m * h)))%R) by (apply Rmult_le_compat_l; lra).
  assert (A5 : (p2 * m2 <= p2 * (kap * (m * p2)))%R) by (apply Rmult_le_compat_l; lra).
  assert (A6 : (Rabs (g * h * h - 1) * m <= (h * h * Rabs (g - 1) + eps * 1.0015) * m)%R) by (apply Rmult_le_compat_r; lra).
  assert (A7 : (h * h * (e * m) <= 1.0058 * (e * m))%R) by (apply Rmult_le_compat_r; [apply Rmult_le_pos; assumption | exact A3]).
  assert (A8 : (p2 * p2 <= 0.0015 * eps)%R) by nra.
  assert (A9 : (p2 * p2 * (kap * m) <= 0.0015 * eps * (kap * m))%R) by (apply Rmult_le_compat_r; [apply Rmult_le_pos; assumption | exact A8]).
  lra.
Qed.

Section Around.
Variables (s p : Z).
Hypotheses (Hs : stage_no s) (Hp : hq_prec p).
Let tu : list RA := coeffs (A := RA) FILTER_FIR UP p s.
Let td : list RA := coeffs (A := RA) FILTER_FIR DOWN p s.
Notation A := (response tu).
Variables (T : list RA -> list RA) (L : Z) (d : R) (B : R -> Prop) (e kap : R) (F : wav -> list wav).
Hypothesis HT : keeps T L d B e kap F.
Hypotheses (Hk : (0 <= kap)%R) (He : (0 <= e)%R).

Definition around (x : list RA) : list RA := fir_down2 td (T (fir_up2 tu x)).
Definition around_wav (u : wav) : list wav := map (down_wav td) (flat_map F (up_wav tu u)).

Lemma around_gain v w : (exists n, v = w / 2 + 2 * IZR n * PI)%R -> (response td (2 * v) + / 2 = (1 + A w) / 2)%R.
Proof.
  intros [n ->]. rewrite (gain_down s p Hs Hp). fold tu. replace (2 * (w / 2 + 2 * IZR n * PI))%R with (w + 4 * IZR n * PI)%R by lra.
  unfold tu. rewrite response_4pi by (try apply hq_fir; assumption). reflexivity.
Qed.
Lemma around_image v w : (exists n, v = w / 2 + PI + 2 * IZR n * PI)%R -> (response td (2 * v) + / 2 = (1 - A w) / 2)%R.
Proof.
  intros [n ->]. rewrite (gain_down s p Hs Hp). fold tu. replace (2 * (w / 2 + PI + 2 * IZR n * PI))%R with ((w + 2 * PI) + 4 * IZR n * PI)%R by lra.
  unfold tu. rewrite response_4pi, response_2pi by (try apply hq_fir; assumption). lra.
Qed.
Lemma mass_gain v g ws : Forall (same_frq v) ws -> (forall u, same_frq v u -> response td (2 * w_frq u) + / 2 = g)%R ->
  (mass (map (down_wav td) ws) = Rabs g * mass ws)%R.
Proof.
  intros H Hg. induction H as [|u ws Hu H IH]; cbn [map mass]; [lra|]. rewrite IH. unfold down_wav at 1. cbn [w_amp]. rewrite (Hg u Hu), Rabs_mult. lra.
Qed.
Lemma size_td : size td = size tu. Proof. unfold td, tu. now rewrite !size_len. Qed.


Theorem keeps_around_gen eps : (0 <= eps <= 0.00576)%R ->
  keeps around ((L + 1) / 2 + 2 * (size tu - 1)) (IZR (size tu - 1) + d / 2) (fun w => Rabs (A w - 1) <= eps /\ B (w / 2))%R
    (eps * 1.0015 + 1.0058 * e + kap * (0.0015 * eps))%R (1.0061 * kap)%R around_wav.
Proof.
  intros Heps. pose proof size_td as St. pose proof (hq_fir p Hp) as HF.
  destruct (ft_facts UP s p Hs HF) as (_ & Ev & N2 & _). fold tu in Ev, N2.
  pose (u1 := fun u => nth 0 (up_wav tu u) u). pose (u2 := fun u => nth 1 (up_wav tu u) u).
  assert (Lst : forall u, around_wav u = map (down_wav td) (F (u1 u)) ++ map (down_wav td) (F (u2 u))).
  { intros u. unfold around_wav, u1, u2, up_wav. cbn [flat_map nth]. now rewrite app_nil_r, map_app. }
  assert (M1 : forall u ws, Forall (same_frq (w_frq (u1 u))) ws -> (mass (map (down_wav td) ws) = Rabs ((1 + A (w_frq u)) / 2) * mass ws)%R).
  { intros u ws H. eapply mass_gain; [exact H|]. intros v Hv. apply around_gain. exact Hv. }
  assert (M2 : forall u ws, Forall (same_frq (w_frq (u2 u))) ws -> (mass (map (down_wav td) ws) = Rabs ((1 - A (w_frq u)) / 2) * mass ws)%R).
  { intros u ws H. eapply mass_gain; [exact H|]. intros v Hv. apply around_image. exact Hv. }
  constructor.
  - intros x. unfold around, fir_down2, fir_up2. rewrite size_tab; rewrite (k_size _ _ _ _ _ _ _ HT), size_tab; unfold size; lia.
  - intros x lo ws H. unfold around. apply (up_sum s p _ _ _ Hs HF) in H. fold tu in H. apply (k_sum _ _ _ _ _ _ _ HT) in H.
    apply (down_sum s p _ _ (lo + ((L + 1) / 2 + 2 * (size tu - 1))) _ Hs HF) in H. 2: { fold td. pose proof (k_L _ _ _ _ _ _ _ HT). pose proof (Z.div_mod (L + 1) 2 ltac:(lia)). pose proof (Z.mod_pos_bound (L + 1) 2 ltac:(lia)). lia. }
    fold td in H. replace (flat_map around_wav ws) with (map (down_wav td) (flat_map F (flat_map (up_wav tu) ws))); [exact H|].
    clear. induction ws as [|u ws IH]; [reflexivity|]. change (flat_map around_wav (u :: ws)) with (around_wav u ++ flat_map around_wav ws). rewrite <- IH.
    change (flat_map (up_wav tu) (u :: ws)) with (up_wav tu u ++ flat_map (up_wav tu) ws). rewrite flat_map_app, map_app. reflexivity.
  - pose proof (k_L _ _ _ _ _ _ _ HT). pose proof (Z.div_pos (L + 1) 2). lia.
  - intros u. rewrite Lst. apply Forall_app. split; apply Forall_map; eapply Forall_impl; try apply (k_frq _ _ _ _ _ _ _ HT).
    + intros v [n E]. exists (2 * n). unfold down_wav, u1, up_wav in *. cbn [w_frq nth] in *. rewrite E, mult_IZR. lra.
    + intros v [n E]. exists (2 * n + 1). unfold down_wav, u2, up_wav in *. cbn [w_frq nth] in *. rewrite E, plus_IZR, mult_IZR. lra.
  - intros u. rewrite Lst, mass_app, (M1 u), (M2 u) by apply (k_frq _ _ _ _ _ _ _ HT).
    pose proof (k_mass _ _ _ _ _ _ _ HT (u1 u)) as K1. pose proof (k_mass _ _ _ _ _ _ _ HT (u2 u)) as K2.
    unfold u1, u2, up_wav in K1, K2. cbn [nth w_amp] in K1, K2. rewrite Rabs_mult in K1, K2.
    pose proof (full_band s p (w_frq u) Hs Hp) as FB. fold tu in FB. set (a := A (w_frq u)) in *.
    replace (Rabs ((a - 1) / 2)) with (Rabs ((1 - a) / 2)) in K2 by (rewrite <- (Rabs_Ropp ((1 - a) / 2)); f_equal; lra).
    fold (up_wav tu u) in K1, K2. 
    set (m1 := mass (F (u1 u))). set (m2 := mass (F (u2 u))).
    assert (K1' : (m1 <= kap * (Rabs (w_amp u) * Rabs ((1 + a) / 2)))%R) by exact K1. assert (K2' : (m2 <= kap * (Rabs (w_amp u) * Rabs ((1 - a) / 2)))%R) by exact K2. clear K1 K2.
    set (p1 := Rabs ((1 + a) / 2)) in *. set (p2 := Rabs ((1 - a) / 2)) in *.
    assert (P : (p1 * p1 + p2 * p2 <= 1.0061)%R).
    { unfold p1, p2. rewrite <- !Rabs_mult, !Rabs_pos_eq by apply Rle_0_sqr. rewrite quarter_sq. apply Rabs_le_inv in FB. nra. }
    assert (0 <= p1)%R by apply Rabs_pos. assert (0 <= p2)%R by apply Rabs_pos. pose proof (Rabs_pos (w_amp u)).
    assert (Q1 : (p1 * m1 <= p1 * (kap * (Rabs (w_amp u) * p1)))%R) by (apply Rmult_le_compat_l; assumption).
    assert (Q2 : (p2 * m2 <= p2 * (kap * (Rabs (w_amp u) * p2)))%R) by (apply Rmult_le_compat_l; assumption).
    replace (1.0061 * kap * Rabs (w_amp u))%R with ((kap * Rabs (w_amp u)) * 1.0061)%R by ring.
    eapply Rle_trans; [apply Rplus_le_compat; [exact Q1 | exact Q2]|].
    replace (p1 * (kap * (Rabs (w_amp u) * p1)) + p2 * (kap * (Rabs (w_amp u) * p2)))%R with (kap * Rabs (w_amp u) * (p1 * p1 + p2 * p2))%R by ring.
    apply Rmult_le_compat_l; [apply Rmult_le_pos; assumption | exact P].
  - intros u. destruct (k_head _ _ _ _ _ _ _ HT (u1 u)) as (g & R & E & HE).
    assert (FR : Forall (same_frq (w_frq (u1 u))) R).
    { pose proof (k_frq _ _ _ _ _ _ _ HT (u1 u)) as K. rewrite E in K. now inversion K. }
    exists (g * ((1 + A (w_frq u)) / 2) * ((1 + A (w_frq u)) / 2))%R, (map (down_wav td) R ++ map (down_wav td) (F (u2 u))).
    split.
    + rewrite Lst, E. cbn [map app]. f_equal. unfold down_wav at 1. cbn [w_amp w_frq w_ph].
      rewrite (around_gain _ (w_frq u)) by (exists 0; unfold u1, up_wav; cbn [nth w_frq]; lra).
      unfold u1, up_wav. cbn [nth w_amp w_frq w_ph]. rewrite St. f_equal; [ring | lra | lra].
    + intros [RP Bi].
      rewrite mass_app, (M1 u R FR), (M2 u) by apply (k_frq _ _ _ _ _ _ _ HT).
      pose proof (k_mass _ _ _ _ _ _ _ HT (u2 u)) as K2. unfold u1, u2, up_wav in *. cbn [nth w_amp w_frq w_ph] in *. specialize (HE Bi).
      rewrite Rabs_mult in HE, K2. destruct Heps as [EP ES].
      set (a := A (w_frq u)) in *. set (m := Rabs (w_amp u)) in *. assert (Hm : (0 <= m)%R) by apply Rabs_pos.
      set (m2 := mass (F _)) in *. assert (H2 : (0 <= m2)%R) by apply mass_pos. set (mr := mass R) in *. assert (Hr : (0 <= mr)%R) by apply mass_pos.
      apply Rabs_le_inv in RP. replace (Rabs ((1 + a) / 2)) with ((1 + a) / 2)%R in * by (symmetry; apply Rabs_pos_eq; lra).
      replace (Rabs ((a - 1) / 2)) with (Rabs ((1 - a) / 2)) in K2 by (rewrite <- (Rabs_Ropp ((1 - a) / 2)); f_equal; lra).
      assert (Q2 : (Rabs ((1 - a) / 2) <= eps / 2)%R) by (apply Rabs_le; lra). set (p2 := Rabs ((1 - a) / 2)) in *. assert (0 <= p2)%R by apply Rabs_pos.
      set (h := ((1 + a) / 2)%R) in *. assert (Hh : (1 - eps / 2 <= h <= 1 + eps / 2)%R) by (unfold h; lra).
      apply around_num; auto.
Qed.
End Around.
Lemma keeps_weaken L' d' (B B' : R -> Prop) e' kap' T' F' : keeps T' L' d' B e' kap' F' -> (forall w, B' w -> B w) -> keeps T' L' d' B' e' kap' F'.
Proof.
  intros [K1 K2 K3 K4 K5 K6] H. constructor; try assumption. intros u. destruct (K6 u) as (g & R & E & HE). exists g, R. split; [exact E|]. intros Hu. apply HE, H, Hu.
Qed.
Theorem keeps_around s p (Hs : stage_no s) (Hp : hq_prec p) T L d B e kap F (HT : keeps T L d B e kap F) (Hk : (0 <= kap)%R) (He : (0 <= e)%R) :
  let eps := fir_eps s p in let tu := coeffs (A := RA) FILTER_FIR UP p s in
  keeps (around s p T) ((L + 1) / 2 + 2 * (size tu - 1)) (IZR (size tu - 1) + d / 2) (fun w => edge s <= cos (w / 2) /\ B (w / 2))%R
    (eps * 1.0015 + 1.0058 * e + kap * (0.0015 * eps))%R (1.0061 * kap)%R (around_wav s p F).
Proof.
  intros eps tu. pose proof (keeps_around_gen s p Hs Hp T L d B e kap F HT Hk He eps (conj (eps_pos s p) (eps_small s p Hs Hp))) as K.
  eapply keeps_weaken; [exact K|]. intros w [H1 H2]. split; [exact (response_pass s p w Hs Hp H1) | exact H2].
Qed.
