(** * Frequency response of the FIR tables *)
From Coq Require Import ZArith Reals List Lia Lra Bool ZifyNat ZifyBool.
From Flocq Require Import Core.
From Verif Require Import Arith ArithR Tables ResamplerModel ResamplerProof ResamplerOk Spec SpecOk SpecR Client Feed TablesF TableFacts DelayFacts FirReal TrigPoly.
Import ListNotations.
Open Scope Z_scope.

(** real gain for the frequency w (radians per sample of the filter) *)
Definition response (t : list RA) (w : R) : R :=
  sumR (length t) (fun i => (smp t i * cos (w * (IZR i - IZR (size t - 1) / 2)))%R).

(** largest error of the gain in the pass band, in units of 10^-10 *)
Definition eps_n (s p : Z) : Z :=
  if s =? 2 then (if p =? 8 then 57600000 else if p =? 12 then 4710000 else if p =? 16 then 345000 else if p =? 20 then 19600 else 1400)
  else if s =? 4 then (if p =? 8 then 38500000 else if p =? 12 then 1280000 else if p =? 16 then 247000 else if p =? 20 then 10400 else 1170)
  else (if p =? 8 then 37100000 else if p =? 12 then 2090000 else if p =? 16 then 191000 else if p =? 20 then 7350 else 800).
Definition fir_eps (s p : Z) : R := (IZR (eps_n s p) / 10000000000)%R.

(** the pass band is where cos (w / 2) is at least (m - r) / D; m + r = D *)
Definition edge_D (s : Z) : Z := if s =? 2 then 8192 else if s =? 4 then 512 else 32.
Definition edge_m (s : Z) : Z := if s =? 2 then 5261 else if s =? 4 then 461 else 31.
Definition edge_r (s : Z) : Z := if s =? 2 then 2931 else if s =? 4 then 51 else 1.
Definition edge (s : Z) : R := (IZR (edge_m s - edge_r s) / IZR (edge_D s))%R.
Definition hq_prec (p : Z) : Prop := p = 8 \/ p = 12 \/ p = 16 \/ p = 20 \/ p = 24.

(** ** Certificates: for each table two trigonometric polynomials whose squared absolute values are almost
    error - (1 - gain) and error + (1 - gain) *)
Definition fir_cert2_24_1 : Z * list Z := (622, [
  4944266653; -16384372; -291483277; 129932568; 254015122; -100521890; 309384961; -274377405;
  55587381; -101398091; -125029777; 206602162; -328939795; 425969591; -371272844; 233483123;
  69405969; -409881678; 646581299; -735427812; 578818529; -319124813; 39483251; 375299133;
  -419693582; 67517332; 477202176; -307811818; -673386721; 12348430; 743895912; 865450358;
  585438569; 282727809; 105259037; 31429699; 7705476; 1574209; 270525; 39325; 4848; 507; 45; 3; 1;
  0; 0; 0; 0; 0; 0; 1 ]).
Definition fir_cert2_24_2 : Z * list Z := (623, [
  4599278283; 124309474; 38365059; -45396771; 39857420; -169293322; 49704393; 8565430; 6833886;
  67373319; -1535771; -34604756; 111032977; -182117903; 192752946; -142412772; -4335865; 181427725;
  -335514562; 388164210; -330742272; 192212180; -7353982; -173344989; 274916737; -36128835;
  -316257450; 111174912; 353669728; 16584562; -373399753; -448498219; -307141491; -149324579;
  -55828158; -16718185; -4107311; -840439; -144605; -21041; -2596; -272; -24; -2; 0; 0; 0; 0; 0; 0;
  0; 0 ]).
Definition fir_cert4_24_1 : Z * list Z := (93, [
  5050343303; 576893825; -1083673622; 814662678; 848898264; -1514485475; -744829580; -2854168794;
  -136250381; 21824518; 2671443; 131218; 3568; 56; 1; 0 ]).
Definition fir_cert4_24_2 : Z * list Z := (94, [
  6058494392; -492980996; 201357777; -265707375; -72781681; 424809240; 528111920; 1202619482;
  55257775; -9301807; -1123811; -54977; -1492; -24; 0; 0 ]).
Definition fir_cert8_24_1 : Z * list Z := (13, [
  4834166750; -1333271232; 265131053; 2241890861; 1839176192; -616532582; -5660713; 220335; 4808;
  39; 0; 0 ]).
Definition fir_cert8_24_2 : Z * list Z := (14, [
  4743430487; 280610016; 487834902; -835431144; -1042568991; 313198372; 2922161; -111454; -2443;
  -20; 0; 0 ]).
Definition fir_cert2_20_1 : Z * list Z := (496, [
  5254211849; -82051632; 128301083; -23754308; 38587839; -109557299; 71623031; 10749363;
  -100774054; 146528533; -100705914; -36149969; 239900486; -439611400; 570653302; -630631416;
  678452804; -681327253; 390352606; 336335411; -819985612; 74604498; 888431930; 86940235;
  -873139313; -985035782; -605267634; -256075391; -81106827; -20047546; -3958283; -632638; -82392;
  -8756; -757; -53; -3; 0; 0; 0; 0; 0 ]).
Definition fir_cert2_20_2 : Z * list Z := (496, [
  5422370955; 552468334; -443671364; 357672462; -126567899; -81986160; 243334921; -295445284;
  263907716; -157348186; -26745518; 257911062; -497801754; 679151942; -757044669; 747882180;
  -709938333; 621488558; -278064840; -375943966; 728677017; -22526592; -813017451; -113078647;
  784282263; 908660506; 565042548; 240874949; 76710191; 19040719; 3772193; 604576; 78922; 8404;
  728; 51; 3; 0; 0; 0; 0; 0 ]).
Definition fir_cert4_20_1 : Z * list Z := (79, [
  5521479164; -228419350; 1661687680; -1361843044; -647790590; 2497538323; 1065778620; -135321739;
  -30317024; -2048798; -70504; -1350; -14; 0 ]).
Definition fir_cert4_20_2 : Z * list Z := (79, [
  5223988613; -2673739; -47089374; 1115545288; 373783356; -2564481851; -1123392583; 142355318;
  31977450; 2162862; 74465; 1426; 15; 0 ]).
Definition fir_cert8_20_1 : Z * list Z := (6, [
  5606873603; 1971743104; 1308980726; -1925529066; 2065228898; -16965211; -1270833; -15383; -75; 0 ]).
Definition fir_cert8_20_2 : Z * list Z := (7, [
  4846067951; -604545294; -768764394; 548924257; -1189724381; 10168579; 739432; 8920; 44; 0 ]).
Definition fir_cert2_16_1 : Z * list Z := (370, [
  5486375099; 563658002; -192536229; 287718056; -283631291; 94974632; 172007250; -402615536;
  527872367; -530552665; 491895278; -610021741; 1007927097; -1353837811; 866020097; 582144299;
  -1250906693; -355318269; 1110264811; 1228867889; 665086252; 234207519; 58925173; 11054478;
  1578060; 172570; 14396; 902; 41; 1; 0; 0 ]).
Definition fir_cert2_16_2 : Z * list Z := (370, [
  5563962044; 48981443; 301382280; -36482588; -199983401; 260196767; -262255492; 299966242;
  -342544195; 308777068; -236900042; 358360969; -852889820; 1364979874; -979752153; -528503250;
  1309454074; 324380704; -1161307460; -1255556504; -672846387; -235500473; -58996356; -11031931;
  -1570808; -171419; -14276; -893; -41; -1; 0; 0 ]).
Definition fir_cert4_16_1 : Z * list Z := (48, [
  4571244513; 1162680680; -235364507; -1026351703; 2311401445; -711102981; -76577076; -2830138;
  -46215; -284 ]).
Definition fir_cert4_16_2 : Z * list Z := (48, [
  4708470770; 84053252; 839221906; 282939613; -2099000643; 707303495; 74984493; 2758201; 44933; 276 ]).
Definition fir_cert8_16_1 : Z * list Z := (1, [
  6026649533; -1303999828; -3131445968; -1284329198; 69613456; 1593785; 11038; 25 ]).
Definition fir_cert8_16_2 : Z * list Z := (1, [
  5122365582; -636395706; 3647974932; 1520945000; -81713838; -1873913; -12983; -30 ]).
Definition fir_cert2_12_1 : Z * list Z := (270, [
  5225427622; 293823505; 373902522; -439083869; 157645732; 247915613; -552576090; 513441651;
  38527142; -955321898; 1520009935; -784873235; -879796889; 843912585; 1165694364; 599120387;
  181666785; 36595349; 5120723; 503161; 34214; 1538; 41; 0 ]).
Definition fir_cert2_12_2 : Z * list Z := (270, [
  5151116582; 247259027; 351436667; -375682308; 260128885; -282572465; 434087689; -438580628;
  -26596600; 926908673; -1533871766; 813866590; 889774255; -865154086; -1187560575; -609320890;
  -184601717; -37167087; -5198879; -510710; -34720; -1561; -42; -1 ]).
Definition fir_cert4_12_1 : Z * list Z := (32, [
  4426980989; 1426098341; 545498074; -643613597; 2793146824; 187625973; 4345021; 34422 ]).
Definition fir_cert4_12_2 : Z * list Z := (33, [
  4378880132; -1097718305; -716299568; -524661961; -1467191289; -96109120; -2206342; -17400 ]).
Definition fir_cert8_12_1 : Z * list Z := (0, [
  585878889; 265128954; 500576204; -69376365; -873285; -2821 ]).
Definition fir_cert8_12_2 : Z * list Z := (0, [
  973435820; -342741713; -266939766; 42180655; 526968; 1698 ]).
Definition fir_cert2_8_1 : Z * list Z := (170, [
  4316792173; 1004036513; -442807606; 148073185; 172594149; -698566248; 1319246878; -1421539805;
  256964837; 1100045694; 545400308; 130153799; 17754624; 1420594; 62342; 1163 ]).
Definition fir_cert2_8_2 : Z * list Z := (170, [
  4720020810; 51913118; 566324905; -773388592; 540375977; 128063319; -1010321474; 1392838136;
  -365899414; -1092611585; -521755603; -122350567; -16513111; -1311629; -57252; -1063 ]).
Definition fir_cert4_8_1 : Z * list Z := (19, [
  5192780012; -865133562; -3004504470; -1094408505; -43065948; -475558 ]).
Definition fir_cert4_8_2 : Z * list Z := (19, [
  4618282171; -701715395; 3297163107; 1229146801; 48415359; 534716 ]).
Definition fir_cert8_8_1 : Z * list Z := (0, [
  101278349; 51949195; 19216270; 103599 ]).
Definition fir_cert8_8_2 : Z * list Z := (0, [
  100878836; -76897670; -19425007; -104009 ]).
Definition fir_cert (stage prec : Z) : (Z * list Z) * (Z * list Z) :=
  if (stage =? 2) && (prec =? 24) then (fir_cert2_24_1, fir_cert2_24_2) else
  if (stage =? 4) && (prec =? 24) then (fir_cert4_24_1, fir_cert4_24_2) else
  if (stage =? 8) && (prec =? 24) then (fir_cert8_24_1, fir_cert8_24_2) else
  if (stage =? 2) && (prec =? 20) then (fir_cert2_20_1, fir_cert2_20_2) else
  if (stage =? 4) && (prec =? 20) then (fir_cert4_20_1, fir_cert4_20_2) else
  if (stage =? 8) && (prec =? 20) then (fir_cert8_20_1, fir_cert8_20_2) else
  if (stage =? 2) && (prec =? 16) then (fir_cert2_16_1, fir_cert2_16_2) else
  if (stage =? 4) && (prec =? 16) then (fir_cert4_16_1, fir_cert4_16_2) else
  if (stage =? 8) && (prec =? 16) then (fir_cert8_16_1, fir_cert8_16_2) else
  if (stage =? 2) && (prec =? 12) then (fir_cert2_12_1, fir_cert2_12_2) else
  if (stage =? 4) && (prec =? 12) then (fir_cert4_12_1, fir_cert4_12_2) else
  if (stage =? 8) && (prec =? 12) then (fir_cert8_12_1, fir_cert8_12_2) else
  if (stage =? 2) && (prec =? 8) then (fir_cert2_8_1, fir_cert2_8_2) else
  if (stage =? 4) && (prec =? 8) then (fir_cert4_8_1, fir_cert4_8_2) else
  if (stage =? 8) && (prec =? 8) then (fir_cert8_8_1, fir_cert8_8_2) else
  ((0, []), (0, [])).

Definition half_table (s p : Z) : list Z := skipn (Nat.div2 (length (fir_ints s p))) (fir_ints s p).
Definition eps_units (s p : Z) : Z := eps_n s p * 2 ^ 47 / 10 ^ 10.
Definition freq_check (s p : Z) : bool :=
  let '((q1, a1), (q2, a2)) := fir_cert s p in
  odd_check (edge_D s) (edge_m s) (edge_r s) (2 ^ 47) (eps_units s p) (half_table s p) q1 a1 q2 a2 &&
  match half_table s p with [] => false | _ => true end.
Lemma freq_check_all : forallb (fun s => forallb (freq_check s) [8; 12; 16; 20; 24]) stages = true.
Proof. vm_compute. reflexivity. Qed.
Lemma freq_check_ok s p : stage_no s -> hq_prec p -> freq_check s p = true.
Proof.
  intros Hs Hp. pose proof freq_check_all as H. rewrite forallb_forall in H.
  specialize (H s ltac:(unfold stages; cbn; unfold stage_no in Hs; lia)). rewrite forallb_forall in H.
  apply H. unfold hq_prec in Hp. cbn. lia.
Qed.
Lemma hq_fir p : hq_prec p -> fir_prec p.
Proof. unfold hq_prec, fir_prec. lia. Qed.

(** ** The gain as a sum of odd harmonics *)
Lemma odd_sum_sumR th b : forall n, odd_sum th n b = sumR (length b) (fun i => (IZR (nth (Z.to_nat i) b 0%Z) * cos ((INR n + 2 * IZR i) * th))%R).
Proof.
  induction b as [|x b IH]; intros n; cbn [odd_sum length]; [reflexivity|].
  replace (Datatypes.S (length b)) with (1 + length b)%nat by lia. rewrite sumR_add, IH. cbn [sumR].
  replace (Z.to_nat (Z.of_nat 0)) with O by reflexivity. cbn [nth]. replace (IZR (Z.of_nat 0)) with 0%R by reflexivity.
  rewrite Rplus_0_l. f_equal; [do 2 f_equal; ring|].
  apply sumR_ext. intros k Hk. replace (Z.to_nat (Z.of_nat 1 + k)) with (Datatypes.S (Z.to_nat k)) by lia. cbn [nth].
  do 3 f_equal. rewrite plus_IZR, !S_INR. cbn. ring.
Qed.

Section Response.
Variables (md : rmode) (s p : Z).
Hypotheses (Hs : stage_no s) (Hp : fir_prec p).
Let t : list RA := coeffs (A := RA) FILTER_FIR md p s.

Lemma response_odd w : response t w = (unit_of md * (2 * odd_sum (w / 2) 1 (half_table s p)))%R.
Proof.
  destruct (ft_facts md s p Hs Hp) as (_ & Ev & N2 & _). fold t in Ev, N2.
  pose proof (ft_sym md s p Hs Hp) as Hsym. fold t in Hsym.
  pose proof (ft_eq md s p Hs Hp) as E. fold t in E. pose proof (ft_size md s p Hs Hp) as Sz. fold t in Sz.
  apply Z.even_spec in Ev. destruct Ev as [h Eh].
  set (l := fir_ints s p) in *. set (H := Z.to_nat h).
  assert (Ll : length l = (H + H)%nat) by (unfold H; lia).
  assert (D2 : Nat.div2 (length l) = H) by (rewrite Ll; replace (H + H)%nat with (2 * H)%nat by lia; apply Nat.div2_double).
  assert (Lt : length t = (H + H)%nat) by (unfold size in Sz; lia).
  unfold response. rewrite Lt.
  set (f := fun i => (smp t i * cos (w * (IZR i - IZR (size t - 1) / 2)))%R).
  assert (F : forall i, 0 <= i < size t -> f (size t - 1 - i) = f i).
  { intros i Hi. unfold f. rewrite <- Hsym by lia. f_equal.
    replace (w * (IZR (size t - 1 - i) - IZR (size t - 1) / 2))%R with (- (w * (IZR i - IZR (size t - 1) / 2)))%R by (rewrite (minus_IZR (size t - 1) i); lra).
    apply cos_neg. }
  rewrite sumR_add, (sumR_rev H f), (sumR_ext H (fun i => f (Z.of_nat H - 1 - i)) (fun i => f (Z.of_nat H + i))).
  2: { intros k Hk. rewrite <- (F (Z.of_nat H + k)) by (unfold size in *; lia). f_equal. unfold size in *. lia. }
  rewrite odd_sum_sumR. unfold half_table. fold l. rewrite D2, skipn_length, Ll. replace (H + H - H)%nat with H by lia.
  set (g := fun i : Z => (IZR (nth (Z.to_nat i) (skipn H l) 0%Z) * cos ((INR 1 + 2 * IZR i) * (w / 2)))%R).
  rewrite (sumR_ext H _ (fun i => (unit_of md * g i)%R)); [rewrite sumR_scal; lra|].
  intros k Hk. unfold f, g. rewrite E at 1. rewrite smp_map by lia.
  replace (nth (Z.to_nat k) (skipn H l) 0) with (nth (Z.to_nat (Z.of_nat H + k)) l 0).
  2: { replace (Z.to_nat (Z.of_nat H + k)) with (H + Z.to_nat k)%nat by lia. rewrite <- (firstn_skipn H l) at 1.
       rewrite app_nth2; rewrite firstn_length_le by lia; [f_equal; lia | lia]. }
  replace (w * (IZR (Z.of_nat H + k) - IZR (size t - 1) / 2))%R with ((INR 1 + 2 * IZR k) * (w / 2))%R; [ring|].
  replace (size t) with (2 * Z.of_nat H) by (unfold H; lia). rewrite plus_IZR, minus_IZR, mult_IZR. cbn [INR]. field.
Qed.

Lemma response_bound w : (Rabs (response t w) <= half md * stage_gain s)%R.
Proof.
  eapply Rle_trans; [|apply (ft_abs md s p Hs Hp)]. fold t. unfold response.
  eapply Rle_trans; [apply sumR_abs|]. apply sumR_le. intros k Hk. rewrite Rabs_mult.
  pose proof (COS_bound (w * (IZR k - IZR (size t - 1) / 2))) as B. pose proof (Rabs_pos (smp t k)).
  assert (Rabs (cos (w * (IZR k - IZR (size t - 1) / 2))) <= 1)%R by (apply Rabs_le; lra). nra.
Qed.
End Response.

Lemma odd_sum_pi b : forall n, Nat.odd n = true -> forall th, odd_sum (th + PI) n b = (- odd_sum th n b)%R.
Proof.
  induction b as [|x b IH]; intros n Hn th; cbn [odd_sum]; [lra|]. rewrite IH by exact Hn.
  apply Nat.odd_spec in Hn. destruct Hn as [k ->].
  replace (INR (2 * k + 1) * (th + PI))%R with (INR (2 * k + 1) * th + PI + 2 * INR k * PI)%R
    by (rewrite plus_INR, mult_INR; cbn [INR]; ring).
  rewrite cos_period, neg_cos. lra.
Qed.
Lemma response_2pi md s p w : stage_no s -> fir_prec p ->
  response (coeffs (A := RA) FILTER_FIR md p s) (w + 2 * PI) = (- response (coeffs (A := RA) FILTER_FIR md p s) w)%R.
Proof.
  intros Hs Hp. rewrite !response_odd by assumption. replace ((w + 2 * PI) / 2)%R with (w / 2 + PI)%R by lra.
  rewrite odd_sum_pi by reflexivity. lra.
Qed.
Lemma response_down s p w : stage_no s -> fir_prec p ->
  response (coeffs (A := RA) FILTER_FIR DOWN p s) w = (response (coeffs (A := RA) FILTER_FIR UP p s) w / 2)%R.
Proof.
  intros Hs Hp. rewrite !response_odd by assumption.
  pose proof (unit_ratio UP 2 8) as U. pose proof (unit_ratio DOWN 2 8) as U'. cbn [half] in U, U'.
  assert (P : (0 < IZR (2 ^ 47))%R) by (apply IZR_lt; reflexivity).
  assert (unit_of DOWN = unit_of UP / 2)%R as ->; [|lra].
  apply Rmult_eq_reg_r with (IZR (2 ^ 47)); [lra | apply Rgt_not_eq; exact P].
Qed.

(** ** Pass band *)
Theorem response_pass s p w : stage_no s -> hq_prec p -> (edge s <= cos (w / 2))%R ->
  (Rabs (response (coeffs (A := RA) FILTER_FIR UP p s) w - 1) <= fir_eps s p)%R.
Proof.
  intros Hs Hp Hw. rewrite response_odd by (try apply hq_fir; assumption).
  pose proof (freq_check_ok s p Hs Hp) as H. unfold freq_check in H. destruct (fir_cert s p) as [[q1 a1] [q2 a2]].
  apply andb_prop in H as [H Hb].
  assert (Hb' : half_table s p <> []) by (destruct (half_table s p); [discriminate Hb | discriminate]).
  assert (HD : 0 < edge_D s) by (unfold edge_D; destruct (s =? 2), (s =? 4); lia).
  assert (HR : 0 < edge_r s) by (unfold edge_r; destruct (s =? 2), (s =? 4); lia).
  assert (HM : edge_m s + edge_r s = edge_D s) by (unfold edge_m, edge_r, edge_D; destruct (s =? 2), (s =? 4); reflexivity).
  assert (HD' : (0 < IZR (edge_D s))%R) by now apply IZR_lt.
  eapply (odd_check_ok _ _ _ _ _ _ _ _ _ _ (w / 2)) in H; try assumption.
  2: { unfold edge in Hw. pose proof (COS_bound (w / 2)). rewrite HM. split; [|nra].
       apply (Rmult_le_compat_r (IZR (edge_D s))) in Hw; [|lra]. unfold Rdiv in Hw. rewrite Rmult_assoc, Rinv_l in Hw by lra. lra. }
  assert (E0 : (IZR (eps_units s p) <= IZR (eps_n s p) * IZR (2 ^ 47) / 10000000000)%R).
  { unfold eps_units. pose proof (Z.mul_div_le (eps_n s p * 2 ^ 47) (10 ^ 10) ltac:(lia)) as L. apply IZR_le in L.
    rewrite !mult_IZR in L. replace (IZR (10 ^ 10)) with 10000000000%R in L by reflexivity. lra. }
  pose proof (unit_ratio UP 2 8) as U. cbn [half] in U. pose proof (unit_pos UP 2 8) as U0.
  replace (unit_of UP * (2 * odd_sum (w / 2) 1 (half_table s p)) - 1)%R with (unit_of UP * (2 * odd_sum (w / 2) 1 (half_table s p) - IZR (2 ^ 47)))%R by lra.
  rewrite Rabs_mult, (Rabs_pos_eq (unit_of UP)) by lra.
  eapply Rle_trans; [apply Rmult_le_compat_l; [lra | eapply Rle_trans; [exact H | exact E0]]|].
  unfold fir_eps. set (z := IZR (eps_n s p)). replace (unit_of UP * (z * IZR (2 ^ 47) / 10000000000))%R with ((unit_of UP * IZR (2 ^ 47)) * (z / 10000000000))%R by lra. rewrite U. lra.
Qed.

(** linear interpolation *)
Lemma response_linear s w : stage_no s -> response (coeffs (A := RA) FILTER_FIR UP 1 s) w = cos (w / 2).
Proof.
  intros Hs. rewrite response_odd by (try (unfold fir_prec; lia); assumption).
  replace (half_table s 1) with [70368744177664] by (unfold stage_no in Hs; destruct Hs as [->|[->| ->]]; reflexivity).
  cbn [odd_sum INR]. pose proof (unit_ratio UP 2 8) as U. cbn [half] in U. replace (IZR (2 ^ 47)) with (2 * 70368744177664)%R in U by (rewrite <- mult_IZR; reflexivity).
  rewrite Rmult_1_l, Rplus_0_r. replace (unit_of UP * (2 * (70368744177664 * cos (w / 2))))%R with ((unit_of UP * (2 * 70368744177664)) * cos (w / 2))%R by ring. rewrite U. ring.
Qed.

(** ** Gain of a downsampling stage: cos v positive: pass band, negative: stop band *)
Definition down_gain (p s : Z) (v : R) : R := (response (coeffs (A := RA) FILTER_FIR DOWN p s) (2 * v) + / 2)%R.
Lemma down_pass p s v : stage_no s -> hq_prec p -> (edge s <= cos v)%R -> (Rabs (down_gain p s v - 1) <= fir_eps s p / 2)%R.
Proof.
  intros Hs Hp Hv. unfold down_gain. rewrite response_down by (try apply hq_fir; assumption).
  pose proof (response_pass s p (2 * v) Hs Hp) as H. replace (2 * v / 2)%R with v in H by lra. specialize (H Hv).
  apply Rabs_le_inv in H. apply Rabs_le. lra.
Qed.
Lemma down_stop p s v : stage_no s -> hq_prec p -> (cos v <= - edge s)%R -> (Rabs (down_gain p s v) <= fir_eps s p / 2)%R.
Proof.
  intros Hs Hp Hv. unfold down_gain. rewrite response_down by (try apply hq_fir; assumption).
  pose proof (response_2pi UP s p (2 * v) Hs (hq_fir _ Hp)) as S.
  pose proof (response_pass s p (2 * v + 2 * PI) Hs Hp) as H. replace ((2 * v + 2 * PI) / 2)%R with (v + PI)%R in H by lra. rewrite neg_cos in H.
  specialize (H ltac:(lra)). rewrite S in H. apply Rabs_le_inv in H. apply Rabs_le. lra.
Qed.
Lemma down_any p s v : stage_no s -> fir_prec p -> (Rabs (down_gain p s v) <= (stage_gain s + 1) / 2)%R.
Proof.
  intros Hs Hp. unfold down_gain. pose proof (response_bound DOWN s p Hs Hp (2 * v)) as B. cbn [half] in B.
  apply Rabs_le_inv in B. apply Rabs_le. lra.
Qed.

(** ** Sines with errors through upsamplers *)
Definition near_sine (x : list RA) (lo : Z) (amp w ph e : R) : Prop :=
  0 <= lo /\ (0 <= e)%R /\ forall k, lo <= k < size x -> (Rabs (smp x k - amp * sin (w * IZR k + ph)) <= e)%R.
Lemma near_sine_weaken x lo amp w ph e lo' e' w' ph' : near_sine x lo amp w ph e -> lo <= lo' -> (e <= e')%R -> w = w' -> ph = ph' -> near_sine x lo' amp w' ph' e'.
Proof. intros (H0 & He & H) L E <- <-. split; [lia|]. split; [lra|]. intros k Hk. specialize (H k ltac:(lia)). lra. Qed.

Lemma up_near_sine s p x lo amp w ph e eps : stage_no s -> fir_prec p -> near_sine x lo amp w ph e ->
  let t := coeffs (A := RA) FILTER_FIR UP p s in
  (Rabs (response t w - 1) <= eps)%R ->
  near_sine (fir_up2 t x) (2 * (lo + fir_len s p - 1)) amp (w / 2) (ph - w * (IZR (fir_len s p - 1) / 2)) (stage_gain s * e + eps * Rabs amp).
Proof.
  intros Hs Hp (H0 & He & H3) t HR. rewrite <- (size_len UP). fold t. set (N := size t).
  destruct (ft_facts UP s p Hs Hp) as (_ & Ev & N2 & _). fold t N in Ev, N2.
  pose proof (ft_abs UP s p Hs Hp) as HK. fold t in HK. cbn [half] in HK. rewrite Rmult_1_l in HK.
  pose proof (ft_sym UP s p Hs Hp) as Hsym. fold t N in Hsym.
  assert (LN : Z.of_nat (length t) = N) by reflexivity.
  assert (K1 : (1 <= stage_gain s)%R) by (unfold stage_gain, gain100; destruct (s =? 2), (s =? 4); lra).
  assert (Sz : size (fir_up2 t x) = 2 * size x) by (unfold fir_up2; rewrite size_tab; unfold size; lia).
  assert (EP : (0 <= eps * Rabs amp)%R) by (apply Rmult_le_pos; [eapply Rle_trans; [apply Rabs_pos | exact HR] | apply Rabs_pos]).
  assert (E0 : (e <= stage_gain s * e + eps * Rabs amp)%R).
  { assert (1 * e <= stage_gain s * e)%R by (apply Rmult_le_compat_r; lra). lra. }
  split; [lia|]. split; [lra|].
  intros j Hj. rewrite Sz in Hj. unfold fir_up2. rewrite smp_tab by lia. unfold fir_up_at. fold N.
  pose proof (Z.div_mod j 2 ltac:(lia)) as D. pose proof (Z.mod_pos_bound j 2 ltac:(lia)) as DB. pose proof (Zmod_even j) as ME.
  set (m := j / 2) in *. destruct (Z.even j).
  - rewrite mac_sum. set (th := (w * IZR (m - N + 1) + ph)%R).
    set (P := sin (w / 2 * IZR j + (ph - w * (IZR (N - 1) / 2)))).
    assert (S1 : (sumR (length t) (fun i => amp * sin (th + w * IZR i) * smp t i) = amp * (response t w * P))%R).
    { rewrite (sumR_ext _ _ (fun i => (amp * (sin (th + w * IZR i) * smp t i))%R)) by (intros; ring).
      rewrite sumR_scal, sine_sum by exact Hsym. rewrite LN. unfold response. fold N. f_equal. f_equal. unfold P. f_equal. unfold th.
      replace j with (2 * m) by lia. rewrite mult_IZR, plus_IZR, !minus_IZR. lra. }
    assert (W : (Rabs (sumR (length t) (fun i => smp x (m - N + 1 + i) * smp t i) - amp * (response t w * P)) <= stage_gain s * e)%R).
    { rewrite <- S1, <- sumR_minus.
      rewrite (sumR_ext _ _ (fun i => ((smp x (m - N + 1 + i) - amp * sin (th + w * IZR i)) * smp t i)%R)) by (intros; lra).
      apply window_bound; [exact HK | exact He|]. intros i Hi. specialize (H3 (m - N + 1 + i) ltac:(lia)).
      replace (th + w * IZR i)%R with (w * IZR (m - N + 1 + i) + ph)%R by (unfold th; rewrite (plus_IZR _ i); ring). exact H3. }
    replace (sumR (length t) (fun i => smp x (m - N + 1 + i) * smp t i) - amp * P)%R with
      ((sumR (length t) (fun i => smp x (m - N + 1 + i) * smp t i) - amp * (response t w * P)) + (response t w - 1) * amp * P)%R by ring.
    eapply Rle_trans; [apply Rabs_triang|]. apply Rplus_le_compat; [exact W|].
    rewrite !Rabs_mult. assert (Rabs P <= 1)%R by (unfold P; apply Rabs_le; pose proof (SIN_bound (w / 2 * IZR j + (ph - w * (IZR (N - 1) / 2)))); lra).
    rewrite <- (Rmult_1_r (eps * Rabs amp)). apply Rmult_le_compat; [apply Rmult_le_pos; apply Rabs_pos | apply Rabs_pos | | assumption].
    apply Rmult_le_compat_r; [apply Rabs_pos | exact HR].
  - apply Z.even_spec in Ev. destruct Ev as [h Eh]. rewrite Eh, Z.mul_comm, Z.div_mul by lia.
    replace (w / 2 * IZR j + (ph - w * (IZR (h * 2 - 1) / 2)))%R with (w * IZR (m - h + 1) + ph)%R.
    2: { replace j with (2 * m + 1) by lia. rewrite !minus_IZR, !plus_IZR, !mult_IZR, ?minus_IZR. lra. }
    eapply Rle_trans; [apply H3; lia | exact E0].
Qed.
