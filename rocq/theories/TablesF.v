(** * The coefficient tables as binary32 numbers

    [fir_ints stage prec], [iir_ints stage prec]: the single precision
    coefficients multiplied by 2^48.  [tables_ok] shows that this is what the
    decimal literals of the code are converted to. *)
From Coq Require Import ZArith Reals List Lia Lra Bool ZifyNat ZifyBool.
From Flocq Require Import Core BinarySingleNaN.
From Verif Require Import Arith ArithR ArithF Tables ResamplerModel ResamplerProof ResamplerOk Spec.
Import ListNotations.
Open Scope Z_scope.

Definition fir_ints2_24 : list Z := [
  -53385924; 251569376; -819344320; 2184518912; -5100314112; 10801632256; -21197619200;
  39096012800; -68451024896; 114624299008; -184649449472; 287497125888; -434352357376;
  638943756288; -918013804544; 1292103974912; -1786988986368; 2436400939008; -3287350509568;
  4410914111488; -5925444780032; 8051460931584; -11261301489664; 16788418985984; -29173670215680;
  89363438370816; 89363438370816; -29173670215680; 16788418985984; -11261301489664; 8051460931584;
  -5925444780032; 4410914111488; -3287350509568; 2436400939008; -1786988986368; 1292103974912;
  -918013804544; 638943756288; -434352357376; 287497125888; -184649449472; 114624299008;
  -68451024896; 39096012800; -21197619200; 10801632256; -5100314112; 2184518912; -819344320;
  251569376; -53385924 ].
Definition fir_ints4_24 : list Z := [
  -2198709760; 33149806592; -227935698944; 1010897649664; -3351712628736; 9181299998720;
  -23553952972800; 87279204827136; 87279204827136; -23553952972800; 9181299998720; -3351712628736;
  1010897649664; -227935698944; 33149806592; -2198709760 ].
Definition fir_ints8_24 : list Z := [
  -8541515264; 161523449856; -1233723850752; 5693360308224; -19961070223360; 85717195685888;
  85717195685888; -19961070223360; 5693360308224; -1233723850752; 161523449856; -8541515264 ].
Definition fir_ints2_20 : list Z := [
  693250816; -2758186240; 7920133120; -18989676544; 40354680832; -78447853568; 142224785408;
  -243631128576; 398062682112; -624872390656; 948074250240; -1397564768256; 2011512569856;
  -2841250365440; 3961580421120; -5493520596992; 7658793336832; -10929217470464; 16535925030912;
  -29015754670080; 89309692559360; 89309692559360; -29015754670080; 16535925030912;
  -10929217470464; 7658793336832; -5493520596992; 3961580421120; -2841250365440; 2011512569856;
  -1397564768256; 948074250240; -624872390656; 398062682112; -243631128576; 142224785408;
  -78447853568; 40354680832; -18989676544; 7920133120; -2758186240; 693250816 ].
Definition fir_ints4_20 : list Z := [
  12379177984; -141600129024; 787074514944; -2947075276800; 8656803332096; -23092732624896;
  87093841756160; 87093841756160; -23092732624896; 8656803332096; -2947075276800; 787074514944;
  -141600129024; 12379177984 ].
Definition fir_ints8_20 : list Z := [
  48499814400; -718248673280; 4502101950464; -18479019196416; 85015387963392; 85015387963392;
  -18479019196416; 4502101950464; -718248673280; 48499814400 ].
Definition fir_ints2_16 : list Z := [
  -9891800064; 31972151296; -78919835648; 166897172480; -317913071616; 560624173056; -931378692096;
  1476110057472; -2254443118592; 3349010448384; -4887132241920; 7094329147392; -10442984390656;
  16161198571520; -28779304976384; 89228876709888; 89228876709888; -28779304976384; 16161198571520;
  -10442984390656; 7094329147392; -4887132241920; 3349010448384; -2254443118592; 1476110057472;
  -931378692096; 560624173056; -317913071616; 166897172480; -78919835648; 31972151296; -9891800064 ].
Definition fir_ints4_16 : list Z := [
  156818882560; -1366382739456; 6138782285824; -20587506302976; 86026676600832; 86026676600832;
  -20587506302976; 6138782285824; -1366382739456; 156818882560 ].
Definition fir_ints8_16 : list Z := [
  -306392236032; 3279008563200; -16763938930688; 84161402503168; 84161402503168; -16763938930688;
  3279008563200; -306392236032 ].
Definition fir_ints2_12 : list Z := [
  -89845334016; 236028035072; -503989469184; 949446901760; -1644064145408; 2682852737024;
  -4204004900864; 6440613314560; -9867890786304; 15711201132544; -28492542509056; 89130377674752;
  89130377674752; -28492542509056; 15711201132544; -9867890786304; 6440613314560; -4204004900864;
  2682852737024; -1644064145408; 949446901760; -503989469184; 236028035072; -89845334016 ].
Definition fir_ints4_12 : list Z := [
  -729316917248; 4873130082304; -19185742643200; 85401876299776; 85401876299776; -19185742643200;
  4873130082304; -729316917248 ].
Definition fir_ints8_12 : list Z := [
  1652862877696; -13869689864192; 82575787819008; 82575787819008; -13869689864192; 1652862877696 ].
Definition fir_ints2_8 : list Z := [
  -742177832960; 1603140583424; -3026035671040; 5260654411776; -8794299432960; 14850882273280;
  -27935861899264; 88937741680640; 88937741680640; -27935861899264; 14850882273280; -8794299432960;
  5260654411776; -3026035671040; 1603140583424; -742177832960 ].
Definition fir_ints4_8 : list Z := [
  3752515600384; -18010110689280; 84896747880448; 84896747880448; -18010110689280; 3752515600384 ].
Definition fir_ints8_8 : list Z := [
  -10492333522944; 80600614567936; 80600614567936; -10492333522944 ].
Definition fir_ints_linear : list Z := [
  70368744177664; 70368744177664 ].
Definition iir_ints2_8 : list Z := [
  38093348405248; 125141128314880; 225198909423616 ].
Definition iir_ints4_8 : list Z := [
  35366849478656; 158790074761216 ].
Definition iir_ints8_8 : list Z := [
  96293728813056 ].
Definition iir_ints2_12 : list Z := [
  16148095565824; 58981284315136; 116397698973696; 178774574366720; 244724988379136 ].
Definition iir_ints4_12 : list Z := [
  17801148366848; 74647857004544; 187782077087744 ].
Definition iir_ints8_12 : list Z := [
  30991515123712; 150984676343808 ].
Definition iir_ints2_16 : list Z := [
  11667586940928; 43657772138496; 88849493524480; 140090743455744; 193525706653696; 250132436090880 ].
Definition iir_ints4_16 : list Z := [
  17801148366848; 74647857004544; 187782077087744 ].
Definition iir_ints8_16 : list Z := [
  30991515123712; 150984676343808 ].
Definition iir_ints2_20 : list Z := [
  6889049948160; 26473945628672; 55935166840832; 91754082598912; 130836900872192; 171313159208960;
  212929899134976; 257245824679936 ].
Definition iir_ints4_20 : list Z := [
  10713091276800; 43969861910528; 104478015488000; 205723581546496 ].
Definition iir_ints8_20 : list Z := [
  15366043467776; 67426767077376; 181088957759488 ].
Definition iir_ints2_24 : list Z := [
  5530122715136; 21417093496832; 45776956817408; 76117172027392; 110009513934848; 145637744050176;
  182124397199360; 219680648200192; 259712008323072 ].
Definition iir_ints4_24 : list Z := [
  7153495572480; 29083840806912; 67585966080000; 127117568245760; 217907766231040 ].
Definition iir_ints8_24 : list Z := [
  15366043467776; 67426767077376; 181088957759488 ].

Definition fir_ints (stage prec : Z) : list Z :=
  if (stage =? 2) && (prec =? 24) then fir_ints2_24 else
  if (stage =? 4) && (prec =? 24) then fir_ints4_24 else
  if (stage =? 8) && (prec =? 24) then fir_ints8_24 else
  if (stage =? 2) && (prec =? 20) then fir_ints2_20 else
  if (stage =? 4) && (prec =? 20) then fir_ints4_20 else
  if (stage =? 8) && (prec =? 20) then fir_ints8_20 else
  if (stage =? 2) && (prec =? 16) then fir_ints2_16 else
  if (stage =? 4) && (prec =? 16) then fir_ints4_16 else
  if (stage =? 8) && (prec =? 16) then fir_ints8_16 else
  if (stage =? 2) && (prec =? 12) then fir_ints2_12 else
  if (stage =? 4) && (prec =? 12) then fir_ints4_12 else
  if (stage =? 8) && (prec =? 12) then fir_ints8_12 else
  if (stage =? 2) && (prec =? 8) then fir_ints2_8 else
  if (stage =? 4) && (prec =? 8) then fir_ints4_8 else
  if (stage =? 8) && (prec =? 8) then fir_ints8_8 else
  if prec =? 1 then fir_ints_linear else [].

Definition iir_ints (stage prec : Z) : list Z :=
  if (stage =? 2) && (prec =? 8) then iir_ints2_8 else
  if (stage =? 4) && (prec =? 8) then iir_ints4_8 else
  if (stage =? 8) && (prec =? 8) then iir_ints8_8 else
  if (stage =? 2) && (prec =? 12) then iir_ints2_12 else
  if (stage =? 4) && (prec =? 12) then iir_ints4_12 else
  if (stage =? 8) && (prec =? 12) then iir_ints8_12 else
  if (stage =? 2) && (prec =? 16) then iir_ints2_16 else
  if (stage =? 4) && (prec =? 16) then iir_ints4_16 else
  if (stage =? 8) && (prec =? 16) then iir_ints8_16 else
  if (stage =? 2) && (prec =? 20) then iir_ints2_20 else
  if (stage =? 4) && (prec =? 20) then iir_ints4_20 else
  if (stage =? 8) && (prec =? 20) then iir_ints8_20 else
  if (stage =? 2) && (prec =? 24) then iir_ints2_24 else
  if (stage =? 4) && (prec =? 24) then iir_ints4_24 else
  if (stage =? 8) && (prec =? 24) then iir_ints8_24 else
  [].

Definition lit_is (scal2 : Z) (d : dec) (n : Z) : bool :=
  let '(m, e) := lit_float d scal2 in
  (Z.abs m <=? 2 ^ 24) && (-48 <=? e) && (e <=? 0) && (m * 2 ^ (e + 48) =? n * (1 + scal2)).
Fixpoint all2 {X Y} (f : X -> Y -> bool) (l : list X) (k : list Y) : bool :=
  match l, k with
  | [], [] => true
  | x :: l, y :: k => f x y && all2 f l k
  | _, _ => false
  end.
Definition stages : list Z := [2; 4; 8].
Definition table_is (scal2 s p : Z) : bool :=
  match fir_table s p with Some t => all2 (lit_is scal2) t (fir_ints s p) | None => true end &&
  match iir_table s p with Some (t, _) => (scal2 =? 1) || all2 (lit_is scal2) t (iir_ints s p) | None => true end.
Lemma tables_ok : forallb (fun k => forallb (fun s => forallb (table_is k s) [1; 8; 12; 16; 20; 24]) stages) [0; 1] = true.
Proof. vm_compute. reflexivity. Qed.

Lemma all2_spec {X Y} (f : X -> Y -> bool) l k : all2 f l k = true -> Forall2 (fun x y => f x y = true) l k.
Proof.
  revert k. induction l as [|x l IH]; intros [|y k] H; cbn in H; try discriminate; constructor.
  - now apply andb_prop in H.
  - apply IH. now apply andb_prop in H.
Qed.

Lemma table_is_ok k s p : k = 0 \/ k = 1 -> stage_no s -> fir_prec p -> table_is k s p = true.
Proof.
  intros Hk Hs Hp. pose proof tables_ok as H. rewrite forallb_forall in H.
  specialize (H k ltac:(cbn; lia)). rewrite forallb_forall in H.
  specialize (H s ltac:(unfold stages; cbn; unfold stage_no in Hs; lia)). rewrite forallb_forall in H.
  apply H. unfold fir_prec in Hp. cbn. lia.
Qed.

(** 2^-48, or 2^-47 for the doubled coefficients *)
Definition unit_of (md : rmode) : R := match md with UP => / IZR (2 ^ 47) | DOWN => / IZR (2 ^ 48) end.
Lemma unit_scal k : k = 0 \/ k = 1 -> (IZR (1 + k) * / IZR (2 ^ 48) = unit_of (if k =? 1 then UP else DOWN))%R.
Proof. intros [->| ->]; cbn [Z.eqb Pos.eqb unit_of]; [change (1 + 0) with 1; lra|]. replace (2 ^ 48) with (2 * 2 ^ 47) by reflexivity. rewrite mult_IZR. change (1 + 1) with 2. field. apply IZR_neq. discriminate. Qed.

Lemma dy_value m e n k : -48 <= e -> m * 2 ^ (e + 48) = n * (1 + k) -> (IZR m * bpow radix2 e = IZR n * (IZR (1 + k) * / IZR (2 ^ 48)))%R.
Proof.
  intros He E. rewrite <- Rmult_assoc, <- mult_IZR, <- E, mult_IZR.
  change (IZR (2 ^ (e + 48))) with (IZR (Zpower radix2 (e + 48))). rewrite IZR_Zpower by lia.
  rewrite bpow_plus. change (bpow radix2 48) with (IZR (2 ^ 48)). field. apply IZR_neq. discriminate.
Qed.

Lemma lit_RA k d n : k = 0 \/ k = 1 -> lit_is k d n = true -> lit (A := RA) d k = (IZR n * unit_of (if k =? 1 then UP else DOWN))%R.
Proof.
  intros Hk H. unfold lit, lit_is in *. destruct (lit_float d k) as [m e]. cbn [fdy RA].
  apply andb_prop in H as [H H4]. apply andb_prop in H as [H H3]. apply andb_prop in H as [H1 H2].
  rewrite <- unit_scal by exact Hk. apply dy_value; [now apply Z.leb_le | now apply Z.eqb_eq].
Qed.

(** conversion of a number that binary32 has *)
Lemma b32_dy_exact m e : Z.abs m <= 2 ^ 24 -> -149 <= e <= 100 ->
  B2R (b32_dy m e) = (IZR m * bpow radix2 e)%R /\ is_finite (b32_dy m e) = true.
Proof.
  intros Hm He. unfold b32_dy.
  pose proof (binary_normalize_correct 24 128 Hprec32 Hmax32 mode_NE m e false) as H.
  assert (G : generic_format radix2 (FLT_exp (3 - 128 - 24) 24) (F2R (Float radix2 m e))).
  { destruct (Z.eq_dec (Z.abs m) (2 ^ 24)) as [Q|Q].
    - replace (F2R (Float radix2 m e)) with (F2R (Float radix2 (Z.sgn m) (e + 24))).
      + apply generic_format_FLT. exists (Float radix2 (Z.sgn m) (e + 24)); cbn [Fnum Fexp]; [reflexivity | destruct m; cbn; lia | lia].
      + unfold F2R. cbn [Fnum Fexp]. rewrite bpow_plus. change (bpow radix2 24) with (IZR (2 ^ 24)).
        rewrite (Rmult_comm (bpow radix2 e)), <- Rmult_assoc, <- mult_IZR. rewrite <- Q, Z.mul_comm, Z.abs_sgn. reflexivity.
    - apply generic_format_FLT. exists (Float radix2 m e); cbn; [reflexivity | lia | lia]. }
  assert (R : round radix2 (SpecFloat.fexp 24 128) (round_mode mode_NE) (F2R (Float radix2 m e)) = F2R (Float radix2 m e)).
  { apply round_generic; [apply valid_rnd_round_mode | exact G]. }
  cbn zeta in H. rewrite R in H. rewrite Rlt_bool_true in H.
  - destruct H as (H1 & H2 & _). split; [exact H1 | exact H2].
  - apply Rle_lt_trans with (bpow radix2 124); [|apply bpow_lt; lia].
    unfold F2R. cbn [Fnum Fexp]. rewrite Rabs_mult, <- abs_IZR, (Rabs_pos_eq (bpow radix2 e)) by apply bpow_ge_0.
    replace 124 with (24 + 100) by lia. rewrite bpow_plus.
    apply Rmult_le_compat; [apply IZR_le; lia | apply bpow_ge_0 | | apply bpow_le; lia].
    change (bpow radix2 24) with (IZR (2 ^ 24)). now apply IZR_le.
Qed.

Lemma lit_F32 k d n : k = 0 \/ k = 1 -> lit_is k d n = true ->
  is_finite (lit (A := F32) d k : b32) = true /\ B2R (lit (A := F32) d k : b32) = (IZR n * unit_of (if k =? 1 then UP else DOWN))%R.
Proof.
  intros Hk H. unfold lit, lit_is in *. destruct (lit_float d k) as [m e]. cbn [fdy F32].
  apply andb_prop in H as [H H4]. apply andb_prop in H as [H H3]. apply andb_prop in H as [H1 H2].
  apply Z.leb_le in H1, H2, H3. apply Z.eqb_eq in H4.
  destruct (b32_dy_exact m e ltac:(lia) ltac:(lia)) as [E F]. split; [exact F|]. rewrite E, <- unit_scal by exact Hk. now apply dy_value.
Qed.

Definition md_scal (md : rmode) : Z := match md with UP => 1 | DOWN => 0 end.

Lemma fir_lits md s p : stage_no s -> fir_prec p -> exists t, fir_table s p = Some t /\ Forall2 (fun d n => lit_is (md_scal md) d n = true) t (fir_ints s p).
Proof.
  intros Hs Hp. destruct (fir_table_some s p Hs Hp) as (t & E & _). exists t. split; [exact E|].
  apply all2_spec. pose proof (table_is_ok (md_scal md) s p ltac:(destruct md; cbn; lia) Hs Hp) as H.
  unfold table_is in H. rewrite E in H. now apply andb_prop in H.
Qed.
Lemma iir_lits s p : stage_no s -> iir_prec p -> exists t gd, iir_table s p = Some (t, gd) /\ Forall2 (fun d n => lit_is 0 d n = true) t (iir_ints s p).
Proof.
  intros Hs Hp. destruct (iir_table_some s p Hs Hp) as (t & gd & E). exists t, gd. split; [exact E|].
  apply all2_spec. assert (Hf : fir_prec p) by (unfold fir_prec, iir_prec in *; lia).
  pose proof (table_is_ok 0 s p ltac:(lia) Hs Hf) as H. unfold table_is in H. rewrite E in H. now apply andb_prop in H.
Qed.

Theorem fir_coeffs_R md s p : stage_no s -> fir_prec p ->
  coeffs (A := RA) FILTER_FIR md p s = map (fun n => (IZR n * unit_of md)%R) (fir_ints s p).
Proof.
  intros Hs Hp. destruct (fir_lits md s p Hs Hp) as (t & E & F). unfold coeffs. rewrite E. clear E.
  fold (md_scal md). induction F as [|d n t l H _ IH]; cbn [map]; [reflexivity|]. f_equal; [|exact IH].
  rewrite (lit_RA _ _ n) by (assumption || (destruct md; cbn; lia)). now destruct md.
Qed.
Theorem iir_coeffs_R md s p : stage_no s -> iir_prec p ->
  coeffs (A := RA) FILTER_IIR md p s = map (fun n => (IZR n * unit_of DOWN)%R) (iir_ints s p).
Proof.
  intros Hs Hp. destruct (iir_lits s p Hs Hp) as (t & gd & E & F). unfold coeffs. rewrite E. clear E.
  induction F as [|d n t l H _ IH]; cbn [map]; [reflexivity|]. f_equal; [|exact IH].
  now rewrite (lit_RA _ _ n) by (assumption || lia).
Qed.
Theorem fir_coeffs_F md s p : stage_no s -> fir_prec p ->
  Forall2 (fun (c : b32) n => is_finite c = true /\ B2R c = (IZR n * unit_of md)%R) (coeffs (A := F32) FILTER_FIR md p s) (fir_ints s p).
Proof.
  intros Hs Hp. destruct (fir_lits md s p Hs Hp) as (t & E & F). unfold coeffs. rewrite E. clear E.
  fold (md_scal md). induction F as [|d n t l H _ IH]; cbn [map]; constructor; [|exact IH].
  destruct (lit_F32 (md_scal md) d n) as [H1 H2]; [destruct md; cbn; lia | exact H|]. split; [exact H1|]. rewrite H2. now destruct md.
Qed.
Theorem iir_coeffs_F md s p : stage_no s -> iir_prec p ->
  Forall2 (fun (c : b32) n => is_finite c = true /\ B2R c = (IZR n * unit_of DOWN)%R) (coeffs (A := F32) FILTER_IIR md p s) (iir_ints s p).
Proof.
  intros Hs Hp. destruct (iir_lits s p Hs Hp) as (t & gd & E & F). unfold coeffs. rewrite E. clear E.
  induction F as [|d n t l H _ IH]; cbn [map]; constructor; [|exact IH].
  destruct (lit_F32 0 d n) as [H1 H2]; [lia | exact H|]. split; assumption.
Qed.
