(** * Coefficient tables, pandaresampler.cc:690-1072 and 1231-1366

    Every entry is the decimal literal of the source, digit for digit (with
    trailing zeros dropped). *)
From Coq Require Import ZArith List.
From Verif Require Import Arith.
Import ListNotations.
Open Scope Z_scope.
Open Scope bool_scope.

(** coeffs2_24, pandaresampler.cc:691-749 *)
Definition fir_coeffs2_24 : list dec := [
  Dec (-1896649020687189) (-22);
  Dec (89375397078734594) (-23);
  Dec (-29108958281584469) (-22);
  Dec (77609698680954118) (-22);
  Dec (-18119956302920787) (-21);
  Dec (38375105842230682) (-21);
  Dec (-75309071659470099) (-21);
  Dec (13889694095199994) (-20);
  Dec (-24318689587188649) (-20);
  Dec (40722732084584021) (-20);
  Dec (-65600665137277646) (-20);
  Dec (1021395018417595) (-18);
  Dec (-15431295374089733) (-19);
  Dec (22699842719303941) (-19);
  Dec (-32614400850958444) (-19);
  Dec (45904754831414861) (-19);
  Dec (-63486601639801904) (-19);
  Dec (86558345711950594) (-19);
  Dec (-11679015470590512) (-18);
  Dec (15670714074410223) (-18);
  Dec (-21051408534455165) (-18);
  Dec (28604536062639324) (-18);
  Dec (-40008178410666853) (-18);
  Dec (59644444619411124) (-18);
  Dec (-10364569487012831) (-17);
  Dec (31748269557078473) (-17);
  Dec (31748269557078473) (-17);
  Dec (-10364569487012831) (-17);
  Dec (59644444619411124) (-18);
  Dec (-40008178410666853) (-18);
  Dec (28604536062639324) (-18);
  Dec (-21051408534455165) (-18);
  Dec (15670714074410223) (-18);
  Dec (-11679015470590512) (-18);
  Dec (86558345711950594) (-19);
  Dec (-63486601639801904) (-19);
  Dec (45904754831414861) (-19);
  Dec (-32614400850958444) (-19);
  Dec (22699842719303941) (-19);
  Dec (-15431295374089733) (-19);
  Dec (1021395018417595) (-18);
  Dec (-65600665137277646) (-20);
  Dec (40722732084584021) (-20);
  Dec (-24318689587188649) (-20);
  Dec (13889694095199994) (-20);
  Dec (-75309071659470099) (-21);
  Dec (38375105842230682) (-21);
  Dec (-18119956302920787) (-21);
  Dec (77609698680954118) (-22);
  Dec (-29108958281584469) (-22);
  Dec (89375397078734594) (-23);
  Dec (-1896649020687189) (-22) ].
(** coeffs4_24, pandaresampler.cc:750-772 *)
Definition fir_coeffs4_24 : list dec := [
  Dec (-78113862062895476) (-22);
  Dec (11777177340253331) (-20);
  Dec (-80979027642968178) (-20);
  Dec (35914299596685019) (-19);
  Dec (-11907675232141868) (-18);
  Dec (32618531462663004) (-18);
  Dec (-83680449562963555) (-18);
  Dec (31007801153486508) (-17);
  Dec (31007801153486508) (-17);
  Dec (-83680449562963555) (-18);
  Dec (32618531462663004) (-18);
  Dec (-11907675232141868) (-18);
  Dec (35914299596685019) (-19);
  Dec (-80979027642968178) (-20);
  Dec (11777177340253331) (-20);
  Dec (-78113862062895476) (-22) ].
(** coeffs8_24, pandaresampler.cc:773-791 *)
Definition fir_coeffs8_24 : list dec := [
  Dec (-30345557546583312) (-21);
  Dec (57384655742621254) (-20);
  Dec (-43830674681261195) (-19);
  Dec (20226878808907018) (-18);
  Dec (-70915964811982507) (-18);
  Dec (30452864347609143) (-17);
  Dec (30452864347609143) (-17);
  Dec (-70915964811982507) (-18);
  Dec (20226878808907018) (-18);
  Dec (-43830674681261195) (-19);
  Dec (57384655742621254) (-20);
  Dec (-30345557546583312) (-21) ].
(** coeffs2_20, pandaresampler.cc:792-840 *)
Definition fir_coeffs2_20 : list dec := [
  Dec (24629216796772203) (-22);
  Dec (-97990456966301657) (-22);
  Dec (28137964376908064) (-21);
  Dec (-67464881821884139) (-21);
  Dec (14336862073315604) (-20);
  Dec (-278702763263149) (-18);
  Dec (50528391212770792) (-20);
  Dec (-86555167177917124) (-20);
  Dec (1414202687011217) (-18);
  Dec (-22199926486379607) (-19);
  Dec (3368236285452741) (-18);
  Dec (-49651473206043309) (-19);
  Dec (71463283371987034) (-19);
  Dec (-10094148846828722) (-18);
  Dec (14074361299068285) (-18);
  Dec (-19516906264665349) (-18);
  Dec (272094990821482) (-16);
  Dec (-38828382182376338) (-18);
  Dec (58747406804456566) (-18);
  Dec (-10308466896169781) (-17);
  Dec (31729177522077334) (-17);
  Dec (31729177522077334) (-17);
  Dec (-10308466896169781) (-17);
  Dec (58747406804456566) (-18);
  Dec (-38828382182376338) (-18);
  Dec (272094990821482) (-16);
  Dec (-19516906264665349) (-18);
  Dec (14074361299068285) (-18);
  Dec (-10094148846828722) (-18);
  Dec (71463283371987034) (-19);
  Dec (-49651473206043309) (-19);
  Dec (3368236285452741) (-18);
  Dec (-22199926486379607) (-19);
  Dec (1414202687011217) (-18);
  Dec (-86555167177917124) (-20);
  Dec (50528391212770792) (-20);
  Dec (-278702763263149) (-18);
  Dec (14336862073315604) (-20);
  Dec (-67464881821884139) (-21);
  Dec (28137964376908064) (-21);
  Dec (-97990456966301657) (-22);
  Dec (24629216796772203) (-22) ].
(** coeffs4_20, pandaresampler.cc:841-861 *)
Definition fir_coeffs4_20 : list dec := [
  Dec (43979674631863943) (-21);
  Dec (-50306469192140939) (-20);
  Dec (27962504087410051) (-19);
  Dec (-10470114594085408) (-18);
  Dec (30755143193163859) (-18);
  Dec (-82041866707154076) (-18);
  Dec (30941949170527272) (-17);
  Dec (30941949170527272) (-17);
  Dec (-82041866707154076) (-18);
  Dec (30755143193163859) (-18);
  Dec (-10470114594085408) (-18);
  Dec (27962504087410051) (-19);
  Dec (-50306469192140939) (-20);
  Dec (43979674631863943) (-21) ].
(** coeffs8_20, pandaresampler.cc:862-878 *)
Definition fir_coeffs8_20 : list dec := [
  Dec (17230594713343064) (-20);
  Dec (-2551731819446271) (-18);
  Dec (15994679393099207) (-18);
  Dec (-6565066677090392) (-17);
  Dec (30203532650661641) (-17);
  Dec (30203532650661641) (-17);
  Dec (-6565066677090392) (-17);
  Dec (15994679393099207) (-18);
  Dec (-2551731819446271) (-18);
  Dec (17230594713343064) (-20) ].
(** coeffs2_16, pandaresampler.cc:879-917 *)
Definition fir_coeffs2_16 : list dec := [
  Dec (-35142734993474452) (-21);
  Dec (11358789579768951) (-20);
  Dec (-28037958674221312) (-20);
  Dec (59293788160310029) (-20);
  Dec (-11294540908177168) (-19);
  Dec (19917372726928405) (-19);
  Dec (-33089217809884803) (-19);
  Dec (52441962508097874) (-19);
  Dec (-80093910223938553) (-19);
  Dec (11898075091115748) (-18);
  Dec (-17362581771322445) (-18);
  Dec (25204120984314127) (-18);
  Dec (-37100932061169559) (-18);
  Dec (57416112765805175) (-18);
  Dec (-10224463341225128) (-17);
  Dec (31700464719515836) (-17);
  Dec (31700464719515836) (-17);
  Dec (-10224463341225128) (-17);
  Dec (57416112765805175) (-18);
  Dec (-37100932061169559) (-18);
  Dec (25204120984314127) (-18);
  Dec (-17362581771322445) (-18);
  Dec (11898075091115748) (-18);
  Dec (-80093910223938553) (-19);
  Dec (52441962508097874) (-19);
  Dec (-33089217809884803) (-19);
  Dec (19917372726928405) (-19);
  Dec (-11294540908177168) (-19);
  Dec (59293788160310029) (-20);
  Dec (-28037958674221312) (-20);
  Dec (11358789579768951) (-20);
  Dec (-35142734993474452) (-21) ].
(** coeffs4_16, pandaresampler.cc:918-934 *)
Definition fir_coeffs4_16 : list dec := [
  Dec (55713256761683592) (-20);
  Dec (-48543666906354314) (-19);
  Dec (21809335002826412) (-18);
  Dec (-73141515220609826) (-18);
  Dec (30562814686107148) (-17);
  Dec (30562814686107148) (-17);
  Dec (-73141515220609826) (-18);
  Dec (21809335002826412) (-18);
  Dec (-48543666906354314) (-19);
  Dec (55713256761683592) (-20) ].
(** coeffs8_16, pandaresampler.cc:935-949 *)
Definition fir_coeffs8_16 : list dec := [
  Dec (-10885239331601664) (-19);
  Dec (11649378449320126) (-18);
  Dec (-59557473859641011) (-18);
  Dec (29900137394294291) (-17);
  Dec (29900137394294291) (-17);
  Dec (-59557473859641011) (-18);
  Dec (11649378449320126) (-18);
  Dec (-10885239331601664) (-19) ].
(** coeffs2_12, pandaresampler.cc:950-980 *)
Definition fir_coeffs2_12 : list dec := [
  Dec (-31919473602139891) (-20);
  Dec (83854004488146685) (-20);
  Dec (-17905303270299995) (-19);
  Dec (33731130894814397) (-19);
  Dec (-58408892523820347) (-19);
  Dec (95314079754320758) (-19);
  Dec (-14935625615431904) (-18);
  Dec (22881655727240446) (-18);
  Dec (-35057791064865292) (-18);
  Dec (55817399757994692) (-18);
  Dec (-10122584733772397) (-17);
  Dec (31665472430452679) (-17);
  Dec (31665472430452679) (-17);
  Dec (-10122584733772397) (-17);
  Dec (55817399757994692) (-18);
  Dec (-35057791064865292) (-18);
  Dec (22881655727240446) (-18);
  Dec (-14935625615431904) (-18);
  Dec (95314079754320758) (-19);
  Dec (-58408892523820347) (-19);
  Dec (33731130894814397) (-19);
  Dec (-17905303270299995) (-19);
  Dec (83854004488146685) (-20);
  Dec (-31919473602139891) (-20) ].
(** coeffs4_12, pandaresampler.cc:981-995 *)
Definition fir_coeffs4_12 : list dec := [
  Dec (-25910542040449157) (-19);
  Dec (17312836258421893) (-18);
  Dec (-68161446853832547) (-18);
  Dec (30340841235941457) (-17);
  Dec (30340841235941457) (-17);
  Dec (-68161446853832547) (-18);
  Dec (17312836258421893) (-18);
  Dec (-25910542040449157) (-19) ].
(** coeffs8_12, pandaresampler.cc:996-1008 *)
Definition fir_coeffs8_12 : list dec := [
  Dec (5872148420194066) (-18);
  Dec (-49275035331134497) (-18);
  Dec (29336813890765762) (-17);
  Dec (29336813890765762) (-17);
  Dec (-49275035331134497) (-18);
  Dec (5872148420194066) (-18) ].
(** coeffs2_8, pandaresampler.cc:1009-1031 *)
Definition fir_coeffs2_8 : list dec := [
  Dec (-26367453410967019) (-19);
  Dec (56954995988467462) (-19);
  Dec (-10750637983096105) (-18);
  Dec (18689598049002096) (-18);
  Dec (-31243628674597745) (-18);
  Dec (52760932803671098) (-18);
  Dec (-99248122111822379) (-18);
  Dec (31597034387100925) (-17);
  Dec (31597034387100925) (-17);
  Dec (-99248122111822379) (-18);
  Dec (52760932803671098) (-18);
  Dec (-31243628674597745) (-18);
  Dec (18689598049002096) (-18);
  Dec (-10750637983096105) (-18);
  Dec (56954995988467462) (-19);
  Dec (-26367453410967019) (-19) ].
(** coeffs4_8, pandaresampler.cc:1032-1044 *)
Definition fir_coeffs4_8 : list dec := [
  Dec (13331613494158878) (-18);
  Dec (-63984766541747701) (-18);
  Dec (30161384865948221) (-17);
  Dec (30161384865948221) (-17);
  Dec (-63984766541747701) (-18);
  Dec (13331613494158878) (-18) ].
(** coeffs8_8, pandaresampler.cc:1045-1055 *)
Definition fir_coeffs8_8 : list dec := [
  Dec (-37276258261764332) (-18);
  Dec (28635090020526976) (-17);
  Dec (28635090020526976) (-17);
  Dec (-37276258261764332) (-18) ].
(** coeffs_linear, pandaresampler.cc:1061-1065 *)
Definition fir_coeffs_linear : list dec := [ Dec 25 (-2); Dec 25 (-2) ].

(** The selection made by create_impl, pandaresampler.cc:687-1072: the table for
    a stage ratio and a precision enum value, None where the code returns 0.
    (Both modes use the same table; the template argument ORDER and the order
    argument are always the length of the table.) *)
Definition fir_table (stage prec : Z) : option (list dec) :=
  if (stage =? 2) && (prec =? 24) then Some fir_coeffs2_24 else
  if (stage =? 4) && (prec =? 24) then Some fir_coeffs4_24 else
  if (stage =? 8) && (prec =? 24) then Some fir_coeffs8_24 else
  if (stage =? 2) && (prec =? 20) then Some fir_coeffs2_20 else
  if (stage =? 4) && (prec =? 20) then Some fir_coeffs4_20 else
  if (stage =? 8) && (prec =? 20) then Some fir_coeffs8_20 else
  if (stage =? 2) && (prec =? 16) then Some fir_coeffs2_16 else
  if (stage =? 4) && (prec =? 16) then Some fir_coeffs4_16 else
  if (stage =? 8) && (prec =? 16) then Some fir_coeffs8_16 else
  if (stage =? 2) && (prec =? 12) then Some fir_coeffs2_12 else
  if (stage =? 4) && (prec =? 12) then Some fir_coeffs4_12 else
  if (stage =? 8) && (prec =? 12) then Some fir_coeffs8_12 else
  if (stage =? 2) && (prec =? 8) then Some fir_coeffs2_8 else
  if (stage =? 4) && (prec =? 8) then Some fir_coeffs4_8 else
  if (stage =? 8) && (prec =? 8) then Some fir_coeffs8_8 else
  if prec =? 1 then Some fir_coeffs_linear else None.

(** coeffs2_8, pandaresampler.cc:1232-1238 *)
Definition iir_coeffs2_8 : list dec := [
  Dec (13533476491166646) (-17);
  Dec (44459059808236606) (-17);
  Dec (80006724816152464) (-17) ].
(** coeffs4_8, pandaresampler.cc:1240-1245 *)
Definition iir_coeffs4_8 : list dec := [
  Dec (12564829488677751) (-17);
  Dec (56413565549879052) (-17) ].
(** coeffs8_8, pandaresampler.cc:1247-1251 *)
Definition iir_coeffs8_8 : list dec := [
  Dec (34210403268814876) (-17) ].
(** coeffs2_12, pandaresampler.cc:1253-1261 *)
Definition iir_coeffs2_12 : list dec := [
  Dec (57369561854075074) (-18);
  Dec (2095436081316879) (-16);
  Dec (41352768544651608) (-17);
  Dec (6351349011042412) (-16);
  Dec (86943780167618079) (-17) ].
(** coeffs4_12, pandaresampler.cc:1263-1269 *)
Definition iir_coeffs4_12 : list dec := [
  Dec (63242386110162196) (-18);
  Dec (26520245698601469) (-17);
  Dec (66713594063634607) (-17) ].
(** coeffs8_12, pandaresampler.cc:1271-1276 *)
Definition iir_coeffs8_12 : list dec := [
  Dec (11010398332301433) (-17);
  Dec (53640535169046299) (-17) ].
(** coeffs2_16, pandaresampler.cc:1278-1287 *)
Definition iir_coeffs2_16 : list dec := [
  Dec (41451595119442179) (-18);
  Dec (15510356876083609) (-17);
  Dec (31565680487417447) (-17);
  Dec (49770230748789734) (-17);
  Dec (68754139898746236) (-17);
  Dec (88864894857989574) (-17) ].
(** coeffs4_16, pandaresampler.cc:1289-1295 *)
Definition iir_coeffs4_16 : list dec := [
  Dec (63242386110162196) (-18);
  Dec (26520245698601469) (-17);
  Dec (66713594063634607) (-17) ].
(** coeffs8_16, pandaresampler.cc:1297-1302 *)
Definition iir_coeffs8_16 : list dec := [
  Dec (11010398332301433) (-17);
  Dec (53640535169046299) (-17) ].
(** coeffs2_20, pandaresampler.cc:1304-1315 *)
Definition iir_coeffs2_20 : list dec := [
  Dec (24474822059978408) (-18);
  Dec (94054346501929856) (-18);
  Dec (19872162695194262) (-17);
  Dec (32597599445882591) (-17);
  Dec (46482603848881743) (-17);
  Dec (60862663328164524) (-17);
  Dec (75647898374965283) (-17);
  Dec (91392075106875681) (-17) ].
(** coeffs4_20, pandaresampler.cc:1317-1324 *)
Definition iir_coeffs4_20 : list dec := [
  Dec (3806054747623356) (-17);
  Dec (15621232623983866) (-17);
  Dec (37118048037198415) (-17);
  Dec (73087698794653666) (-17) ].
(** coeffs8_20, pandaresampler.cc:1326-1332 *)
Definition iir_coeffs8_20 : list dec := [
  Dec (54591151801747943) (-18);
  Dec (23954799102035762) (-17);
  Dec (64335720472138391) (-17) ].
(** coeffs2_24, pandaresampler.cc:1334-1346 *)
Definition iir_coeffs2_24 : list dec := [
  Dec (1964694276744065) (-17);
  Dec (76088803821783499) (-18);
  Dec (16263241326637887) (-17);
  Dec (2704225137521028) (-16);
  Dec (39083229614395837) (-17);
  Dec (51740920918216626) (-17);
  Dec (6470358330763375) (-16);
  Dec (7804624622392915) (-16);
  Dec (92268241849452293) (-17) ].
(** coeffs4_24, pandaresampler.cc:1348-1356 *)
Definition iir_coeffs4_24 : list dec := [
  Dec (25414320818611134) (-18);
  Dec (10332655701804375) (-17);
  Dec (24011358015046655) (-17);
  Dec (45161232259950512) (-17);
  Dec (77416388521132473) (-17) ].
(** coeffs8_24, pandaresampler.cc:1358-1364 *)
Definition iir_coeffs8_24 : list dec := [
  Dec (54591151801747943) (-18);
  Dec (23954799102035762) (-17);
  Dec (64335720472138391) (-17) ].

(** The selection made by create_impl_iir, pandaresampler.cc:1228-1367: the
    coefficients and the group delay literal; None where the code returns 0. *)
Definition iir_table (stage prec : Z) : option (list dec * dec) :=
  if (stage =? 2) && (prec =? 8) then Some (iir_coeffs2_8, Dec (1749694) (-6)) else
  if (stage =? 4) && (prec =? 8) then Some (iir_coeffs4_8, Dec (155429) (-5)) else
  if (stage =? 8) && (prec =? 8) then Some (iir_coeffs8_8, Dec (980631) (-6)) else
  if (stage =? 2) && (prec =? 12) then Some (iir_coeffs2_12, Dec (2758511) (-6)) else
  if (stage =? 4) && (prec =? 12) then Some (iir_coeffs4_12, Dec (2162389) (-6)) else
  if (stage =? 8) && (prec =? 12) then Some (iir_coeffs8_12, Dec (1603448) (-6)) else
  if (stage =? 2) && (prec =? 16) then Some (iir_coeffs2_16, Dec (3258518) (-6)) else
  if (stage =? 4) && (prec =? 16) then Some (iir_coeffs4_16, Dec (2162389) (-6)) else
  if (stage =? 8) && (prec =? 16) then Some (iir_coeffs8_16, Dec (1603448) (-6)) else
  if (stage =? 2) && (prec =? 20) then Some (iir_coeffs2_20, Dec (4258575) (-6)) else
  if (stage =? 4) && (prec =? 20) then Some (iir_coeffs4_20, Dec (2771786) (-6)) else
  if (stage =? 8) && (prec =? 20) then Some (iir_coeffs8_20, Dec (2227224) (-6)) else
  if (stage =? 2) && (prec =? 24) then Some (iir_coeffs2_24, Dec (4758752) (-6)) else
  if (stage =? 4) && (prec =? 24) then Some (iir_coeffs4_24, Dec (3382479) (-6)) else
  if (stage =? 8) && (prec =? 24) then Some (iir_coeffs8_24, Dec (2227224) (-6)) else
  None.
