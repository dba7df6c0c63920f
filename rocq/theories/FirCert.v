(** * Certificates for FirDesignProof.v (numbers in units of 2^-448) *)
From Coq Require Import ZArith List.
From Bignums Require Import BigZ.
From Verif Require Import FixInt.
Import ListNotations.
Open Scope Z_scope.

(** a multiple of 2^-20 *)
Definition p20 (i : Z) : bigZ := BigZ.of_Z (Z.shiftl i 428).

Definition cert_pi : ival := ((BigZ.of_Z 2283431196591655772568293192637813162989505182201807620455461503647463674352091780948082810000813750461678719846639713479115845689692377), (BigZ.of_Z 2283431196591655772568293192637813162989505182201807620455461503647463674352091780948082810000813750461678719846639713479115845689692385)).
Definition cert_att_136 : ival := ((BigZ.of_Z 4586042313469274433633325276080987183721457817930574102095535579821060839016050772663667802326281087582274698771029743843205787473081458653341), (BigZ.of_Z 4586042313469274433633325276080987183721457817930574102095535579821060839016050772663667802326281087582274698771029743843205788036031412074653)).
Definition cert_att_113_75 : ival := ((BigZ.of_Z 353946854764944790731017351396455346791291643257310041741314394883377134893759910649602880227763081804556727132981400096696366622286055315217), (BigZ.of_Z 353946854764944790731017351396455346791291643257310041741314394883377134893759910649602880227763081804556727132981400096696367185236008736529)).
Definition cert_att_88_5 : ival := ((BigZ.of_Z 19339180081655191533497805125198011888857554402046043377449550559128337599347542043663981154559495979295623170700597811831676125545343168976), (BigZ.of_Z 19339180081655191533497805125198011888857554402046043377449550559128337599347542043663981154559495979295623170700597811831676688495296590288)).
Definition cert_att_67_5 : ival := ((BigZ.of_Z 1723606239051263493567915444677997168415213027360874304549725010466949657071853673807618496137757646903223512081415221881536730915061254373), (BigZ.of_Z 1723606239051263493567915444677997168415213027360874304549725010466949657071853673807618496137757646903223512081415221881537293865014675685)).
Definition cert_att_42 : ival := ((BigZ.of_Z 91503574029179407228118709199443071289680543562853804060355388559438454261223610922038910442827596548360867435010074681301670967202726287), (BigZ.of_Z 91503574029179407228118709199443071289680543562853804060355388559438454261223610922038910442827596548360867435010074681302233917156147599)).
Definition cert_att_86_5 : ival := ((BigZ.of_Z 15361656775276154485999573700400546082499252830926472674987120142014746048075929583359489734283534471637147632356677779438764195339234702850), (BigZ.of_Z 15361656775276154485999573700400546082499252830926472674987120142014746048075929583359489734283534471637147632356677779438764758289188124162)).
Definition cert_att_46 : ival := ((BigZ.of_Z 145023391564707983791484339316745693107014346149340526304457337562949133012640533797148652803514345916191535365147394403744516139012776444), (BigZ.of_Z 145023391564707983791484339316745693107014346149340526304457337562949133012640533797148652803514345916191535365147394403745079088966197756)).
Definition cert_att_138 : ival := ((BigZ.of_Z 5773485207989781583207736815070049685301773052232458688474325846561739151528447236145103593097700150053514050653438171380199767609785535062126), (BigZ.of_Z 5773485207989781583207736815070049685301773052232458688474325846561739151528447236145103593097700150053514050653438171380199768172735488483438)).
Definition cert_att_48 : ival := ((BigZ.of_Z 182573632945386753914840696504109931089545791999404199012942278644270136980946476281451609146620851707785902355670503913133586857454551299), (BigZ.of_Z 182573632945386753914840696504109931089545791999404199012942278644270136980946476281451609146620851707785902355670503913134149807407972611)).
Definition cert8_24_x1l : bigZ := (BigZ.of_Z 92110949905605850457932341839953762315406686005607000281135135582251085732819954743992844218552583525556404424028043125475976532490521).
Definition cert8_24_x1h : bigZ := (BigZ.of_Z 92110949905605850457932341839953762315406686005607000281135135582251085732819954743992844218552583525556404424028043125475976534587673).
Definition cert8_24_x0l : bigZ := (BigZ.of_Z 885680705274009077870945511041315693778844473334236091517499682237319994669048293511419178287041642443903203046143934752532168487196052).
Definition cert8_24_x0h : bigZ := (BigZ.of_Z 885680705274009077870945511041315693778844473334236091517499682237319994669048293511419178287041642443903203046143934752534367510451604).
Definition cert8_20_x1l : bigZ := (BigZ.of_Z 109792214478870416819403044128223379948750056651752155988515034778481407275226369078353666327964100576597251154749997593402648435319114).
Definition cert8_20_x1h : bigZ := (BigZ.of_Z 109792214478870416819403044128223379948750056651752155988515034778481407275226369078353666327964100576597251154749997593402648437416266).
Definition cert8_20_x0l : bigZ := (BigZ.of_Z 886674816592560270605779971064094358092982854491194758556312731785685697720936464094619687477349298031745756151530509342207770101600342).
Definition cert8_20_x0h : bigZ := (BigZ.of_Z 886674816592560270605779971064094358092982854491194758556312731785685697720936464094619687477349298031745756151530509342209969124855894).
Definition cert8_16_x1l : bigZ := (BigZ.of_Z 135843937685384803826596813376633093506410770253072485034729867637753216901418472850062207469003115718554027182890646001609500514480239).
Definition cert8_16_x1h : bigZ := (BigZ.of_Z 135843937685384803826596813376633093506410770253072485034729867637753216901418472850062207469003115718554027182890646001609500516577391).
Definition cert8_16_x0l : bigZ := (BigZ.of_Z 877018582082025610808251679123965922499996081478732961491148256222100384672527400887782918577606812290212097675500482725258893876684401).
Definition cert8_16_x0h : bigZ := (BigZ.of_Z 877018582082025610808251679123965922499996081478732961491148256222100384672527400887782918577606812290212097675500482725261092899939953).
Definition cert8_12_x1l : bigZ := (BigZ.of_Z 178003751889692837813042332504461316353854511933892218453301466384389187064003195158053290344239061821274661013620125482546086699959008).
Definition cert8_12_x1h : bigZ := (BigZ.of_Z 178003751889692837813042332504461316353854511933892218453301466384389187064003195158053290344239061821274661013620125482546086702056160).
Definition cert8_12_x0l : bigZ := (BigZ.of_Z 882123473400199057630883936720402743955639532865501965434576362291560214293293432893363657141037599280773045680098714770774655930150771).
Definition cert8_12_x0h : bigZ := (BigZ.of_Z 882123473400199057630883936720402743955639532865501965434576362291560214293293432893363657141037599280773045680098714770776854953406323).
Definition cert8_8_x1l : bigZ := (BigZ.of_Z 257595691611269143799238950715433856087364207093777862987984820634507008531003194679759160877535595539312057573394054683610263345592325).
Definition cert8_8_x1h : bigZ := (BigZ.of_Z 257595691611269143799238950715433856087364207093777862987984820634507008531003194679759160877535595539312057573394054683610263347689477).
Definition cert8_8_x0l : bigZ := (BigZ.of_Z 859569028841076711526749215465823345392987533334967762080468755866862194959425754527707565422340439563394607842908434949919613546100953).
Definition cert8_8_x0h : bigZ := (BigZ.of_Z 859569028841076711526749215465823345392987533334967762080468755866862194959425754527707565422340439563394607842908434949921812569356505).
Definition cert4_24_x1l : bigZ := (BigZ.of_Z 69658822512021007346503495879930600639906402505470124081870670389609970747818086087664899607214702141927073380273710743239295346237016).
Definition cert4_24_x1h : bigZ := (BigZ.of_Z 69658822512021007346503495879930600639906402505470124081870670389609970747818086087664899607214702141927073380273710743239295348334168).
Definition cert4_24_x0l : bigZ := (BigZ.of_Z 813427913104513400423317541884528434089380346305419663784677061884915258780485343041588832480445598009823190708268955713990897687387190).
Definition cert4_24_x0h : bigZ := (BigZ.of_Z 813427913104513400423317541884528434089380346305419663784677061884915258780485343041588832480445598009823190708268958019833906901081142).
Definition cert4_20_x1l : bigZ := (BigZ.of_Z 79328697761087644269011885083606285761413727390942524252443947413665762849337971399994998157577936666360727891103632318871765869580005).
Definition cert4_20_x1h : bigZ := (BigZ.of_Z 79328697761087644269011885083606285761413727390942524252443947413665762849337971399994998157577936666360727891103632318871765871677157).
Definition cert4_20_x0l : bigZ := (BigZ.of_Z 805162192775678549974755332128509744246670026825041897904263658826816970328647004719952938992200434190537380268644632664789298370949486).
Definition cert4_20_x0h : bigZ := (BigZ.of_Z 805162192775678549974755332128509744246670026825041897904263658826816970328647004719952938992200434190537380268644634970632307584643438).
Definition cert4_16_x1l : bigZ := (BigZ.of_Z 109792214478870416819403044128223379948750056651752155988515034778481407275226369078353666327964100576597251154749997593402648435319114).
Definition cert4_16_x1h : bigZ := (BigZ.of_Z 109792214478870416819403044128223379948750056651752155988515034778481407275226369078353666327964100576597251154749997593402648437416266).
Definition cert4_16_x0l : bigZ := (BigZ.of_Z 815413322782579645305717994095605609459422068836186895141450794659746928030869716189213141573077047824035473111105217725208111768427664).
Definition cert4_16_x0h : bigZ := (BigZ.of_Z 815413322782579645305717994095605609459422068836186895141450794659746928030869716189213141573077047824035473111105217725210310791683216).
Definition cert4_12_x1l : bigZ := (BigZ.of_Z 135843937685384803826596813376633093506410770253072485034729867637753216901418472850062207469003115718554027182890646001609500514480239).
Definition cert4_12_x1h : bigZ := (BigZ.of_Z 135843937685384803826596813376633093506410770253072485034729867637753216901418472850062207469003115718554027182890646001609500516577391).
Definition cert4_12_x0l : bigZ := (BigZ.of_Z 809851503404310331573066553221937541765871759989018684809152959627932177534008940945033793136569675110215018096464811307388012073679150).
Definition cert4_12_x0h : bigZ := (BigZ.of_Z 809851503404310331573066553221937541765871759989018684809152959627932177534008940945033793136569675110215018096464811307390211096934702).
Definition cert4_8_x1l : bigZ := (BigZ.of_Z 178003751889692837813042332504461316353854511933892218453301466384389187064003195158053290344239061821274661013620125482546086699959008).
Definition cert4_8_x1h : bigZ := (BigZ.of_Z 178003751889692837813042332504461316353854511933892218453301466384389187064003195158053290344239061821274661013620125482546086702056160).
Definition cert4_8_x0l : bigZ := (BigZ.of_Z 792116138159955507037130689579862152872444335342152546991910821997877111828182064597215207994475013593328319687661795831691233765896149).
Definition cert4_8_x0h : bigZ := (BigZ.of_Z 792116138159955507037130689579862152872444335342152546991910821997877111828182064597215207994475013593328319687661795831693432789151701).
Definition cert2_24_x1l : bigZ := (BigZ.of_Z 21796901658220188674076720647070649354907302113915034307220997267605821415023645982615062336781283117375574576842726076035711639893120).
Definition cert2_24_x1h : bigZ := (BigZ.of_Z 21796901658220188674076720647070649354907302113915034307220997267605821415023645982615062336781283117375574576842726076035711641990272).
Definition cert2_24_x0l : bigZ := (BigZ.of_Z 734429885517523981300365800041501776280432340232149915221445039975695608942195392817157397563368242992531595032267913012850079840721661).
Definition cert2_24_x0h : bigZ := (BigZ.of_Z 734429885517523981300365800041501776280432340232149915221445039975695608942195392817157400417863628404451357148839851911840352606214909).
Definition cert2_20_x1l : bigZ := (BigZ.of_Z 26939432249261456029012237950232019688989504959816249610288702536558167022641722122027180752658935453245954531194892926832960578470167).
Definition cert2_20_x1h : bigZ := (BigZ.of_Z 26939432249261456029012237950232019688989504959816249610288702536558167022641722122027180752658935453245954531194892926832960580567319).
Definition cert2_20_x0l : bigZ := (BigZ.of_Z 734555936205794042622883488323577072840046590240274119027671320865557492084875509564963111615510573172975596817210008452754401876708825).
Definition cert2_20_x0h : bigZ := (BigZ.of_Z 734555936205794042622883488323577072840046590240274119027671320865557492084875509564963114470005958584895358933781947351744674642202073).
Definition cert2_16_x1l : bigZ := (BigZ.of_Z 35257030542532153963568308450125030649094395934664175268714557290195939190319100029662131853060875590123143675660007056854701368196450).
Definition cert2_16_x1h : bigZ := (BigZ.of_Z 35257030542532153963568308450125030649094395934664175268714557290195939190319100029662131853060875590123143675660007056854701370293602).
Definition cert2_16_x0l : bigZ := (BigZ.of_Z 734560582501709543908874192005028023602777815346267758748127694436594789463762347070039769008341907422364308107476110757955815388101893).
Definition cert2_16_x0h : bigZ := (BigZ.of_Z 734560582501709543908874192005028023602777815346267758748127694436594789463762347070039771862837292834284070224048049656946088153595141).
Definition cert2_12_x1l : bigZ := (BigZ.of_Z 46820128752741667817427609470701248560562460456219306244277863020726411683213282399783381888858392201737397371144065372062112743581829).
Definition cert2_12_x1h : bigZ := (BigZ.of_Z 46820128752741667817427609470701248560562460456219306244277863020726411683213282399783381888858392201737397371144065372062112745678981).
Definition cert2_12_x0l : bigZ := (BigZ.of_Z 734340412535923297291121052597565683158556853157284346416955872579908317698608404853787963753817210364210506786261838393321614973633636).
Definition cert2_12_x0h : bigZ := (BigZ.of_Z 734340412535923297291121052597565683158556853157284346416955872579908317698608404853787963753817210364210506786261840699164624187327588).
Definition cert2_8_x1l : bigZ := (BigZ.of_Z 69658822512021007346503495879930600639906402505470124081870670389609970747818086087664899607214702141927073380273710743239295346237016).
Definition cert2_8_x1h : bigZ := (BigZ.of_Z 69658822512021007346503495879930600639906402505470124081870670389609970747818086087664899607214702141927073380273710743239295348334168).
Definition cert2_8_x0l : bigZ := (BigZ.of_Z 734515189010595608660038383052698608591969036676759159493284527147389696383317976859946326376758341978975489208351357248925142411914789).
Definition cert2_8_x0h : bigZ := (BigZ.of_Z 734515189010595608660038383052698608591969036676759159493284527147389696383317976859946326376758341978975489208351359554768151625608741).
Definition cert8_24_points : list bigZ := map p20 [327511; 451151; 567510; 674712; 771082; 855065; 925285; 980607; 1020196; 1041163].
Definition cert8_20_points : list bigZ := map p20 [388073; 530823; 661414; 776888; 874594; 952291; 1008263; 1038034].
Definition cert8_16_points : list bigZ := map p20 [474979; 641507; 785512; 901986; 986905; 1032425].
Definition cert8_12_points : list bigZ := map p20 [608348; 799638; 942770; 1020767].
Definition cert8_8_points : list bigZ := map p20 [827552; 989955].
Definition cert4_24_points : list bigZ := map p20 [249227; 345684; 438959; 528229; 612633; 691394; 763815; 829193; 886949; 936558; 977570; 1009597; 1032347; 1044340].
Definition cert4_20_points : list bigZ := map p20 [283119; 391628; 495457; 593399; 684246; 766939; 840479; 903996; 956740; 998066; 1027518; 1043078].
Definition cert4_16_points : list bigZ := map p20 [388073; 530823; 661414; 776888; 874594; 952291; 1008263; 1038034].
Definition cert4_12_points : list bigZ := map p20 [474979; 641507; 785512; 901986; 986905; 1032425].
Definition cert4_8_points : list bigZ := map p20 [608348; 799638; 942770; 1020767].
Definition cert2_24_points : list bigZ := map p20 [78534; 109865; 141097; 172203; 203153; 233920; 264437; 294717; 324771; 354533; 383976; 413073; 441799; 470127; 498031; 525452; 552401; 578889; 604855; 630277; 655132; 679397; 703050; 726071; 748439; 770104; 791079; 811369; 830929; 849741; 867788; 885055; 901524; 917182; 932015; 946009; 959151; 971430; 982835; 993355; 1002981; 1011704; 1019526; 1026429; 1032404; 1037455; 1041566; 1044742; 1046984; 1048161].
Definition cert2_20_points : list bigZ := map p20 [97080; 135709; 174152; 212355; 250267; 287834; 325006; 361732; 397960; 433642; 468727; 503169; 536919; 569932; 602161; 633563; 664094; 693713; 722379; 750052; 776694; 802269; 826742; 850103; 872293; 893261; 913001; 931486; 948692; 964610; 979200; 992428; 1004304; 1014798; 1023894; 1031595; 1037875; 1042726; 1046148; 1047943].
Definition cert2_16_points : list bigZ := map p20 [126885; 177237; 227172; 276571; 325319; 373263; 420328; 466442; 511458; 555268; 597771; 638866; 678455; 716447; 752752; 787283; 819960; 850705; 879447; 906117; 930653; 952997; 973111; 990943; 1006433; 1019546; 1030264; 1038562; 1044416; 1047490].
Definition cert2_12_points : list bigZ := map p20 [168261; 234562; 299890; 364011; 426619; 487454; 546228; 602734; 656770; 708077; 756440; 801659; 843546; 881950; 916683; 947601; 974592; 997534; 1016335; 1030924; 1041239; 1046661].
Definition cert2_8_points : list bigZ := map p20 [249227; 345684; 438959; 528229; 612633; 691394; 763815; 829193; 886949; 936558; 977570; 1009597; 1032347; 1044340].
