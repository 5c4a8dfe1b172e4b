(* Model of the OpenType tag tables and of the tag -> id functions: /repo/blend2d/core/fonttagdataids.cpp,
   /repo/blend2d/core/fonttagdataids_p.h 1256-1467 and /repo/blend2d/core/fonttagdata_p.h 20-60.  The tables are
   copied literally from the source (a tag 'abcd' is written as the four bytes of BL_MAKE_TAG, api.h 786). *)
From Verif Require Import Base.

(* api.h 786: BL_MAKE_TAG *)
Definition make_tag (a b c d : Z) : Z :=
  Z.lor (Z.lor (Z.lor (Z.shiftl a 24) (Z.shiftl b 16)) (Z.shiftl c 8)) d.

(* fonttagdataids_p.h 21: kInvalidId *)
Definition kInvalidId : Z := 4294967295.

(* fonttagdata_p.h 31-41: is_valid_tag *)
Definition is_valid_tag (tag : Z) : bool :=
  let x := w32 (tag - make_tag 32 32 32 32) in
  let y := w32 (tag + make_tag 1 1 1 1) in
  Z.land (Z.lor x y) 2155905152 =? 0.

(* fonttagdata_p.h 54-60: tag_to_ascii, the four characters written before the terminator *)
Fixpoint tag_to_ascii_loop (n : nat) (tag : Z) : list Z :=
  match n with
  | O => []
  | S n' => let c := Z.shiftr tag 24 in
            (if (c <? 32) || (126 <? c) then 63 else c) :: tag_to_ascii_loop n' (w32 (Z.shiftl tag 8))
  end.
Definition tag_to_ascii (tag : Z) : list Z := tag_to_ascii_loop 4 tag.

(* fonttagdataids.cpp 15-88: table_id_to_tag_table *)
Definition table_id_to_tag_table : list Z :=
  [
   1111577413; 1128416340; 1128418371; 1128678944; 1128678962; 1129270354; 1129333068; 1146308935; 1161970772;
   1161972803; 1161974595; 1195656518; 1196445523; 1196643650; 1213612370; 1246975046; 1280594760; 1296127048;
   1296388679; 1297498450; 1330851634; 1346587732; 1398030676; 1398163232; 1447316824; 1448038983; 1448493394;
   1516335206; 1633906292; 1634626418; 1635148146; 1650745716; 1651008868; 1651273571; 1651731566; 1668112752;
   1668702578; 1668707360; 1717859171; 1717920116; 1718449272; 1718578788; 1718642541; 1719034226; 1734439792;
   1734568292; 1735162214; 1735811442; 1751412088; 1751474532; 1751672161; 1752003704; 1786082164; 1801810542;
   1801810552; 1818452338; 1819239265; 1819566439; 1835104368; 1835365473; 1836020340; 1836020344; 1851878757;
   1869636196; 1886352244; 1886545264; 1886547824; 1935829368; 1953653099; 1986553185; 1986884728; 2020762982 ].

(* fonttagdataids_p.h 105: kTableIdCount *)
Definition kTableIdCount : Z := 72.

(* fonttagdataids_p.h 1257-1277: hash_table of table_tag_to_id *)
Definition table_hash_table : list Z :=
  [
   44; 0; 0; 26; 0; 0; 0; 0; 0; 0; 71; 67; 0; 0; 24; 6; 46; 0; 43; 30; 29; 39; 1; 49; 0; 0; 0; 69; 31; 19; 14; 63; 0;
   0; 52; 0; 0; 0; 40; 0; 17; 0; 34; 0; 47; 33; 28; 0; 37; 62; 20; 0; 11; 0; 50; 0; 18; 0; 0; 0; 0; 38; 70; 2; 5; 13;
   0; 0; 0; 23; 36; 0; 22; 8; 0; 0; 7; 45; 0; 64; 48; 0; 25; 55; 0; 0; 41; 16; 10; 51; 59; 0; 0; 57; 0; 66; 61; 0;
   58; 0; 4; 0; 0; 0; 21; 53; 0; 15; 0; 35; 32; 0; 0; 68; 9; 0; 60; 0; 42; 0; 54; 0; 27; 0; 0; 3; 56; 12 ].

(* fonttagdataids_p.h 1256-1277: table_tag_to_id *)
Definition table_tag_to_id (tag : Z) : outcome Z :=
  let h1 := Z.shiftr (w32 (tag * 907879475)) 25 in
  let* i1 := rd table_hash_table h1 in
  let index := kInvalidId in
  let* t := rd table_id_to_tag_table i1 in
  let index := if t =? tag then i1 else index in
  let index := if tag =? 1886545264 then 65 else index in
  Ok index.

(* fonttagdataids.cpp 93-268: script_id_to_tag_table *)
Definition script_id_to_tag_table : list Z :=
  [
   1145457748; 1633971309; 1634166882; 1634234221; 1634885986; 1634889065; 1634889070; 1635152756; 1650551913;
   1650552181; 1650553715; 1650553963; 1650814567; 1651010419; 1651402546; 1651470447; 1651663208; 1651663209;
   1651861353; 1651861604; 1652128365; 1667328877; 1667329651; 1667330665; 1667785069; 1667786098; 1667789427;
   1668247668; 1668312430; 1668313716; 1668903532; 1684370994; 1684371041; 1684627819; 1685022578; 1685287540;
   1685418092; 1701280112; 1701601889; 1701607789; 1702127721; 1734700914; 1735029298; 1735156071; 1735356007;
   1735356013; 1735357544; 1735549294; 1735550315; 1735748210; 1735750194; 1735750261; 1751215719; 1751215721;
   1751215727; 1751217266; 1751474802; 1751938423; 1752002151; 1752002160; 1752526439; 1769234796; 1784769903;
   1784772193; 1801546857; 1801547361; 1802002802; 1802005874; 1802006378; 1802073203; 1802396722; 1802396769;
   1802791017; 1818324577; 1818324768; 1818326126; 1818587235; 1818848610; 1818848865; 1818848866; 1818850165;
   1819894633; 1819894889; 1835100266; 1835101025; 1835101796; 1835101801; 1835102819; 1835103336; 1835361382;
   1835363940; 1835364963; 1835364975; 1835822386; 1835825517; 1836016745; 1836019303; 1836216175; 1836344681;
   1836412020; 1836413795; 1836674354; 1836674418; 1851879012; 1851880034; 1851941236; 1852143457; 1852534560;
   1853057141; 1869046125; 1869374315; 1869769576; 1869773106; 1869773153; 1869834085; 1869835617; 1869965170;
   1885432941; 1885435235; 1885696621; 1885888871; 1885891689; 1885891696; 1885892216; 1886155364; 1886549097;
   1919577703; 1919903847; 1920298610; 1935764850; 1935766114; 1935766898; 1936158327; 1936220535; 1936224868;
   1936286820; 1936289380; 1936289384; 1936680804; 1936680815; 1936683617; 1936685423; 1937075812; 1937337455;
   1937338979; 1952540514; 1952541554; 1952541797; 1952541813; 1952542060; 1952542311; 1952544372; 1952803890;
   1952803957; 1952869991; 1952935015; 1952997729; 1952997737; 1953063540; 1953067624; 1953328178; 1953395553;
   1953461359; 1969709426; 1986095392; 1986622568; 2002874977; 2003003503; 2020631919; 2020832632; 2036693609;
   2036932640; 2053205602 ].

(* fonttagdataids_p.h 292: kScriptIdCount *)
Definition kScriptIdCount : Z := 173.

(* fonttagdataids_p.h 1280-1309: hash_table of script_tag_to_id *)
Definition script_hash_table : list Z :=
  [
   45; 0; 162; 127; 94; 21; 140; 113; 122; 0; 0; 50; 65; 4; 126; 32; 124; 107; 78; 59; 0; 133; 128; 20; 101; 120; 0;
   51; 54; 55; 83; 0; 156; 154; 97; 144; 0; 109; 52; 6; 74; 151; 145; 23; 90; 73; 0; 42; 121; 79; 149; 115; 158; 164;
   0; 112; 30; 85; 46; 129; 0; 63; 0; 136; 40; 160; 0; 93; 138; 91; 71; 44; 26; 68; 170; 0; 29; 0; 49; 146; 0; 33;
   87; 0; 130; 11; 98; 0; 141; 36; 110; 0; 152; 105; 89; 18; 72; 69; 0; 53; 116; 0; 150; 96; 31; 1; 15; 0; 153; 171;
   0; 142; 0; 75; 111; 84; 157; 0; 16; 0; 0; 148; 134; 48; 0; 10; 0; 125; 80; 0; 0; 0; 39; 0; 0; 0; 88; 41; 0; 0;
   147; 5; 28; 132; 57; 38; 167; 19; 0; 17; 0; 0; 169; 95; 123; 0; 0; 0; 70; 47; 99; 0; 159; 67; 0; 0; 7; 8; 0; 0;
   131; 0; 0; 168; 62; 0; 161; 165; 0; 25; 27; 0; 155; 92; 0; 0; 137; 61; 0; 106; 0; 0; 0; 143; 117; 56; 119; 3; 0;
   0; 82; 0; 0; 102; 118; 0; 0; 77; 0; 0; 0; 86; 2; 0; 0; 64; 14; 135; 114; 43; 139; 0; 100; 163; 0; 24; 0; 60; 104;
   108; 0; 9; 34; 103; 0; 0; 172; 0; 0; 0; 0; 37; 35; 22; 0; 166; 13; 0; 12; 76; 81; 66; 0; 0; 58; 0 ].

(* fonttagdataids_p.h 1279-1309: script_tag_to_id *)
Definition script_tag_to_id (tag : Z) : outcome Z :=
  let h1 := Z.shiftr (w32 (tag * 516816048)) 24 in
  let h2 := Z.shiftr (w32 (tag * 670046653)) 24 in
  let* i1 := rd script_hash_table h1 in
  let* i2 := rd script_hash_table h2 in
  let index := kInvalidId in
  let* t := rd script_id_to_tag_table i1 in
  let index := if t =? tag then i1 else index in
  let* t := rd script_id_to_tag_table i2 in
  let index := if t =? tag then i2 else index in
  Ok index.

(* fonttagdataids.cpp 273-908: language_id_to_tag_table *)
Definition language_id_to_tag_table : list Z :=
  [
   1094861088; 1094863648; 1094928416; 1094930976; 1094998304; 1095125792; 1095127584; 1095194400; 1095323424;
   1095450912; 1095451168; 1095521056; 1095521312; 1095583776; 1095649056; 1095782472; 1095909664; 1095911200;
   1095911712; 1095912224; 1095978272; 1095980064; 1096042528; 1096175136; 1096176160; 1096237344; 1096371488;
   1096434208; 1096434976; 1111573536; 1111573552; 1111574304; 1111575584; 1111576096; 1111577120; 1111577888;
   1111638816; 1111642656; 1111705632; 1111708192; 1111775520; 1111837728; 1111837984; 1111838240; 1111966496;
   1111970080; 1111970336; 1112033568; 1112035104; 1112099616; 1112099872; 1112101664; 1112164896; 1112229408;
   1112295712; 1112296224; 1112296992; 1112298528; 1112359456; 1112362016; 1112494880; 1112561952; 1112687904;
   1112688672; 1112688928; 1112689952; 1112692768; 1112754208; 1112754976; 1112818720; 1112820000; 1112820512;
   1112821024; 1112822560; 1112823840; 1112824352; 1112885024; 1113151008; 1128352544; 1128354848; 1128418080;
   1128482894; 1128612384; 1128744736; 1128808736; 1128809760; 1128810272; 1128810528; 1128810784; 1128811296;
   1128811312; 1128812320; 1128812576; 1128813088; 1128813856; 1128814880; 1128939808; 1128942880; 1129140768;
   1129271328; 1129271840; 1129272096; 1129336864; 1129465120; 1129468448; 1129468960; 1129529888; 1129532448;
   1129535776; 1129596704; 1129600032; 1129663264; 1145128736; 1145130528; 1145131552; 1145133088; 1145262624;
   1145394464; 1145524000; 1145524768; 1145587488; 1145591328; 1145655584; 1145656864; 1145721376; 1145721392;
   1145980704; 1145981472; 1145981728; 1146243360; 1146440224; 1146441248; 1146768928; 1161972000; 1162039840;
   1162104608; 1162234144; 1162628128; 1162693408; 1162757920; 1163024928; 1163087904; 1163089184; 1163151648;
   1163219232; 1163283232; 1163284000; 1163347232; 1178684960; 1178684976; 1178685984; 1178686496; 1179209248;
   1179273504; 1179403552; 1179471904; 1179534624; 1179602464; 1179603744; 1179795744; 1179796256; 1179797792;
   1179798560; 1179799584; 1179926816; 1179995168; 1179997728; 1195459616; 1195459872; 1195460384; 1195461664;
   1195463200; 1195464480; 1195727392; 1195984928; 1195985952; 1195985968; 1196118048; 1196182304; 1196251680;
   1196314144; 1196377888; 1196379680; 1196576288; 1196576544; 1196769568; 1196770080; 1196770848; 1196771872;
   1196775968; 1212238112; 1212238128; 1212238880; 1212240416; 1212241184; 1212241696; 1212242208; 1212242464;
   1212304928; 1212500256; 1212502560; 1212763168; 1212763680; 1213022496; 1213023264; 1213025824; 1213026080;
   1213028896; 1213088800; 1213145120; 1213352224; 1213355552; 1213550112; 1213809952; 1213809968; 1229078816;
   1229079072; 1229082400; 1229213472; 1229606688; 1229735200; 1229737760; 1229865248; 1229866016; 1229866784;
   1229870368; 1229870411; 1229998880; 1230000200; 1230129440; 1230132256; 1230132512; 1230195744; 1230196000;
   1230258464; 1230459424; 1245793568; 1245793824; 1245795872; 1245859616; 1245926432; 1246316832; 1247101984;
   1247104032; 1262567968; 1262567984; 1262568224; 1262570528; 1262571040; 1262572064; 1262572576; 1262573344;
   1262574112; 1262765344; 1262829856; 1262830112; 1262832416; 1262961952; 1263026464; 1263029024; 1263029536;
   1263031072; 1263031328; 1263031840; 1263032096; 1263094560; 1263096352; 1263096608; 1263097120; 1263158304;
   1263161376; 1263163936; 1263226400; 1263291680; 1263354400; 1263357472; 1263357728; 1263358752; 1263360544;
   1263424032; 1263485984; 1263487008; 1263487776; 1263488288; 1263488544; 1263488560; 1263489056; 1263489568;
   1263489824; 1263491616; 1263553568; 1263683872; 1263684384; 1263684640; 1263684896; 1263685152; 1263686688;
   1263749152; 1263749168; 1263749408; 1263750432; 1263752992; 1263878432; 1263880480; 1263881248; 1263881504;
   1263882784; 1263883552; 1263884576; 1264012064; 1264143136; 1264145696; 1279345696; 1279346720; 1279347488;
   1279348000; 1279348512; 1279349792; 1279351328; 1279480352; 1279544096; 1279608352; 1279613472; 1279871520;
   1279872288; 1279872544; 1279873824; 1279938592; 1280002336; 1280131360; 1280131616; 1280134944; 1280136992;
   1280265504; 1280331552; 1280459552; 1280524832; 1280527648; 1280591904; 1280596512; 1280655648; 1280655904;
   1280657184; 1280657440; 1280659232; 1280723232; 1296122912; 1296123680; 1296123936; 1296124448; 1296124704;
   1296124960; 1296125216; 1296125472; 1296125984; 1296126496; 1296127776; 1296191008; 1296191264; 1296255008;
   1296257568; 1296319776; 1296323104; 1296387616; 1296388640; 1296449824; 1296450848; 1296649760; 1296652832;
   1296778272; 1296781856; 1296783136; 1296844064; 1296844576; 1296846368; 1296847392; 1296849184; 1296974880;
   1296975648; 1296976160; 1296976672; 1296980000; 1297041440; 1297042208; 1297042464; 1297042976; 1297043028;
   1297044000; 1297044256; 1297238304; 1297369120; 1297371936; 1297436192; 1297437472; 1297566752; 1297569568;
   1297698336; 1297763872; 1312900896; 1312901152; 1312902688; 1312903200; 1312903968; 1312904480; 1312904736;
   1313034784; 1313096224; 1313096480; 1313097504; 1313100576; 1313165344; 1313167136; 1313292576; 1313296928;
   1313358624; 1313428256; 1313428768; 1313557536; 1313558304; 1313621024; 1313817888; 1313818400; 1313821216;
   1313822240; 1314082080; 1314082592; 1314144544; 1314148128; 1314475296; 1314475552; 1314537760; 1329809696;
   1329812000; 1330266656; 1330792736; 1330794272; 1330860832; 1346453792; 1346455328; 1346456608; 1346456864;
   1346457120; 1346457632; 1346457648; 1346458400; 1346458912; 1346585376; 1346585632; 1346650912; 1346851360;
   1346915104; 1346979872; 1346980896; 1347176224; 1347177248; 1347244832; 1347306016; 1347373088; 1347374624;
   1347571488; 1347700512; 1347899168; 1363758624; 1364542240; 1364543520; 1364548128; 1364609312; 1364674592;
   1380010528; 1380012576; 1380078880; 1380143648; 1380272672; 1380468512; 1380532512; 1380533792; 1380537376;
   1380669216; 1380799264; 1380800800; 1380928800; 1380931872; 1381194016; 1381256480; 1381318944; 1381322272;
   1381322784; 1381323552; 1396786208; 1396788768; 1396790048; 1396790304; 1396791584; 1396919840; 1396920096;
   1396921120; 1397050144; 1397050400; 1397116192; 1397178656; 1397182240; 1397183264; 1397246240; 1397247520;
   1397309984; 1397310496; 1397311264; 1397445408; 1397446944; 1397506336; 1397511712; 1397574688; 1397575456;
   1397637408; 1397637424; 1397638176; 1397639200; 1397639968; 1397704480; 1397706784; 1397707808; 1397836064;
   1397899808; 1397900320; 1397902112; 1397903904; 1397967904; 1397968160; 1398034720; 1398098720; 1398099488;
   1398100512; 1398161696; 1398162720; 1398227232; 1398229792; 1398233632; 1398297632; 1398297888; 1398361120;
   1398362656; 1398362693; 1398362698; 1398362702; 1398426656; 1413562912; 1413564960; 1413565728; 1413567520;
   1413698080; 1413760032; 1413827616; 1413829664; 1413958688; 1413959200; 1413960224; 1413962016; 1414021408;
   1414026272; 1414087200; 1414092320; 1414155296; 1414221088; 1414285600; 1414350880; 1414352416; 1414414624;
   1414415648; 1414416160; 1414480928; 1414480944; 1414547744; 1414679328; 1414743840; 1414744608; 1414873376;
   1414876192; 1414876448; 1414878752; 1414941728; 1415006496; 1415141920; 1415204128; 1415204640; 1430539552;
   1430999584; 1431126560; 1431454752; 1431519776; 1431914272; 1431978528; 1447379744; 1447382560; 1447646240;
   1448037408; 1448234784; 1463885856; 1463895840; 1463898656; 1464027424; 1464029728; 1464159264; 1464616480;
   1464618528; 1465142560; 1480737824; 1481134880; 1481261600; 1481328160; 1481590560; 1481655584; 1481982496;
   1481984544; 1497451296; 1497452320; 1497452576; 1497514272; 1497584160; 1497845792; 1497973536; 1497976096;
   1498300704; 1498894624; 1514488096; 1514620960; 1514684704; 1514686496; 1514688544; 1514689312; 1514689568;
   1514689613; 1515078688; 1515539488; 1515864352 ].

(* fonttagdataids_p.h 952: kLanguageIdCount *)
Definition kLanguageIdCount : Z := 634.

(* fonttagdataids_p.h 1312-1398: hashTable1 of language_tag_to_id *)
Definition language_hashTable1 : list Z :=
  [
   0; 0; 0; 448; 0; 438; 549; 146; 0; 332; 0; 0; 0; 498; 0; 572; 478; 0; 190; 410; 387; 271; 0; 0; 265; 430; 46; 0;
   0; 596; 0; 585; 0; 0; 346; 232; 480; 293; 390; 286; 0; 0; 82; 0; 0; 472; 0; 50; 0; 0; 0; 216; 100; 0; 244; 0; 151;
   0; 0; 89; 65; 0; 0; 30; 135; 263; 210; 53; 0; 217; 0; 43; 0; 12; 579; 114; 132; 0; 0; 198; 536; 0; 237; 563; 136;
   211; 0; 0; 0; 0; 0; 0; 142; 423; 0; 0; 0; 0; 0; 0; 0; 192; 0; 466; 0; 376; 164; 0; 399; 447; 122; 40; 364; 226; 0;
   0; 586; 347; 328; 0; 196; 0; 131; 84; 0; 0; 403; 371; 55; 126; 0; 0; 629; 582; 507; 0; 0; 0; 0; 458; 0; 6; 0; 544;
   565; 0; 434; 0; 274; 298; 0; 0; 0; 0; 154; 249; 0; 0; 396; 504; 0; 0; 0; 0; 0; 0; 276; 383; 79; 474; 0; 157; 440;
   341; 518; 0; 0; 0; 0; 577; 623; 0; 479; 302; 0; 67; 449; 0; 0; 273; 149; 0; 344; 520; 0; 427; 0; 0; 0; 0; 349; 0;
   7; 386; 0; 0; 61; 452; 0; 0; 0; 56; 127; 21; 0; 0; 105; 424; 0; 202; 0; 395; 0; 0; 0; 456; 490; 0; 0; 0; 405; 556;
   614; 339; 372; 469; 607; 0; 208; 0; 188; 14; 115; 0; 0; 0; 72; 0; 0; 0; 0; 385; 375; 0; 0; 52; 218; 0; 167; 107;
   102; 358; 116; 484; 0; 75; 0; 193; 68; 166; 0; 562; 0; 0; 400; 0; 0; 108; 206; 516; 546; 0; 485; 0; 352; 0; 499;
   0; 454; 5; 64; 0; 0; 0; 272; 0; 0; 0; 0; 0; 508; 0; 0; 0; 0; 309; 113; 9; 0; 0; 96; 0; 435; 0; 212; 0; 160; 0;
   191; 0; 0; 0; 0; 106; 422; 32; 0; 0; 0; 300; 225; 0; 0; 165; 560; 163; 0; 0; 444; 343; 45; 169; 189; 363; 0; 0;
   13; 0; 241; 0; 194; 292; 130; 0; 245; 531; 463; 0; 0; 90; 49; 20; 517; 147; 215; 143; 0; 354; 0; 481; 229; 322; 0;
   239; 3; 0; 316; 57; 555; 0; 0; 155; 47; 19; 42; 591; 248; 11; 186; 327; 0; 199; 492; 0; 0; 569; 236; 0; 0; 541; 0;
   25; 124; 15; 0; 0; 0; 0; 0; 0; 0; 325; 73; 0; 0; 0; 0; 0; 0; 59; 0; 398; 446; 519; 0; 0; 255; 311; 0; 578; 502; 0;
   455; 139; 240; 584; 287; 213; 2; 0; 0; 0; 0; 172; 0; 0; 628; 16; 0; 77; 0; 603; 330; 112; 0; 0; 571; 0; 60; 222;
   0; 0; 429; 559; 0; 0; 587; 511; 0; 0; 331; 187; 0; 0; 0; 182; 0; 70; 618; 0; 275; 0; 161; 374; 58; 439; 22; 340;
   0; 0; 426; 34; 542; 576; 0; 0; 0; 0; 177; 0; 281; 0; 617; 529; 0; 0; 0; 258; 0; 144; 515; 0; 361; 0; 0; 305; 0; 0;
   453; 537; 0; 62; 0; 0; 80; 243; 0; 0; 0; 0; 583; 117; 0; 0; 432; 0; 0; 0; 0; 92; 0; 0; 223; 175; 0; 0; 593; 0; 0;
   48; 512; 118; 250; 0; 0; 443; 505; 0; 0; 299; 0; 0; 389; 0; 0; 162; 134; 543; 0; 0; 461; 581; 433; 203; 35; 357;
   0; 0; 0; 0; 0; 227; 0; 282; 0; 0; 380; 267; 525; 552; 123; 0; 205; 0; 120; 0; 580; 351; 0; 394; 296; 633; 413; 0;
   63; 381; 0; 314; 24; 554; 0; 608; 0; 0; 17; 0; 459; 0; 0; 0; 179; 138; 181; 477; 178; 224; 0; 0; 0; 0; 373; 345;
   0; 337; 119; 44; 141; 0; 0; 506; 200; 0; 97; 494; 0; 238; 319; 0; 475; 0; 158; 0; 0; 342; 0; 0; 204; 0; 0; 0; 0;
   0; 0; 0; 0; 0; 0; 284; 599; 0; 609; 370; 0; 0; 0; 588; 256; 0; 39; 99; 0; 36; 0; 150; 391; 76; 88; 436; 0; 535;
   589; 0; 262; 0; 0; 570; 257; 0; 41; 366; 0; 0; 125; 231; 0; 0; 66; 0; 83; 0; 0; 0; 0; 527; 0; 367; 0; 0; 252; 0;
   0; 0; 33; 0; 0; 324; 137; 514; 540; 0; 388; 280; 0; 406; 377; 133; 0; 214; 0; 0; 254; 482; 38; 0; 0; 233; 303;
   195; 294; 611; 0; 0; 0; 534; 312; 54; 0; 521; 338; 111; 0; 153; 101; 355; 246; 329; 0; 0; 0; 0; 489; 0; 0; 174; 0;
   264; 428; 269; 0; 0; 0; 0; 0; 0; 0; 501; 29; 228; 95; 0; 0; 0; 414; 0; 0; 0; 0; 0; 0; 0; 0; 0; 0; 0; 0; 0; 0; 0;
   0; 417; 392; 0; 278; 0; 412; 219; 0; 378; 0; 0; 0; 170; 510; 0; 626; 103; 0; 0; 348; 304; 197; 4; 0; 0; 488; 464;
   0; 404; 0; 23; 260; 0; 0; 176; 104; 0; 0; 201; 308; 0; 8; 419; 0; 91; 0; 279; 317; 0; 0; 0; 0; 0; 606; 437; 0; 0;
   0; 0; 0; 31; 209; 575; 416; 71; 0; 290; 0; 0; 384; 27; 0; 0; 441; 0; 0; 0; 81; 0; 0; 0; 98; 326; 74; 180; 0; 0;
   411; 568; 129; 173; 0; 266; 0; 0; 0; 0; 550; 462; 0; 0; 503; 350; 602; 0; 148; 0; 0; 85; 600; 0; 26; 0; 128; 51;
   207; 0; 0; 0; 253; 365; 0; 0; 0; 0; 574; 0; 93; 0; 601; 450; 1; 0; 533; 78; 0; 0; 0; 0; 145; 0; 360; 0; 184; 0; 0;
   0; 493; 0; 0; 0; 277; 0; 28; 0; 0; 0; 369; 285; 0; 168; 0; 625; 0; 0; 0; 0; 0; 630; 291; 0; 283; 0; 0; 0; 268; 0;
   242; 171; 0; 0; 140; 0; 0; 0; 353; 306; 457; 0; 0; 289; 87; 221; 564; 0; 0; 0; 261; 0; 0; 121; 18; 336; 0; 247;
   359; 185; 230; 10; 234; 94; 0; 69; 318; 0 ].

(* fonttagdataids_p.h 1312-1398: hashTable2 of language_tag_to_id *)
Definition language_hashTable2 : list Z :=
  [
   0; 0; 627; 313; 0; 335; 0; 408; 0; 595; 0; 0; 0; 0; 321; 0; 415; 0; 0; 613; 471; 0; 483; 0; 0; 0; 532; 0; 0; 0; 0;
   0; 0; 0; 0; 0; 0; 0; 0; 0; 526; 0; 0; 0; 0; 0; 0; 270; 0; 0; 86; 0; 451; 0; 0; 0; 0; 0; 0; 0; 0; 0; 0; 0; 0; 0; 0;
   0; 597; 0; 0; 0; 0; 0; 624; 0; 0; 0; 0; 0; 530; 0; 0; 0; 0; 0; 0; 0; 0; 0; 0; 539; 497; 323; 0; 159; 0; 0; 0; 0;
   0; 0; 0; 0; 0; 0; 0; 0; 598; 620; 183; 523; 0; 0; 0; 0; 0; 0; 402; 0; 0; 0; 0; 0; 0; 0; 0; 0; 0; 513; 0; 470; 0;
   407; 0; 251; 0; 0; 0; 612; 465; 0; 0; 592; 409; 0; 0; 0; 0; 491; 0; 0; 109; 0; 0; 0; 0; 0; 0; 0; 0; 558; 379; 0;
   0; 0; 619; 0; 0; 0; 0; 0; 0; 0; 0; 0; 0; 0; 0; 0; 0; 0; 0; 0; 0; 0; 0; 0; 0; 0; 0; 528; 0; 0; 0; 0; 0; 0; 0; 0; 0;
   0; 310; 0; 0; 594; 0; 0; 288; 0; 0; 356; 0; 0; 0; 0; 0; 0; 0; 0; 0; 0; 0; 0; 0; 0; 0; 0; 500; 259; 0; 0; 553; 0;
   0; 0; 397; 0; 545; 0; 0; 0; 0; 0; 0; 382; 0; 0; 0; 420; 0; 605; 152; 0; 0; 616; 0; 37; 561; 0; 0; 0; 295; 0; 476;
   362; 0; 0; 0; 487; 538; 0; 0; 0; 0; 0; 524; 156; 547; 0; 0; 0; 509; 0; 0; 0; 0; 0; 301; 220; 0; 0; 0; 0; 467; 334;
   610; 567; 0; 0; 0; 0; 0; 0; 0; 0; 0; 0; 0; 0; 0; 0; 0; 0; 0; 0; 431; 0; 320; 0; 0; 0; 0; 0; 0; 0; 0; 0; 0; 0; 0;
   0; 0; 0; 0; 393; 0; 0; 0; 0; 401; 0; 0; 0; 0; 0; 0; 0; 0; 0; 0; 0; 0; 0; 0; 0; 0; 621; 0; 0; 0; 0; 0; 573; 473; 0;
   0; 0; 0; 0; 0; 0; 557; 297; 0; 0; 0; 0; 0; 0; 0; 0; 0; 0; 0; 110; 551; 0; 445; 0; 460; 0; 0; 0; 0; 0; 425; 0; 368;
   0; 0; 0; 0; 590; 0; 0; 0; 0; 632; 0; 0; 495; 0; 0; 0; 0; 442; 0; 0; 0; 0; 0; 0; 566; 468; 0; 0; 0; 0; 631; 522; 0;
   0; 0; 333; 0; 0; 0; 0; 0; 0; 0; 421; 548; 622; 235; 0; 0; 0; 0; 0; 0; 0; 307; 0; 0; 0; 0; 0; 0; 0; 0; 0; 0; 0; 0;
   0; 0; 604; 0; 0; 0; 0; 0; 0; 0; 0; 0; 0; 0; 0; 0; 0; 0; 0; 0; 315; 0; 0; 0; 0; 486; 0; 0; 0; 0; 0; 0; 0; 418; 0;
   0; 615; 0; 0; 0; 0; 496; 0; 0; 0; 0 ].

(* fonttagdataids_p.h 1311-1398: language_tag_to_id *)
Definition language_tag_to_id (tag : Z) : outcome Z :=
  let h1 := Z.shiftr (w32 (tag * 78747468)) 22 in
  let h2 := Z.shiftr (w32 (tag * 3168659)) 23 in
  let* i1 := rd language_hashTable1 h1 in
  let* i2 := rd language_hashTable2 h2 in
  let index := kInvalidId in
  let* t := rd language_id_to_tag_table i1 in
  let index := if t =? tag then i1 else index in
  let* t := rd language_id_to_tag_table i2 in
  let index := if t =? tag then i2 else index in
  Ok index.

(* fonttagdataids.cpp 913-1155: feature_id_to_tag_table *)
Definition feature_id_to_tag_table : list Z :=
  [
   1633774708; 1633842790; 1633842797; 1633842803; 1634103907; 1634429038; 1651275622; 1651275629; 1651275635;
   1664249955; 1664250723; 1667329140; 1667330917; 1667460464; 1667654002; 1667790707; 1667916660; 1668049255;
   1668309876; 1668313968; 1668511592; 1668641395; 1668689969; 1668689970; 1668689971; 1668689972; 1668689973;
   1668689974; 1668689975; 1668689976; 1668689977; 1668690224; 1668690225; 1668690226; 1668690227; 1668690228;
   1668690229; 1668690230; 1668690231; 1668690232; 1668690233; 1668690480; 1668690481; 1668690482; 1668690483;
   1668690484; 1668690485; 1668690486; 1668690487; 1668690488; 1668690489; 1668690736; 1668690737; 1668690738;
   1668690739; 1668690740; 1668690741; 1668690742; 1668690743; 1668690744; 1668690745; 1668690992; 1668690993;
   1668690994; 1668690995; 1668690996; 1668690997; 1668690998; 1668690999; 1668691000; 1668691001; 1668691248;
   1668691249; 1668691250; 1668691251; 1668691252; 1668691253; 1668691254; 1668691255; 1668691256; 1668691257;
   1668691504; 1668691505; 1668691506; 1668691507; 1668691508; 1668691509; 1668691510; 1668691511; 1668691512;
   1668691513; 1668691760; 1668691761; 1668691762; 1668691763; 1668691764; 1668691765; 1668691766; 1668691767;
   1668691768; 1668691769; 1668692016; 1668692017; 1668692018; 1668692019; 1668692020; 1668692021; 1668692022;
   1668692023; 1668692024; 1668692025; 1668692272; 1668692273; 1668692274; 1668692275; 1668692276; 1668692277;
   1668692278; 1668692279; 1668692280; 1668692281; 1684632436; 1684826471; 1684959085; 1685351539; 1702391924;
   1717660788; 1718185522; 1718185523; 1718185569; 1718378851; 1718772067; 1719101796; 1751215206; 1751215214;
   1751215220; 1751741300; 1751871073; 1751935335; 1752065900; 1752132207; 1752656228; 1768843636; 1769172844;
   1769234796; 1784769652; 1785737268; 1785739064; 1785739315; 1785739568; 1801810542; 1818649188; 1818847073;
   1818914159; 1819178349; 1819239276; 1819570785; 1819570797; 1835102827; 1835361330; 1835361385; 1835496043;
   1835756907; 1836279156; 1851878516; 1852597099; 1853188980; 1853189490; 1869509997; 1869636196; 1869767790;
   1869770349; 1885432948; 1885561200; 1886088801; 1886287213; 1886545254; 1886545267; 1886614630; 1886614643;
   1886873956; 1903651172; 1918987876; 1919118452; 1919644262; 1919707495; 1919969382; 1920229988; 1920232545;
   1920232557; 1920295545; 1920365166; 1935764596; 1936289382; 1936292453; 1936548720; 1936552044; 1936928817;
   1936928818; 1936928819; 1936928820; 1936928821; 1936928822; 1936928823; 1936928824; 1936928825; 1936929072;
   1936929073; 1936929074; 1936929075; 1936929076; 1936929077; 1936929078; 1936929079; 1936929080; 1936929081;
   1936929328; 1936946297; 1937007464; 1937072755; 1937076339; 1937208168; 1953068140; 1953131887; 1953390957;
   1953396077; 1953653092; 1953982820; 1970170211; 1986096244; 1986098293; 1986226295; 1986359924; 1986552172;
   1986686319; 1986752097; 1986753134; 1987076460; 1987212338; 1987212402; 2053468783 ].

(* fonttagdataids_p.h 1206: kFeatureIdCount *)
Definition kFeatureIdCount : Z := 241.

(* fonttagdataids_p.h 1401-1436: hashTable1 of feature_tag_to_id *)
Definition feature_hashTable1 : list Z :=
  [
   30; 0; 40; 160; 50; 0; 60; 0; 70; 225; 80; 0; 90; 0; 100; 0; 110; 193; 120; 0; 204; 144; 23; 156; 33; 0; 43; 0;
   53; 186; 63; 139; 73; 0; 83; 163; 93; 137; 103; 184; 113; 166; 197; 145; 207; 0; 27; 143; 37; 175; 47; 0; 57; 129;
   67; 0; 77; 0; 87; 168; 97; 0; 107; 135; 117; 240; 201; 0; 211; 0; 0; 124; 0; 142; 149; 0; 0; 190; 0; 15; 146; 0;
   0; 126; 0; 3; 0; 0; 0; 154; 205; 127; 24; 136; 34; 13; 44; 8; 54; 20; 64; 12; 74; 170; 84; 234; 94; 133; 104; 191;
   114; 0; 198; 11; 208; 226; 28; 0; 38; 9; 48; 0; 58; 233; 68; 10; 78; 182; 88; 231; 98; 0; 108; 0; 118; 0; 202; 0;
   212; 237; 31; 187; 41; 0; 51; 150; 61; 125; 71; 0; 81; 0; 91; 235; 101; 134; 111; 123; 0; 219; 0; 128; 25; 158;
   35; 0; 45; 0; 55; 0; 65; 0; 75; 130; 85; 161; 95; 2; 105; 229; 115; 0; 199; 222; 209; 131; 29; 220; 39; 7; 49;
   195; 59; 138; 69; 221; 79; 173; 89; 1; 99; 0; 109; 0; 119; 153; 203; 188; 22; 192; 32; 6; 42; 174; 52; 0; 62; 14;
   72; 0; 82; 179; 92; 183; 102; 224; 112; 194; 0; 0; 206; 0; 26; 122; 36; 152; 46; 5; 56; 172; 66; 155; 76; 17; 86;
   4; 96; 0; 106; 140; 116; 0; 200; 0; 210; 0 ].

(* fonttagdataids_p.h 1401-1436: hashTable2 of feature_tag_to_id *)
Definition feature_hashTable2 : list Z :=
  [
   230; 0; 213; 214; 215; 16; 0; 147; 0; 0; 0; 162; 178; 0; 167; 238; 169; 0; 0; 0; 217; 0; 0; 227; 159; 132; 232;
   157; 181; 0; 223; 18; 165; 19; 218; 185; 121; 0; 0; 0; 0; 176; 0; 141; 0; 0; 216; 189; 236; 196; 177; 180; 148;
   164; 0; 171; 0; 228; 0; 0; 239; 21; 0; 151 ].

(* fonttagdataids_p.h 1400-1436: feature_tag_to_id *)
Definition feature_tag_to_id (tag : Z) : outcome Z :=
  let h1 := Z.shiftr (w32 (tag * 1174536694)) 24 in
  let h2 := Z.shiftr (w32 (tag * 46218148)) 26 in
  let* i1 := rd feature_hashTable1 h1 in
  let* i2 := rd feature_hashTable2 h2 in
  let index := kInvalidId in
  let* t := rd feature_id_to_tag_table i1 in
  let index := if t =? tag then i1 else index in
  let* t := rd feature_id_to_tag_table i2 in
  let index := if t =? tag then i2 else index in
  Ok index.

(* fonttagdataids.cpp 1160-1170: baseline_id_to_tag_table *)
Definition baseline_id_to_tag_table : list Z :=
  [
   1231251043; 1231315813; 1751215719; 1768121954; 1768121972; 1768187247; 1768191088; 1835103336; 1919905134 ].

(* fonttagdataids_p.h 1228: kBaselineIdCount *)
Definition kBaselineIdCount : Z := 9.

(* fonttagdataids_p.h 1439-1451: hash_table of baseline_tag_to_id *)
Definition baseline_hash_table : list Z :=
  [
   0; 1; 5; 0; 3; 4; 0; 0; 0; 2; 0; 0; 8; 0; 7; 6 ].

(* fonttagdataids_p.h 1438-1451: baseline_tag_to_id *)
Definition baseline_tag_to_id (tag : Z) : outcome Z :=
  let h1 := Z.shiftr (w32 (tag * 3145789)) 28 in
  let* i1 := rd baseline_hash_table h1 in
  let index := kInvalidId in
  let* t := rd baseline_id_to_tag_table i1 in
  let index := if t =? tag then i1 else index in
  Ok index.

(* fonttagdataids.cpp 1175-1181: variation_id_to_tag_table *)
Definition variation_id_to_tag_table : list Z :=
  [
   1769234796; 1869640570; 1936486004; 2003072104; 2003265652 ].

(* fonttagdataids_p.h 1246: kVariationIdCount *)
Definition kVariationIdCount : Z := 5.

(* fonttagdataids_p.h 1454-1466: hash_table of variation_tag_to_id *)
Definition variation_hash_table : list Z :=
  [
   0; 0; 0; 3; 4; 2; 1; 0 ].

(* fonttagdataids_p.h 1453-1466: variation_tag_to_id *)
Definition variation_tag_to_id (tag : Z) : outcome Z :=
  let h1 := Z.shiftr (w32 (tag * 119)) 29 in
  let* i1 := rd variation_hash_table h1 in
  let index := kInvalidId in
  let* t := rd variation_id_to_tag_table i1 in
  let index := if t =? tag then i1 else index in
  Ok index.

(* fonttagdatainfo_p.h 23: kInvalidFeatureBitId *)
Definition kInvalidFeatureBitId : Z := 63.

(* fonttagdatainfo.cpp 15-23: the ids FeatureInfoTableGen marks as enabled by default (enum values of
   fonttagdataids_p.h replaced by their numbers) *)
Definition feature_enabled_ids : list Z :=
  [11; 17; 19; 150; 152; 169; 191].

(* fonttagdatainfo.cpp 98-131: (FeatureId, bit id) pairs of FeatureInfoTableGen *)
Definition feature_bit_ids : list (Z * Z) :=
  [
   (12, 0); (17, 1); (18, 2); (19, 3); (122, 4); (123, 5); (125, 6); (126, 7); (131, 8); (132, 9); (135, 10);
   (136, 11); (141, 12); (145, 13); (150, 14); (152, 15); (154, 16); (168, 17); (170, 18); (172, 19); (173, 20);
   (190, 21); (195, 22); (219, 23); (220, 24); (222, 25); (224, 26); (225, 27); (228, 28); (229, 29); (236, 30);
   (240, 31) ].

(* fonttagdatainfo.cpp 12-137, fonttagdatainfo_p.h 25-33: feature_info_table, kFeatureIdCount + 1 entries of
   (enabled_by_default, bit_id); user_control is not modelled, nothing reads it *)
Record feature_info := { fi_enabled : bool; fi_bit_id : Z }.
Definition feature_info_at (id : Z) : feature_info :=
  {| fi_enabled := existsb (Z.eqb id) feature_enabled_ids;
     fi_bit_id := match find (fun p => fst p =? id) feature_bit_ids with Some p => snd p | None => kInvalidFeatureBitId end |}.
Definition feature_info_table : list feature_info :=
  map (fun i => feature_info_at (Z.of_nat i)) (seq 0 (S (Z.to_nat kFeatureIdCount))).
Definition has_bit_id (fi : feature_info) : bool := negb (fi_bit_id fi =? kInvalidFeatureBitId).

(* fonttagdatainfo.cpp 140-173: feature_bit_id_to_feature_id_table *)
Definition feature_bit_id_to_feature_id_table : list Z :=
  [
   12; 17; 18; 19; 122; 123; 125; 126; 131; 132; 135; 136; 141; 145; 150; 152; 154; 168; 170; 172; 173; 190; 195;
   219; 220; 222; 224; 225; 228; 229; 236; 240 ].
