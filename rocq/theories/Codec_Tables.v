(* Lookup tables of /repo/strtk.hpp, transcribed literally (decimal instead of hexadecimal). *)
From Verif Require Import Base.

(* /repo/strtk.hpp lines 4386-4420 *)
Definition hex_lut : list N :=
  [12336; 12592; 12848; 13104; 13360; 13616; 13872; 14128; 14384; 14640; 16688; 16944; 17200; 17456; 17712; 17968;
   12337; 12593; 12849; 13105; 13361; 13617; 13873; 14129; 14385; 14641; 16689; 16945; 17201; 17457; 17713; 17969;
   12338; 12594; 12850; 13106; 13362; 13618; 13874; 14130; 14386; 14642; 16690; 16946; 17202; 17458; 17714; 17970;
   12339; 12595; 12851; 13107; 13363; 13619; 13875; 14131; 14387; 14643; 16691; 16947; 17203; 17459; 17715; 17971;
   12340; 12596; 12852; 13108; 13364; 13620; 13876; 14132; 14388; 14644; 16692; 16948; 17204; 17460; 17716; 17972;
   12341; 12597; 12853; 13109; 13365; 13621; 13877; 14133; 14389; 14645; 16693; 16949; 17205; 17461; 17717; 17973;
   12342; 12598; 12854; 13110; 13366; 13622; 13878; 14134; 14390; 14646; 16694; 16950; 17206; 17462; 17718; 17974;
   12343; 12599; 12855; 13111; 13367; 13623; 13879; 14135; 14391; 14647; 16695; 16951; 17207; 17463; 17719; 17975;
   12344; 12600; 12856; 13112; 13368; 13624; 13880; 14136; 14392; 14648; 16696; 16952; 17208; 17464; 17720; 17976;
   12345; 12601; 12857; 13113; 13369; 13625; 13881; 14137; 14393; 14649; 16697; 16953; 17209; 17465; 17721; 17977;
   12353; 12609; 12865; 13121; 13377; 13633; 13889; 14145; 14401; 14657; 16705; 16961; 17217; 17473; 17729; 17985;
   12354; 12610; 12866; 13122; 13378; 13634; 13890; 14146; 14402; 14658; 16706; 16962; 17218; 17474; 17730; 17986;
   12355; 12611; 12867; 13123; 13379; 13635; 13891; 14147; 14403; 14659; 16707; 16963; 17219; 17475; 17731; 17987;
   12356; 12612; 12868; 13124; 13380; 13636; 13892; 14148; 14404; 14660; 16708; 16964; 17220; 17476; 17732; 17988;
   12357; 12613; 12869; 13125; 13381; 13637; 13893; 14149; 14405; 14661; 16709; 16965; 17221; 17477; 17733; 17989;
   12358; 12614; 12870; 13126; 13382; 13638; 13894; 14150; 14406; 14662; 16710; 16966; 17222; 17478; 17734; 17990]%N.

(* /repo/strtk.hpp lines 4476-4510 *)
Definition hex_to_bin_table : list N :=
  [0; 0; 0; 0; 0; 0; 0; 0; 0; 0; 0; 0; 0; 0; 0; 0;
   0; 0; 0; 0; 0; 0; 0; 0; 0; 0; 0; 0; 0; 0; 0; 0;
   0; 0; 0; 0; 0; 0; 0; 0; 0; 0; 0; 0; 0; 0; 0; 0;
   0; 1; 2; 3; 4; 5; 6; 7; 8; 9; 0; 0; 0; 0; 0; 0;
   0; 10; 11; 12; 13; 14; 15; 0; 0; 0; 0; 0; 0; 0; 0; 0;
   0; 0; 0; 0; 0; 0; 0; 0; 0; 0; 0; 0; 0; 0; 0; 0;
   0; 10; 11; 12; 13; 14; 15; 0; 0; 0; 0; 0; 0; 0; 0; 0;
   0; 0; 0; 0; 0; 0; 0; 0; 0; 0; 0; 0; 0; 0; 0; 0;
   0; 0; 0; 0; 0; 0; 0; 0; 0; 0; 0; 0; 0; 0; 0; 0;
   0; 0; 0; 0; 0; 0; 0; 0; 0; 0; 0; 0; 0; 0; 0; 0;
   0; 0; 0; 0; 0; 0; 0; 0; 0; 0; 0; 0; 0; 0; 0; 0;
   0; 0; 0; 0; 0; 0; 0; 0; 0; 0; 0; 0; 0; 0; 0; 0;
   0; 0; 0; 0; 0; 0; 0; 0; 0; 0; 0; 0; 0; 0; 0; 0;
   0; 0; 0; 0; 0; 0; 0; 0; 0; 0; 0; 0; 0; 0; 0; 0;
   0; 0; 0; 0; 0; 0; 0; 0; 0; 0; 0; 0; 0; 0; 0; 0;
   0; 0; 0; 0; 0; 0; 0; 0; 0; 0; 0; 0; 0; 0; 0; 0]%N.

(* /repo/strtk.hpp lines 4630-4664 *)
Definition base64_to_bin_table : list N :=
  [255; 255; 255; 255; 255; 255; 255; 255; 255; 255; 255; 255; 255; 255; 255; 255;
   255; 255; 255; 255; 255; 255; 255; 255; 255; 255; 255; 255; 255; 255; 255; 255;
   255; 255; 255; 255; 255; 255; 255; 255; 255; 255; 255; 62; 255; 255; 255; 63;
   52; 53; 54; 55; 56; 57; 58; 59; 60; 61; 255; 255; 255; 255; 255; 255;
   255; 0; 1; 2; 3; 4; 5; 6; 7; 8; 9; 10; 11; 12; 13; 14;
   15; 16; 17; 18; 19; 20; 21; 22; 23; 24; 25; 255; 255; 255; 255; 255;
   255; 26; 27; 28; 29; 30; 31; 32; 33; 34; 35; 36; 37; 38; 39; 40;
   41; 42; 43; 44; 45; 46; 47; 48; 49; 50; 51; 255; 255; 255; 255; 255;
   255; 255; 255; 255; 255; 255; 255; 255; 255; 255; 255; 255; 255; 255; 255; 255;
   255; 255; 255; 255; 255; 255; 255; 255; 255; 255; 255; 255; 255; 255; 255; 255;
   255; 255; 255; 255; 255; 255; 255; 255; 255; 255; 255; 255; 255; 255; 255; 255;
   255; 255; 255; 255; 255; 255; 255; 255; 255; 255; 255; 255; 255; 255; 255; 255;
   255; 255; 255; 255; 255; 255; 255; 255; 255; 255; 255; 255; 255; 255; 255; 255;
   255; 255; 255; 255; 255; 255; 255; 255; 255; 255; 255; 255; 255; 255; 255; 255;
   255; 255; 255; 255; 255; 255; 255; 255; 255; 255; 255; 255; 255; 255; 255; 255;
   255; 255; 255; 255; 255; 255; 255; 255; 255; 255; 255; 255; 255; 255; 255; 255]%N.

(* /repo/strtk.hpp lines 4734-4768 *)
Definition printable_char_table : list N :=
  [46; 46; 46; 46; 46; 46; 46; 46; 46; 46; 46; 46; 46; 46; 46; 46;
   46; 46; 46; 46; 46; 46; 46; 46; 46; 46; 46; 46; 46; 46; 46; 46;
   46; 33; 34; 35; 36; 37; 38; 39; 40; 41; 42; 43; 44; 45; 46; 47;
   48; 49; 50; 51; 52; 53; 54; 55; 56; 57; 58; 59; 60; 61; 62; 63;
   64; 65; 66; 67; 68; 69; 70; 71; 72; 73; 74; 75; 76; 77; 78; 79;
   80; 81; 82; 83; 84; 85; 86; 87; 88; 89; 90; 91; 92; 93; 94; 95;
   96; 97; 98; 99; 100; 101; 102; 103; 104; 105; 106; 107; 108; 109; 110; 111;
   112; 113; 114; 115; 116; 117; 118; 119; 120; 121; 122; 123; 124; 125; 126; 46;
   46; 46; 46; 46; 46; 46; 46; 46; 46; 46; 46; 46; 46; 46; 46; 46;
   46; 46; 46; 46; 46; 46; 46; 46; 46; 46; 46; 46; 46; 46; 46; 46;
   46; 46; 46; 46; 46; 46; 46; 46; 46; 46; 46; 46; 46; 46; 46; 46;
   46; 46; 46; 46; 46; 46; 46; 46; 46; 46; 46; 46; 46; 46; 46; 46;
   46; 46; 46; 46; 46; 46; 46; 46; 46; 46; 46; 46; 46; 46; 46; 46;
   46; 46; 46; 46; 46; 46; 46; 46; 46; 46; 46; 46; 46; 46; 46; 46;
   46; 46; 46; 46; 46; 46; 46; 46; 46; 46; 46; 46; 46; 46; 46; 46;
   46; 46; 46; 46; 46; 46; 46; 46; 46; 46; 46; 46; 46; 46; 46; 46]%N.

(* /repo/strtk.hpp lines 4868-4902 *)
Definition interleave_table : list N :=
  [0; 1; 4; 5; 16; 17; 20; 21; 64; 65; 68; 69; 80; 81; 84; 85;
   256; 257; 260; 261; 272; 273; 276; 277; 320; 321; 324; 325; 336; 337; 340; 341;
   1024; 1025; 1028; 1029; 1040; 1041; 1044; 1045; 1088; 1089; 1092; 1093; 1104; 1105; 1108; 1109;
   1280; 1281; 1284; 1285; 1296; 1297; 1300; 1301; 1344; 1345; 1348; 1349; 1360; 1361; 1364; 1365;
   4096; 4097; 4100; 4101; 4112; 4113; 4116; 4117; 4160; 4161; 4164; 4165; 4176; 4177; 4180; 4181;
   4352; 4353; 4356; 4357; 4368; 4369; 4372; 4373; 4416; 4417; 4420; 4421; 4432; 4433; 4436; 4437;
   5120; 5121; 5124; 5125; 5136; 5137; 5140; 5141; 5184; 5185; 5188; 5189; 5200; 5201; 5204; 5205;
   5376; 5377; 5380; 5381; 5392; 5393; 5396; 5397; 5440; 5441; 5444; 5445; 5456; 5457; 5460; 5461;
   16384; 16385; 16388; 16389; 16400; 16401; 16404; 16405; 16448; 16449; 16452; 16453; 16464; 16465; 16468; 16469;
   16640; 16641; 16644; 16645; 16656; 16657; 16660; 16661; 16704; 16705; 16708; 16709; 16720; 16721; 16724; 16725;
   17408; 17409; 17412; 17413; 17424; 17425; 17428; 17429; 17472; 17473; 17476; 17477; 17488; 17489; 17492; 17493;
   17664; 17665; 17668; 17669; 17680; 17681; 17684; 17685; 17728; 17729; 17732; 17733; 17744; 17745; 17748; 17749;
   20480; 20481; 20484; 20485; 20496; 20497; 20500; 20501; 20544; 20545; 20548; 20549; 20560; 20561; 20564; 20565;
   20736; 20737; 20740; 20741; 20752; 20753; 20756; 20757; 20800; 20801; 20804; 20805; 20816; 20817; 20820; 20821;
   21504; 21505; 21508; 21509; 21520; 21521; 21524; 21525; 21568; 21569; 21572; 21573; 21584; 21585; 21588; 21589;
   21760; 21761; 21764; 21765; 21776; 21777; 21780; 21781; 21824; 21825; 21828; 21829; 21840; 21841; 21844; 21845]%N.

(* /repo/strtk.hpp lines 5014-5032 *)
Definition high_bits_in_char : list N :=
  [0; 1; 1; 2; 1; 2; 2; 3; 1; 2; 2; 3; 2; 3; 3; 4;
   1; 2; 2; 3; 2; 3; 3; 4; 2; 3; 3; 4; 3; 4; 4; 5;
   1; 2; 2; 3; 2; 3; 3; 4; 2; 3; 3; 4; 3; 4; 4; 5;
   2; 3; 3; 4; 3; 4; 4; 5; 3; 4; 4; 5; 4; 5; 5; 6;
   1; 2; 2; 3; 2; 3; 3; 4; 2; 3; 3; 4; 3; 4; 4; 5;
   2; 3; 3; 4; 3; 4; 4; 5; 3; 4; 4; 5; 4; 5; 5; 6;
   2; 3; 3; 4; 3; 4; 4; 5; 3; 4; 4; 5; 4; 5; 5; 6;
   3; 4; 4; 5; 4; 5; 5; 6; 4; 5; 5; 6; 5; 6; 6; 7;
   1; 2; 2; 3; 2; 3; 3; 4; 2; 3; 3; 4; 3; 4; 4; 5;
   2; 3; 3; 4; 3; 4; 4; 5; 3; 4; 4; 5; 4; 5; 5; 6;
   2; 3; 3; 4; 3; 4; 4; 5; 3; 4; 4; 5; 4; 5; 5; 6;
   3; 4; 4; 5; 4; 5; 5; 6; 4; 5; 5; 6; 5; 6; 6; 7;
   2; 3; 3; 4; 3; 4; 4; 5; 3; 4; 4; 5; 4; 5; 5; 6;
   3; 4; 4; 5; 4; 5; 5; 6; 4; 5; 5; 6; 5; 6; 6; 7;
   3; 4; 4; 5; 4; 5; 5; 6; 4; 5; 5; 6; 5; 6; 6; 7;
   4; 5; 5; 6; 5; 6; 6; 7; 5; 6; 6; 7; 6; 7; 7; 8]%N.

(* /repo/strtk.hpp line 4565 *)
Definition bin_to_base64_table : list ascii :=
  str "ABCDEFGHIJKLMNOPQRSTUVWXYZabcdefghijklmnopqrstuvwxyz0123456789+/".
