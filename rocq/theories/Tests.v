(** The unit-test vectors of the repository, run against the model.  These are
    checks of the model's fidelity on recorded inputs and outputs of the Go code,
    not proofs of properties: each test is a boolean, and the [Check] below it fails
    to compile when the boolean is not true.  Generated from the *_test.go files. *)
From Verif Require Import GoBase Util NttTables Ntt Encoding Params Xof Falcon Ntrugen.

Fixpoint leq {A} (eq : A -> A -> bool) (l m : list A) : bool :=
  match l, m with
  | [], [] => true
  | x :: l, y :: m => eq x y && leq eq l m
  | _, _ => false
  end.
Definition same {A} (eq : A -> A -> bool) (r : res A) (x : A) : bool :=
  match r with Ok y => eq y x | _ => false end.
Definition eqpair (p q : list Z * list Z) : bool := leq Z.eqb (fst p) (fst q) && leq Z.eqb (snd p) (snd q).
Definition eq3 (p q : Z * Z * Z) : bool :=
  let '(a, b, c) := p in let '(x, y, z) := q in (a =? x) && (b =? y) && (c =? z).
Definition too_long (r : res (list Z)) : bool := match r with Err ErrEncodingTooLong => true | _ => false end.

(** encoding_test.go, TestCompress *)
Definition test_compress_1 : bool :=
  same (leq Z.eqb) (Compress [176; (-210); 53; 15; (-91); (-305); 324; 252; (-30); 5; (-83); 272;
  0; 93; (-117); 196; 22; 229; (-217); (-204); 5; (-232); 61; (-203); (-27); (-129); 28; (-42);
  81; 20; (-23); (-88); 255; (-75); 10; 233; 54; 1; 32; 48; 157; (-124); (-231); (-159); (-123);
  94; (-112); (-246); 146; 46; (-179); 282; (-67); 114; (-139); (-122); (-51); 443; 171; 23; 397;
  180; (-15); 67] 81) [48; 116; 147; 88; 127; 111; 98; 81; 11; 227; 61; 5; 233; 196; 8; 5; 119;
  235; 68; 69; 172; 174; 203; 152; 130; 250; 19; 222; 91; 55; 129; 71; 53; 85; 24; 166; 95; 177;
  127; 114; 225; 86; 148; 218; 3; 32; 152; 71; 95; 207; 59; 62; 253; 215; 190; 31; 100; 73; 46;
  217; 163; 71; 14; 229; 139; 126; 182; 115; 177; 43; 69; 225; 162; 104; 199; 208; 224; 0; 0; 0;
  0].
Definition test_compress_1_result : bool := Eval vm_compute in test_compress_1.
Check (eq_refl : test_compress_1_result = true).

(** encoding_test.go, TestCompress *)
Definition test_compress_2 : bool :=
  too_long (Compress [128; 256; 512; 1024] 2).
Definition test_compress_2_result : bool := Eval vm_compute in test_compress_2.
Check (eq_refl : test_compress_2_result = true).

(** encoding_test.go, TestDecompress *)
Definition test_decompress : bool :=
  same (leq Z.eqb) (Decompress [85; 198; 106; 215; 19; 11; 127; 229; 79; 178; 214; 39; 138; 192;
  231; 81; 170; 61; 121; 143; 220; 161; 182; 200; 11; 137; 218; 228; 105; 90; 136; 246; 119; 125;
  14; 67; 93; 170; 47; 204; 180; 202; 202; 135; 115; 65; 237; 179; 226; 160; 48; 130; 206; 158;
  255; 162; 2; 104; 178; 235; 203; 11; 237; 169; 164; 165; 145; 239; 44; 43; 240; 147; 37; 235;
  115; 159; 0; 0; 0; 0; 0] 81 64) [85; (-12); (-171); 369; (-5); 127; (-74); 62; (-22); 226;
  (-98); 224; (-78); 70; 81; (-87); 49; (-375); 195; (-182); 129; (-68); (-90); (-72); (-165);
  (-40); 30; (-29); (-62); 142; 141; (-90); 69; (-371); 105; 299; 80; (-92); (-32); (-109); 103;
  (-10); 1; 264; 231; 61; (-126); 400; 180; 101; (-303); 225; (-118); (-41); 201; 44; 30; (-101);
  10; (-248); 166; 175; 238; (-79)].
Definition test_decompress_result : bool := Eval vm_compute in test_decompress.
Check (eq_refl : test_decompress_result = true).

(** ntt_test.go *)
Definition test_splitntt : bool :=
  same eqpair (SplitNTT wrap64 [3939; 2677; 11200; 4209; 2466; 6959; 1240; 7371; 6986; 12239;
  6519; 6395; 4602; 1017; 3321; 11933; 1661; 7775; 11622; 3326; 11465; 2982; 10302; 7820; 4577;
  8576; 4596; 11808; 253; 11731; 4487; 10346; 7645; 4006; 1759; 5191; 6694; 549; 10455; 284; 254;
  10980; 8351; 1635; 11850; 639; 4590; 930; 4487; 8469; 6684; 4109; 11974; 8727; 12166; 5650; 488;
  1526; 10017; 8232; 9372; 8745; 8328; 7200]) ([3308; 1560; 10857; 10450; 3468; 6457; 8954; 7627;
  4718; 7474; 1079; 9061; 432; 8202; 5992; 1272; 11970; 3475; 9766; 11514; 5617; 4993; 100; 2760;
  6478; 11541; 4206; 8908; 1007; 2980; 2914; 7764], [8861; 10812; 7909; 11265; 7898; 2254; 10036;
  154; 6942; 4243; 2201; 2253; 5835; 1135; 10773; 6278; 2452; 8149; 8454; 10927; 3395; 3103; 5255;
  11527; 8497; 3563; 6143; 1982; 9043; 8927; 2812; 7063]).
Definition test_splitntt_result : bool := Eval vm_compute in test_splitntt.
Check (eq_refl : test_splitntt_result = true).

(** ntt_test.go *)
Definition test_mergentt : bool :=
  same (leq Z.eqb) (MergeNTT wrap64 [8004; 7347; 7803; 11039; 26; 2625; 1462; 10986] [3839; 4177;
  7889; 1851; 793; 2711; 1108; 2226]) [10452; 5556; 6803; 7891; 6125; 9481; 1686; 8103; 2815;
  9526; 245; 5005; 570; 2354; 5940; 3743].
Definition test_mergentt_result : bool := Eval vm_compute in test_mergentt.
Check (eq_refl : test_mergentt_result = true).

(** ntt_test.go *)
Definition test_ntt : bool :=
  same (leq Z.eqb) (NTT wrap64 [6; 16; 18; 2; 1; (-12); 0; (-8); (-5); 4; (-7); 4; (-3); (-16); 5;
  (-2); (-4); 8; (-2); 13; 3; 7; (-1); 23; (-5); (-1); 3; 5; 15; (-11); (-14); 3; 5; 3; 22; 7;
  (-5); 8; (-13); 7; 29; (-8); (-5); 5; (-13); (-4); 5; (-10); 8; 12; (-4); (-12); (-6); (-14);
  (-10); (-1); 3; 18; 5; (-18); (-3); (-22); 4; (-1)]) [7240; 2879; 8083; 3554; 9076; 6551; 11595;
  506; 3194; 1371; 2545; 3517; 149; 11448; 10518; 3558; 11894; 1662; 7035; 9177; 11143; 1313;
  7889; 2734; 8844; 1685; 4852; 11078; 1723; 6222; 11345; 3296; 4428; 1204; 9419; 9817; 6393;
  1683; 678; 384; 1703; 5192; 10902; 183; 3426; 8843; 5381; 9857; 8744; 4422; 2109; 4983; 1138;
  4022; 9749; 7982; 10322; 9819; 3417; 1566; 5303; 626; 8611; 6783].
Definition test_ntt_result : bool := Eval vm_compute in test_ntt.
Check (eq_refl : test_ntt_result = true).

(** ntt_test.go *)
Definition test_intt : bool :=
  same (leq Z.eqb) (INTT wrap64 [2332; 7409; 12005; 7250; 3227; 335; 6435; 10147; 5857; 1252;
  4420; 1366; 6800; 4521; 6249; 7884; 486; 5823; 8168; 4353; 2331; 606; 11510; 10802; 8834; 2624;
  4785; 11609; 5315; 6218; 11704; 5780; 4068; 581; 6656; 9799; 7516; 2616; 9354; 12101; 3893; 113;
  8307; 5039; 8472; 1648; 8264; 8033; 4618; 3081; 2246; 2325; 11645; 2835; 7075; 10465; 8398;
  2511; 1553; 362; 12013; 6985; 7244; 7124; 3110; 5896; 4146; 11144; 6186; 5565; 4419; 6123; 1575;
  1775; 3903; 3151; 10879; 5134; 860; 4667; 5915; 7740; 10494; 10935; 11918; 4047; 7387; 8973;
  8654; 8057; 7059; 5539; 8767; 3671; 2254; 6545; 11984; 7; 1641; 5519; 10601; 9439; 1749; 11401;
  5390; 793; 4626; 9418; 4979; 3738; 8228; 10324; 8014; 8319; 584; 583; 1736; 10682; 10684; 530;
  3002; 7313; 9630; 2357; 10695; 9310; 7745; 5382; 417; 1426; 2356; 9332; 3245; 5500; 4510; 2648;
  9442; 7690; 6559; 984; 7566; 2342; 8802; 11252; 10476; 6535; 8599; 268; 2362; 2373; 8488; 2329;
  10413; 4880; 5039; 7648; 9604; 1237; 2383; 2398; 10719; 8010; 985; 6232; 10384; 9488; 3010;
  8371; 2992; 2838; 2568; 6089; 4600; 11970; 334; 4133; 11444; 4887; 4530; 7615; 11875; 3993; 944;
  8802; 10221; 2384; 3174; 11732; 10949; 2679; 8691; 8469; 11379; 4700; 1035; 10840; 10121; 9484;
  10405; 6795; 3406; 11328; 8538; 10221; 7310; 1741; 3528; 9549; 5210; 4953; 1005; 5302; 6056;
  2565; 4741; 2354; 6264; 2408; 5961; 12156; 12162; 4565; 7757; 3714; 329; 2267; 6076; 9150; 4519;
  6762; 2604; 6084; 6470; 1644; 11914; 2562; 7820; 5608; 8416; 2146; 4485; 422; 8735; 9540; 7041;
  8895; 11594; 12012; 88; 10922; 4695; 3147; 1299; 3530; 3331; 4218; 11091; 11010; 728; 6884;
  11563; 11031; 4824; 5723; 8508; 10062; 12106; 6397; 11630; 11141; 4943; 7872; 7683; 11051;
  11946; 8831; 6308; 8078; 8852; 11311; 9907; 3175; 8133; 8021; 11536; 6802; 11823; 1337; 4888;
  9659; 3863; 5047; 7862; 3902; 10135; 3908; 11106; 4276; 5351; 7397; 8130; 1088; 2872; 10111;
  8123; 12170; 3645; 11534; 9015; 8625; 1932; 5593; 10834; 1512; 301; 10799; 3032; 934; 3194;
  9373; 10500; 3620; 9601; 8955; 3237; 3173; 4347; 3382; 3678; 5858; 9442; 9243; 4009; 2118; 2404;
  11083; 10062; 5441; 5251; 11287; 9604; 2246; 7680; 1105; 5048; 7090; 4683; 6654; 531; 3569;
  6575; 9283; 7876; 5908; 4364; 8359; 12237; 4427; 10531; 2707; 5105; 2248; 1337; 8549; 8339;
  11000; 5506; 9445; 443; 9182; 8820; 4880; 2264; 205; 7832; 11195; 9884; 3354; 9738; 7436; 11928;
  1551; 9912; 6056; 8818; 690; 580; 4519; 10698; 8477; 4529; 4744; 6781; 4621; 3805; 4337; 1102;
  8944; 10526; 169; 1544; 9827; 9694; 6102; 4841; 1373; 8197; 8169; 11986; 7546; 3245; 876; 5959;
  9157; 404; 10632; 4004; 8151; 5660; 837; 3624; 2138; 1052; 10001; 1253; 11; 3527; 9714; 10429;
  11538; 5860; 2397; 5041; 7875; 5337; 4929; 11723; 7805; 7121; 9507; 7515; 7539; 11606; 11462;
  2254; 3589; 3020; 2909; 6753; 5650; 2419; 5059; 864; 1690; 8062; 3893; 7748; 8396; 10408; 1387;
  11891; 3615; 5153; 8865; 9590; 570; 2335; 8274; 9503; 12267; 933; 5483; 11923; 9821; 2874; 6737;
  3332; 1470; 7329; 6314; 10586; 10921; 10991; 6309; 10161; 4306; 118; 6027; 3117; 10205; 9503;
  1799; 5822; 2937; 12238; 8194; 437; 2020; 5499; 1104; 1950; 1037; 11446; 781; 9541; 8255; 15;
  7936; 3658; 910; 10853; 1645]) [11496; 8750; 6367; 8513; 9698; 2801; 11184; 7720; 3044; 6551;
  12169; 6495; 2608; 10601; 3965; 2608; 6931; 5266; 5015; 11190; 11904; 11241; 2735; 6906; 7831;
  6600; 4500; 9359; 4245; 5436; 8774; 2589; 4561; 8983; 696; 8332; 4550; 1996; 2855; 7575; 2429;
  2784; 869; 12283; 7148; 11327; 8000; 2406; 9422; 7003; 9693; 10658; 1286; 7617; 240; 1465; 4821;
  9727; 6893; 10912; 4320; 10947; 11575; 5020; 1246; 9103; 12228; 982; 1652; 5442; 5066; 1984;
  5969; 10958; 11600; 6828; 10785; 9074; 11562; 8427; 7384; 10225; 3146; 9884; 227; 10528; 6914;
  7012; 11418; 618; 2344; 2442; 12118; 1590; 4659; 9; 6054; 2974; 1062; 7889; 7428; 11552; 10955;
  3953; 11650; 5488; 3360; 6419; 2018; 7855; 11937; 10273; 11760; 10619; 2946; 9827; 1391; 5288;
  10081; 7879; 436; 2821; 10976; 4719; 3805; 9319; 9630; 2921; 4919; 11006; 8476; 822; 3362; 6488;
  3539; 2966; 9066; 11199; 3581; 6766; 9874; 5432; 8230; 1904; 10886; 9536; 650; 3017; 8013; 3273;
  11999; 10043; 9288; 8661; 3001; 9709; 1944; 7455; 3436; 5174; 887; 5047; 7710; 10546; 5349;
  11586; 10870; 6055; 587; 5456; 2913; 7852; 4569; 89; 11242; 6656; 7772; 5474; 11556; 1074; 5017;
  8253; 6103; 11848; 4716; 6126; 4405; 5651; 6845; 369; 11740; 7603; 7746; 7584; 915; 6450; 9542;
  10494; 256; 9124; 4106; 8698; 7618; 1531; 11543; 9513; 1711; 1120; 6401; 11319; 947; 7814; 4649;
  7342; 10521; 1379; 7114; 4336; 6053; 6221; 1914; 3752; 8195; 10946; 5208; 1259; 11370; 6416;
  5131; 5381; 8682; 7596; 8281; 2484; 11339; 11788; 7058; 5553; 2273; 6449; 608; 11847; 4196;
  2901; 12045; 6603; 3256; 9934; 7986; 8114; 11513; 907; 8637; 6623; 4668; 4038; 11237; 5537;
  4283; 6388; 6134; 8930; 2128; 2128; 2963; 7004; 8973; 7762; 171; 10591; 7196; 745; 2586; 2633;
  10421; 8891; 3400; 4224; 2007; 4723; 10362; 2104; 8976; 722; 11441; 2652; 6325; 6241; 2988;
  11748; 7855; 9040; 7088; 9407; 9770; 867; 2077; 4362; 12110; 1082; 1850; 4862; 4330; 10985;
  5379; 10483; 7677; 2619; 2355; 3252; 2103; 6398; 11488; 3782; 3245; 9556; 5907; 4738; 8334;
  8587; 6139; 5343; 6495; 8498; 7104; 10335; 8532; 10159; 8308; 9264; 10616; 12269; 4354; 1430;
  4838; 1508; 10559; 2651; 6956; 11497; 8752; 1131; 2791; 4011; 4253; 3438; 9498; 5714; 10445;
  10070; 5480; 5019; 6473; 7725; 1261; 3066; 198; 7815; 2246; 3496; 8064; 739; 5866; 5569; 11456;
  2244; 668; 8395; 5445; 2772; 4408; 9293; 11014; 761; 3718; 11571; 3404; 368; 3579; 10321; 6736;
  11875; 10187; 529; 280; 2368; 2568; 4932; 6205; 7260; 7792; 7205; 11919; 1381; 11963; 3502;
  11363; 7457; 9950; 4892; 10373; 5957; 10007; 711; 11549; 2571; 8529; 8934; 5748; 4109; 6209;
  5302; 5566; 1970; 3825; 7545; 351; 11519; 7545; 2503; 3567; 1449; 2813; 4183; 7617; 12054; 6684;
  8500; 1397; 2228; 4403; 10069; 7801; 4417; 9204; 1364; 3084; 3708; 8282; 9585; 5338; 10093;
  4234; 6005; 8209; 1525; 3841; 5204; 2613; 2267; 3108; 8948; 8153; 7531; 7324; 9187; 2570; 684;
  4422; 5060; 8768; 11619; 3214; 707; 7175; 5379; 169; 4774; 6508; 6510; 3021; 11514; 179; 4509;
  3931; 3453; 7772; 4992; 4043; 12029; 8039; 9766; 8752; 5730; 5298; 2055; 8370; 9754; 2872; 731;
  9288; 2970; 315; 5281; 10632; 4920; 609; 5117; 4981; 3040; 9677; 1530; 695; 10176; 5260; 3336;
  2120; 6452; 6772; 3911; 5640; 4868].
Definition test_intt_result : bool := Eval vm_compute in test_intt.
Check (eq_refl : test_intt_result = true).

(** ntt_test.go *)
Definition test_mulzq : bool :=
  same (leq Z.eqb) (MulZq wrap64 [8173; 9288; 1590; 10128; 3084; 11944; 3606; 10686; 1970; 5869;
  9412; 140; 11666; 2063; 10469; 9482; 5393; 3486; 279; 9752; 7504; 1934; 4105; 641; 11007; 2434;
  9924; 5108; 280; 3916; 12015; 7646; 10652; 248; 2954; 10166; 9840; 6328; 8722; 8720; 10009; 994;
  10537; 3421; 3761; 11383; 8013; 11461; 3771; 5797; 6249; 5616; 6687; 9604; 7471; 3691; 5776;
  5559; 11620; 11819; 4386; 892; 5073; 9515] [10799; 6047; 4981; 12251; 3728; 271; 10710; 2031;
  1507; 11686; 7495; 5929; 10484; 657; 118; 312; 697; 10761; 4697; 8764; 5858; 1422; 3398; 106;
  2720; 7658; 11637; 614; 5677; 605; 2383; 1344; 10035; 12069; 4676; 1060; 8957; 8276; 7946; 9156;
  10292; 6859; 9726; 7405; 6724; 6479; 4142; 3929; 10225; 4815; 982; 5536; 2312; 5176; 6962; 4888;
  4932; 6558; 11804; 8035; 3279; 10832; 244; 3188]) [8830; 5637; 956; 5582; 228; 10121; 8668;
  5598; 6720; 8223; 3172; 5855; 313; 276; 4711; 9208; 8306; 9632; 6807; 7926; 6697; 11265; 5252;
  10179; 9448; 6155; 5237; 7870; 11273; 4691; 4263; 10665; 10911; 5101; 5412; 1766; 10254; 6255;
  6518; 11467; 10913; 5024; 3669; 7762; 5661; 3878; 5243; 2454; 1903; 11724; 10208; 4252; 5305;
  38; 7318; 8396; 4810; 7170; 9086; 8240; 1744; 927; 5886; 11965].
Definition test_mulzq_result : bool := Eval vm_compute in test_mulzq.
Check (eq_refl : test_mulzq_result = true).

(** ntrugen_test.go *)
Definition test_karatsuba_1 : bool :=
  same (leq Z.eqb) (Karatsuba [(-1722293); 4178192; (-9649111); 23373769; (-3043485); (-7818004);
  9749573; (-11142221)] [(-1722293); 4178192; (-9649111); 23373769; (-3043485); (-7818004);
  9749573; (-11142221)] 8%nat) [2966293177849; (-14392141668512); 50694481051910;
  (-161144634239258); 298909078203827; (-449574925370614); 506153440249717; 128449660388496;
  (-637467739576997); 718381544540216; (-519095571421692); (-84622036464214); 269274030376097;
  (-217263794043266); 124149088812841; 0].
Definition test_karatsuba_1_result : bool := Eval vm_compute in test_karatsuba_1.
Check (eq_refl : test_karatsuba_1_result = true).

(** ntrugen_test.go *)
Definition test_karatsuba_2 : bool :=
  same (leq Z.eqb) (Karatsuba [52338756788524724890787105069; 648491287334163971732428693477]
  [52338756788524724890787105069; 648491287334163971732428693477] 2%nat)
  [2739345462168342973823307644396997456086118469209645494761;
  67882455534520225039477001526435245573042659757693587869826;
  420540949748321217307254166141247872707684025362425222349529; 0].
Definition test_karatsuba_2_result : bool := Eval vm_compute in test_karatsuba_2.
Check (eq_refl : test_karatsuba_2_result = true).

(** ntrugen_test.go *)
Definition test_karatsuba_3 : bool :=
  same (leq Z.eqb) (Karatsuba [19478150517288854163173047302489688112904458986479828421220]
  [19478150517288854163173047302489688112904458986479828421220] 1%nat)
  [379398347574160057024576824078492349243547563079081823562489162322150136820909608566446443524131479479650477746288400;
  0].
Definition test_karatsuba_3_result : bool := Eval vm_compute in test_karatsuba_3.
Check (eq_refl : test_karatsuba_3_result = true).

(** ntrugen_test.go *)
Definition test_karamul_1 : bool :=
  same (leq Z.eqb) (karamul [(-17219037); 10276473; (-445972); (-26217107); 23002005; 11044591;
  (-26663538); (-5297245)] [(-17219037); 10276473; (-445972); (-26217107); 23002005; 11044591;
  (-26663538); (-5297245)]) [431609056919716; (-2264803915826324); 947854114547326;
  1726370888096772; (-1924717093534662); (-166697870920616); 1783999171672602;
  (-1581530550650792)].
Definition test_karamul_1_result : bool := Eval vm_compute in test_karamul_1.
Check (eq_refl : test_karamul_1_result = true).

(** ntrugen_test.go *)
Definition test_karamul_2 : bool :=
  same (leq Z.eqb) (karamul [53349370353379628213864895893969560559002040512179219164408]
  [53349370353379628213864895893969560559002040512179219164408])
  [2846155317102061196964996558687104462276788583144141797371630925119066320037553006198831820309887328502683101733990464].
Definition test_karamul_2_result : bool := Eval vm_compute in test_karamul_2.
Check (eq_refl : test_karamul_2_result = true).

(** ntrugen_test.go *)
Definition test_galois_1 : bool :=
  same (leq Z.eqb) (galoisConjugate [(-1732); (-181); 292; (-130); (-1647); 199; (-1385); (-558);
  (-309); 1833; (-401); 850; 253; (-36); (-2597); 2510; (-719); 925; 20; 1790; (-1794); 494; 130;
  1425; (-1482); 83; 795; (-887); (-1940); 744; 185; (-1032)]) [(-1732); 181; 292; 130; (-1647);
  (-199); (-1385); 558; (-309); (-1833); (-401); (-850); 253; 36; (-2597); (-2510); (-719);
  (-925); 20; (-1790); (-1794); (-494); 130; (-1425); (-1482); (-83); 795; 887; (-1940); (-744);
  185; 1032].
Definition test_galois_1_result : bool := Eval vm_compute in test_galois_1.
Check (eq_refl : test_galois_1_result = true).

(** ntrugen_test.go *)
Definition test_galois_2 : bool :=
  same (leq Z.eqb) (galoisConjugate [39812503573841235691159909287661889976438046641922619875;
  (-805322007111735017663100393021532665363771297089472824597)])
  [39812503573841235691159909287661889976438046641922619875;
  805322007111735017663100393021532665363771297089472824597].
Definition test_galois_2_result : bool := Eval vm_compute in test_galois_2.
Check (eq_refl : test_galois_2_result = true).

(** ntrugen_test.go *)
Definition test_fieldnorm_1 : bool :=
  same (leq Z.eqb) (fieldNorm [(-1503750261189601); 2942249559750856; (-950969046985171);
  (-1929426619933851); 3254733311432332; 191308165933376; (-3089736379163105); 1961215717985205])
  [(-3405969370664081230755793101925); 6784298454259322286184414510992;
  (-6326638488578950583559477843776); 2100009780394092918217943106778].
Definition test_fieldnorm_1_result : bool := Eval vm_compute in test_fieldnorm_1.
Check (eq_refl : test_fieldnorm_1_result = true).

(** ntrugen_test.go *)
Definition test_fieldnorm_2 : bool :=
  same (leq Z.eqb) (fieldNorm [68459002847536195322714061137808019102920809174255398175001;
  1480009384014221455342939305426559802814151730433175410454820])
  [2195114411841034199623234217635396841835966368689602380272638184433024161638837944381599118511403912684647922000682582401].
Definition test_fieldnorm_2_result : bool := Eval vm_compute in test_fieldnorm_2.
Check (eq_refl : test_fieldnorm_2_result = true).

(** ntrugen_test.go *)
Definition test_lift : bool :=
  leq Z.eqb (lift
  [345590124733150545911158363977044097771109871084959531865242595729340005426946478559560831106294452323269899619034499140898601775794825066303869969198270680289236364386484845900207307716606874087547419357167;
  1033648657894789404191452263509929711039858189541568403141974126456830643840975351226212290227307745853095084260452281271782700817696987902783645025760477983026816589331175097644724128962727724031534527634758;
  (-1807417330293339276542215798179684549240468291140110196763657482033347752036646302644199087727484036304843989833052201921469241935817128975491982042823835081938866741142643008130286405653099556962648230082473);
  1522398829474937174752514074295914146087528416212951175173865544993916019515290243418081266674667157560501814098669779056559570267920398103828947498572114350277892823021301990644421491458360014947916271367035])
  [345590124733150545911158363977044097771109871084959531865242595729340005426946478559560831106294452323269899619034499140898601775794825066303869969198270680289236364386484845900207307716606874087547419357167;
  0;
  1033648657894789404191452263509929711039858189541568403141974126456830643840975351226212290227307745853095084260452281271782700817696987902783645025760477983026816589331175097644724128962727724031534527634758;
  0;
  (-1807417330293339276542215798179684549240468291140110196763657482033347752036646302644199087727484036304843989833052201921469241935817128975491982042823835081938866741142643008130286405653099556962648230082473);
  0;
  1522398829474937174752514074295914146087528416212951175173865544993916019515290243418081266674667157560501814098669779056559570267920398103828947498572114350277892823021301990644421491458360014947916271367035;
  0].
Definition test_lift_result : bool := Eval vm_compute in test_lift.
Check (eq_refl : test_lift_result = true).

(** ntrugen_test.go *)
Definition test_bitsize : bool :=
  same Z.eqb (bitsize
  (-11614318471081991024454905323819239514787274382547283788218123246560041300410847942656630218976410208078498063447686772197316541292721999312280856585757208838431316674765572320819680))
  608.
Definition test_bitsize_result : bool := Eval vm_compute in test_bitsize.
Check (eq_refl : test_bitsize_result = true).

(** ntrugen_test.go *)
Definition test_xgcd : bool :=
  same eq3 (xgcd
  1145340830882995436378811904538856938868078888206737517383606322715260379248994177843057545761073726624250782868170753
  9486361600165354555722060686294546917519437196222743348218185598186294869424452895957595047627164285123501655417062657)
  (257,
  1887568559923859650483546522790283789280349088471127254174909938921149613092025877546030982861814662354609056756622,
  -227896577622987598934643379431709599769219034688896412024872634276960649796595978245643891138947363474318309335437).
Definition test_xgcd_result : bool := Eval vm_compute in test_xgcd.
Check (eq_refl : test_xgcd_result = true).

From Verif Require Import Float Samplerz Fft Ffsampling KeyGen Binary64.
From Flocq Require Import BinarySingleNaN.

(** Floats are compared as reflect.DeepEqual does: by ==, so that 0 and -0 are equal. *)
Definition B : floats := binary64 (fun _ => 0) (fun _ => 0).
Definition feq (x y : b64) : bool := Beqb x y.
Definition no_solution (r : res (list Z * list Z)) : bool := match r with Err ErrEquation => true | _ => false end.
Definition ceq (x y : b64 * b64) : bool := Beqb (fst x) (fst y) && Beqb (snd x) (snd y).
Definition eqLD (p q : list (list (list (b64 * b64))) * list (list (list (b64 * b64)))) : bool :=
  leq (leq (leq ceq)) (fst p) (fst q) && leq (leq (leq ceq)) (snd p) (snd q).

(** ntrugen_test.go *)
Definition test_reduce : bool :=
  same eqpair (reduce (reduce_quotient B) 100
  [8167204273898636560048286674269879285798731281831022589531;
  52903525881878968008001655281131121416363796413648844592755]
  [(-15211881899369536835222895078659151459977910821792656733976);
  16512908104586851150635870399127032751015060178024970692641]
  [114549301782718162157739728510405813434881080370559319264348726366089823543495220224907785396155768870510647987961585949473882201375067896621756004760119769984634076033322739716312;
  124346356768718246110966670766627670999060289441799591331743609448136101220205615472988642993396249749645908819562250458410893976458061021208238144015011987017985987603348560417417]
  [(-10818869602057653521486941953540019149979400701959749432093452450347691544182359110955340866158625618311406577024288592025912566838894732431696555018517172306324993185587602239420);
  70079837458493598783606884232162264919646203879371898565925122531963372012913596746248357800194045115601498274913447956020501265195675764301097512991134332460290158276349010579100])
  ([(-43150583716717049260335321370041691775103134611163843489542832812263987393799277652707113291477553271044685637565580570170955107367574023479478106597173121432886999914787829821224);
  8825995750454300785746328558410336566777310493701231945740604949272507265560282484297211648083385493239558454950729915089921947533585075068171392481871192905106788379463569773193],
  [(-14178444361867936728550580251237620567331442683458875845939207937460339263013047585117726029755058259483722632571148676914260422880308655696063769811141966742476906724222027542460);
  (-11841497661555560366571630736833760042655682201071469846579326213080050165167425996148072149310564764072517047467329654067354516002015316022779409127208776253287576611807123009892)]).
Definition test_reduce_result : bool := Eval vm_compute in test_reduce.
Check (eq_refl : test_reduce_result = true).

(** ffsampling_test.go (the first key of KAT/signKAT.go) *)
Definition test_gram : bool :=
  same (leq (leq (leq feq))) (Gram B (roots_dict B) (map (map (map b_of_int)) [[[73; -4]; [-72;
  37]]; [[65; 49]; [80; -11]]]) ) (map (map (map b_of_int)) [[[11898; 0]; [-1618; -1669]];
  [[-1618; 1669]; [13147; 0]]]).
Definition test_gram_result : bool := Eval vm_compute in test_gram.
Check (eq_refl : test_gram_result = true).

(** ffsampling_test.go *)
Definition test_ldlfft : bool :=
  same eqLD (LdlFFT B [[[(b_const (940992166661341) 11, b_const (-30995941970261273) 27); (b_const
  (940992166661341) 11, b_const (30995941970261273) 27)]; [(b_const (-1178145169420403) 13,
  b_const (11781451694202802) 14); (b_const (-1178145169420403) 13, b_const (-11781451694202802)
  14)]]; [[(b_const (-1178145169420403) 13, b_const (-11781451694202802) 14); (b_const
  (-1178145169420403) 13, b_const (11781451694202802) 14)]; [(b_const (940992166661341) 11,
  b_const (-30995941970261273) 27); (b_const (940992166661341) 11, b_const (30995941970261273)
  27)]]]) (let w := [[[[(b_const (1) 0, b_const (0) 0); (b_const (1) 0, b_const (0) 0)]; [(b_const
  (0) 0, b_const (0) 0); (b_const (0) 0, b_const (0) 0)]]; [[(b_const (-12520244175894488) 18,
  b_const (-12520244175893265) 18); (b_const (-12520244175894488) 18, b_const (12520244175893265)
  18)]; [(b_const (1) 0, b_const (0) 0); (b_const (1) 0, b_const (0) 0)]]]; [[[(b_const
  (940992166661341) 11, b_const (-30995941970261273) 27); (b_const (940992166661341) 11, b_const
  (30995941970261273) 27)]; [(b_const (0) 0, b_const (0) 0); (b_const (0) 0, b_const (0) 0)]];
  [[(b_const (0) 0, b_const (0) 0); (b_const (0) 0, b_const (0) 0)]; [(b_const (9406971533574253)
  12, b_const (-3098622433862458) 26); (b_const (9406971533574253) 12, b_const (3098622433862458)
  26)]]]] in (nth 0 w [], nth 1 w [])).
Definition test_ldlfft_result : bool := Eval vm_compute in test_ldlfft.
Check (eq_refl : test_ldlfft_result = true).

(** ffsampling_test.go; the inner slices hold complex numbers, which are not looked at *)
Definition test_ffnpfft : bool :=
  same (leq (leq ceq)) (FfnpFFT B (roots_dict B) 5 [[(b_const (23273893182875416) 17, b_const
  (12317186192039031) 18); (b_const (23273893182875416) 17, b_const (-12317186192039031) 18)];
  [(b_const (912492076944699) 15, b_const (11873057430750977) 17); (b_const (912492076944699) 15,
  b_const (-11873057430750977) 17)]] [IPoly (FO := B) [(b_const (-13598924188939318) 17, b_const
  (14027567658429987) 17); (b_const (-13598924188939318) 17, b_const (-14027567658429987) 17)];
  ITree [IOther; IOther]; ITree [IOther; IOther]]) [[(b_const (0) 0, b_const (0) 0); (b_const (0)
  0, b_const (0) 0)]; [(b_const (1) 0, b_const (0) 0); (b_const (1) 0, b_const (0) 0)]].
Definition test_ffnpfft_result : bool := Eval vm_compute in test_ffnpfft.
Check (eq_refl : test_ffnpfft_result = true).

(** ntrugen_test.go, degree 64 *)
Definition test_ntrusolve_1 : bool :=
  same eqpair (NtruSolve (reduce_quotient B) 200 [16; (-3); (-19); 11; 2; 8; 9; (-14); (-12); 1;
  (-3); 2; 4; (-13); (-1); (-5); (-3); (-10); 18; 2; (-17); 6; 1; 1; (-9); 10; 6; 13; 22; 13; 1;
  (-12); 10; (-6); (-27); 11; 18; 0; (-14); 3; (-3); 12; (-15); (-9); 19; 6; 28; 6; (-13); 19; 2;
  3; (-1); 6; (-2); (-20); (-5); 26; 5; (-2); 13; (-10); 0; 1] [5; (-3); 2; 4; 12; 17; (-3);
  (-16); 6; (-18); 2; (-12); 29; (-4); 9; (-8); 0; 0; 5; (-4); (-5); 5; 5; (-2); 21; 5; 8; (-7);
  (-6); (-17); 4; 2; (-5); 15; (-6); (-14); (-2); 10; 8; (-8); (-18); 24; (-4); (-7); (-10); 15;
  0; 23; 10; 2; 17; (-2); (-21); (-7); (-12); (-5); 3; 1; 14; 3; (-1); (-3); (-13); 6]) ([8; 31;
  11; (-16); 11; 11; 6; (-5); 30; (-8); 15; 8; 16; 64; 45; 14; 46; 20; (-17); 43; 8; (-29); 40;
  45; (-7); (-6); 5; (-4); (-20); (-16); 6; (-14); (-22); 24; 13; (-25); 54; 8; 18; 20; 17; 31;
  (-8); (-45); (-19); (-12); (-28); 4; (-24); (-2); 52; (-18); (-18); (-11); 22; 1; (-5); (-20);
  (-6); 1; 24; 75; 11; (-10)], [37; 49; 31; 17; (-31); (-22); (-7); (-35); (-9); 47; (-3); 26; 19;
  34; 64; (-7); 3; (-36); (-68); (-66); (-34); 2; 25; (-28); (-7); 12; 57; (-23); 2; (-44); (-30);
  (-23); (-11); (-34); 49; (-8); 14; 12; 15; (-50); 22; (-46); 3; (-51); (-14); (-8); 13; (-12);
  34; (-14); 32; 14; (-14); (-40); (-13); 7; 16; 9; 15; 8; 60; (-18); 24; (-27)]).
Definition test_ntrusolve_1_result : bool := Eval vm_compute in test_ntrusolve_1.
Check (eq_refl : test_ntrusolve_1_result = true).

(** ntrugen_test.go *)
Definition test_ntrusolve_2 : bool :=
  no_solution (NtruSolve (reduce_quotient B) 200 [8; 6; 2; 10; 6; 19; (-3); 8; 7; (-1); (-2);
  (-1); 13; 15; (-7); 8; (-1); (-5); (-17); 15; 20; 3; 12; 7; 15; 26; 7; (-6); (-1); 2; (-10); 1;
  4; 6; 16; (-3); 7; 13; 5; (-4); (-18); (-10); 9; 11; (-16); 2; (-11); 9; 3; 10; (-3); (-6); 3;
  11; (-4); (-3); (-4); 4; (-3); 19; 1; 19; 8; 7] [3; 5; 7; 11; 13; 3; (-7); 9; (-22); 13; 22;
  (-17); 19; (-4); 0; 21; (-10); 15; 8; (-2); 28; 9; (-4); (-9); (-13); (-3); (-18); 1; 1; 9;
  (-1); 9; 10; 9; (-17); (-2); (-2); 14; 14; 1; 0; (-2); (-4); 12; 22; 3; (-13); 29; 1; (-16);
  (-13); (-6); (-4); 6; 0; 6; 1; 11; (-18); 30; (-4); 0; 23; (-11)]).
Definition test_ntrusolve_2_result : bool := Eval vm_compute in test_ntrusolve_2.
Check (eq_refl : test_ntrusolve_2_result = true).

(** ntrugen_test.go; the expected value is 20662.220733723763 *)
Definition test_gsnorm : bool :=
  same feq (GsNorm B (map b_of_int [(-8); (-1); (-1); 5; 25; 11; (-5); (-28); 0; 10; 12; 6; 23;
  (-1); (-1); (-7); (-25); (-6); 24; 6; (-18); 9; (-1); 0; (-2); (-7); 3; (-4); (-9); 4; 7; (-3);
  13; (-4); 0; 1; 20; (-10); (-3); 22; 22; (-11); (-27); (-4); (-5); (-5); (-19); 19; (-6); 18;
  (-3); (-9); 9; 8; 13; 9; (-15); 1; (-5); (-13); 8; (-1); (-6); 5]) (map b_of_int [(-1); (-9);
  (-17); (-1); 12; 3; 1; (-3); 13; (-13); (-25); 5; (-14); 0; 22; (-4); (-4); 16; 1; 15; 9; 8; 13;
  6; (-3); (-3); 10; (-1); 3; 7; 0; (-10); 12; 3; 7; (-6); 1; (-6); (-2); 1; 17; 10; 4; (-7); 6;
  5; 8; (-10); 11; (-14); 5; 5; (-5); 8; 4; 3; 1; 7; (-6); 9; (-10); (-12); (-1); (-4)]) (b_of_int
  12289)) (b_const 20662220733723763 12).
Definition test_gsnorm_result : bool := Eval vm_compute in test_gsnorm.
Check (eq_refl : test_gsnorm_result = true).
