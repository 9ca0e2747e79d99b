(** Inputs recorded in the repository, run against the model with the real
    SHAKE256.  Fidelity checks, not proofs of properties: each [Check] fails to compile when
    its boolean is not true. *)
From Verif Require Import GoBase Util Ntt Encoding Params Xof Falcon Keccak.

Definition accepted (r : res bool) : bool := match r with Ok b => b | _ => false end.
Definition panicked (r : res bool) : bool := match r with Panic => true | _ => false end.

(** The first key of src/pubkeyC.txt, the first message of src/messageC.txt and
    the first signature of src/signatureC.txt.  (All hundred signatures of the
    file were run through the model in this way; every one is accepted.) *)
Definition rec_key : list Z :=
  [136; 3044; 5284; 6166; 12135; 3822; 2437; 6804; 7263; 256; 1142; 9428; 8887; 2703; 1186;
   7143; 1560; 11886; 4474; 6458; 9470; 4974; 5633; 2440; 4555; 1009; 11205; 7086; 3835; 2396;
   1438; 2736; 10575; 11656; 4793; 3905; 5710; 7944; 3863; 9391; 4934; 2338; 1523; 6979; 1550;
   3118; 11598; 3032; 10721; 3679; 6798; 7418; 10355; 5110; 10961; 1854; 8652; 3910; 7249; 5043;
   4626; 1469; 1250; 1534; 7428; 7292; 11874; 1697; 7058; 795; 352; 4837; 11428; 835; 2234;
   1588; 11468; 4354; 5916; 7000; 2273; 11891; 9071; 3658; 8237; 9184; 7238; 1322; 5598; 2880;
   11344; 8728; 6305; 1677; 1758; 5171; 2334; 5479; 7316; 4536; 8686; 220; 11154; 3250; 8262;
   10047; 360; 2230; 3563; 1524; 9455; 6547; 3526; 6190; 1841; 6833; 852; 5168; 4486; 1925;
   5797; 4671; 7268; 12222; 10019; 3037; 9962; 5118; 4634; 11625; 2109; 10102; 6855; 4520; 4876;
   6385; 3481; 8007; 10335; 3956; 5702; 9554; 11373; 1035; 11747; 1012; 10074; 12106; 3925;
   7530; 11599; 5169; 1928; 8560; 2767; 7325; 6565; 1870; 10659; 5003; 574; 137; 7542; 2203;
   11261; 1349; 2712; 5582; 3475; 11551; 7542; 11456; 6416; 2664; 10783; 4591; 6575; 3234;
   11961; 3607; 5635; 10041; 5416; 5951; 11728; 11455; 4574; 1961; 2498; 10326; 8622; 145; 4244;
   5982; 9633; 502; 4831; 8211; 11; 373; 4048; 6800; 1747; 1499; 9439; 3185; 1725; 1648; 1280;
   7611; 6910; 7980; 3826; 3402; 2637; 5630; 11227; 9230; 8114; 9591; 1333; 10681; 3182; 2602;
   7953; 3550; 5527; 2420; 8100; 58; 3523; 9248; 4801; 965; 11910; 11864; 10462; 3366; 6079;
   5820; 23; 6370; 8515; 9481; 7175; 9761; 3640; 6067; 2500; 2573; 2893; 8209; 12183; 7529;
   9028; 11184; 5115; 7298; 11999; 7156; 8203; 9690; 43; 1558; 11417; 1825; 11310; 1639; 5464;
   7343; 11231; 10686; 7987; 7817; 3427; 5990; 7077; 7486; 3512; 5155; 8300; 12187; 1500; 4094;
   1388; 11109; 7449; 10222; 503; 6883; 1429; 320; 5363; 1949; 274; 2401; 3111; 3689; 3561;
   8053; 8460; 6020; 5055; 4359; 4991; 2036; 9974; 9036; 7699; 11310; 11806; 965; 8959; 3879;
   6994; 5122; 5394; 10113; 7942; 18; 2668; 7459; 683; 1638; 1922; 11582; 10864; 1917; 235;
   12013; 7909; 1395; 4013; 3111; 5336; 9360; 6528; 3962; 3632; 11541; 9993; 5129; 2981; 3015;
   10536; 9601; 6404; 7270; 2038; 2680; 2217; 11163; 6957; 11677; 11672; 6508; 1156; 275; 4331;
   5184; 4761; 659; 5481; 5322; 12206; 6348; 11760; 8094; 1488; 9525; 8815; 3154; 5943; 11939;
   6807; 1816; 9841; 8593; 3293; 1212; 10068; 6668; 10826; 3787; 2923; 10962; 3235; 6337; 2968;
   1776; 11091; 10369; 960; 234; 8403; 8721; 1446; 10533; 10427; 3488; 9233; 6174; 11608; 6313;
   11939; 3345; 660; 2836; 10191; 11776; 9104; 333; 3649; 9247; 5468; 471; 2017; 1937; 11170;
   1352; 9446; 360; 1793; 5494; 2045; 6124; 12244; 11717; 3668; 10114; 6076; 10675; 9912; 4190;
   1787; 9918; 10127; 7260; 2139; 6717; 10544; 1939; 6219; 1774; 11475; 2998; 3585; 12193; 6751;
   11331; 1691; 1858; 1411; 11398; 5519; 4865; 3249; 356; 1448; 7208; 4897; 5289; 3029; 2034;
   10431; 10976; 5401; 8588; 7380; 8160; 6741; 7644; 1577; 5326; 10973; 4703; 11894; 4446; 8086;
   2551; 853; 1544; 2768; 9747; 7625; 8633; 4415; 8632; 10195; 12280; 392; 4471; 1729; 5803;
   7047; 10339; 9376; 1288; 8538; 5921; 1574; 2803; 7071; 10119; 6123; 8086; 10774; 6865; 4825;
   10506; 3571; 9170].
Definition rec_message : list Z :=
  [88; 67; 110; 41; 115; 79; 90; 48; 50; 125; 123; 69; 118; 119; 119; 103; 114; 73; 119; 110;
   104; 33; 119; 75; 103; 80; 90; 77; 95; 93; 68; 52].
Definition rec_signature : list Z :=
  [57; 174; 11; 132; 202; 77; 211; 8; 56; 155; 178; 247; 15; 194; 171; 158; 144; 11; 58; 42; 81;
   166; 238; 76; 159; 200; 172; 80; 49; 183; 47; 183; 22; 12; 43; 192; 86; 162; 148; 118; 105;
   11; 213; 165; 38; 98; 174; 225; 148; 45; 102; 36; 122; 57; 82; 47; 11; 107; 238; 187; 155;
   183; 134; 45; 182; 239; 84; 82; 117; 75; 210; 148; 55; 198; 202; 15; 251; 34; 103; 77; 90;
   243; 225; 140; 108; 240; 130; 160; 204; 194; 183; 8; 26; 86; 39; 167; 152; 86; 124; 214; 20;
   116; 138; 238; 30; 47; 223; 58; 2; 224; 226; 89; 155; 218; 33; 52; 149; 192; 90; 102; 49; 21;
   153; 115; 124; 177; 197; 123; 195; 185; 248; 79; 59; 102; 81; 28; 240; 98; 168; 17; 101; 53;
   73; 117; 83; 118; 218; 22; 230; 127; 114; 37; 40; 113; 164; 217; 120; 185; 102; 205; 103;
   218; 221; 173; 195; 232; 218; 37; 179; 84; 199; 233; 67; 177; 185; 100; 127; 138; 250; 60;
   209; 123; 28; 85; 252; 235; 185; 243; 212; 190; 177; 63; 97; 30; 100; 29; 226; 182; 101; 91;
   173; 15; 173; 41; 69; 150; 94; 217; 98; 196; 52; 246; 5; 139; 62; 156; 192; 123; 21; 236; 89;
   210; 168; 80; 156; 211; 161; 98; 131; 164; 220; 201; 164; 237; 136; 67; 244; 123; 75; 75;
   183; 174; 214; 35; 13; 85; 215; 248; 166; 250; 190; 141; 4; 169; 18; 227; 87; 154; 9; 213;
   70; 101; 61; 113; 162; 233; 26; 170; 210; 231; 53; 244; 55; 149; 74; 84; 244; 124; 153; 124;
   2; 5; 141; 56; 70; 163; 121; 155; 104; 74; 121; 74; 193; 233; 40; 15; 209; 246; 136; 141;
   169; 63; 40; 41; 76; 167; 5; 220; 39; 52; 227; 115; 160; 140; 220; 23; 31; 254; 52; 196; 239;
   104; 70; 100; 207; 99; 134; 221; 132; 66; 221; 164; 74; 28; 78; 159; 23; 218; 108; 131; 16;
   108; 107; 161; 14; 243; 54; 11; 203; 217; 168; 41; 221; 247; 17; 15; 19; 163; 35; 2; 97; 104;
   168; 129; 97; 202; 166; 174; 150; 61; 44; 230; 214; 149; 36; 83; 128; 165; 230; 43; 250; 24;
   233; 184; 132; 180; 213; 88; 251; 46; 67; 206; 94; 213; 169; 15; 142; 176; 248; 72; 145; 39;
   154; 39; 169; 242; 235; 240; 76; 77; 85; 148; 201; 34; 25; 56; 225; 205; 129; 51; 125; 46;
   27; 175; 179; 102; 221; 239; 66; 143; 17; 215; 205; 115; 73; 242; 46; 201; 72; 159; 60; 206;
   104; 213; 219; 111; 18; 54; 154; 234; 233; 81; 60; 101; 52; 177; 237; 225; 241; 28; 87; 172;
   238; 28; 9; 70; 226; 1; 15; 73; 73; 133; 217; 12; 32; 13; 227; 78; 179; 206; 97; 93; 88; 249;
   106; 157; 95; 165; 86; 179; 109; 54; 235; 233; 28; 130; 26; 161; 247; 185; 17; 20; 0; 145;
   182; 42; 118; 134; 147; 152; 215; 202; 174; 14; 146; 181; 203; 197; 246; 30; 165; 127; 249;
   82; 222; 101; 208; 35; 46; 89; 97; 156; 36; 117; 213; 158; 97; 228; 109; 106; 173; 41; 172;
   68; 12; 22; 241; 51; 241; 16; 57; 197; 35; 85; 62; 246; 117; 240; 134; 9; 214; 128; 240; 19;
   15; 164; 110; 47; 96; 85; 79; 101; 69; 163; 32; 248; 151; 140; 228; 227; 211; 231; 82; 130;
   149; 97; 154; 53; 94; 143; 176; 203; 178; 17; 238; 247; 2; 154; 102; 117; 54; 36; 2; 44; 76;
   10; 82; 51; 52; 174; 115; 18; 230; 37; 150; 118; 44; 241; 163; 135; 234; 246; 164; 93; 139;
   234; 138; 157; 108; 254; 152; 86; 115; 16; 201; 150; 248; 12; 215; 129; 29; 172; 68; 143; 51;
   113; 248; 100; 222; 14; 41; 190; 156; 73; 238; 240; 0; 0; 0; 0; 0; 0; 0; 0; 0; 0].

(** falcon_test.go, TestSignVerify *)
Definition recorded_signature : bool :=
  accepted (Verify wrap64 shake256 600 rec_key rec_message rec_signature).
Definition recorded_signature_result : bool := Eval vm_compute in recorded_signature.
Check (eq_refl : recorded_signature_result = true).

(** the input of falcon_test.go, TestSignVerifyBytes: 1722 bytes, one per word;
    VerifyBytes reads 32 bytes per word *)
Definition rec_bytes : list Z :=
  [44; 232; 34; 46; 24; 223; 33; 65; 37; 226; 10; 241; 43; 176; 30; 40; 11; 228; 25; 151; 47;
   137; 25; 95; 10; 48; 41; 105; 15; 125; 10; 48; 27; 19; 20; 146; 19; 151; 43; 182; 46; 128;
   43; 233; 10; 175; 26; 250; 30; 151; 25; 200; 17; 148; 36; 143; 16; 149; 21; 60; 34; 70; 10;
   29; 17; 209; 35; 23; 2; 184; 32; 140; 17; 198; 7; 204; 11; 39; 29; 151; 9; 125; 10; 224; 3;
   101; 47; 251; 27; 236; 44; 63; 31; 64; 9; 102; 36; 206; 27; 91; 37; 221; 41; 162; 5; 6; 29;
   193; 0; 240; 5; 185; 18; 213; 37; 255; 26; 237; 42; 160; 16; 224; 42; 195; 45; 55; 19; 156;
   4; 222; 35; 143; 47; 196; 3; 214; 6; 116; 21; 66; 19; 202; 7; 192; 23; 81; 42; 206; 45; 80;
   26; 172; 42; 33; 35; 114; 45; 42; 32; 235; 28; 216; 39; 241; 12; 74; 38; 156; 0; 227; 41; 32;
   27; 2; 27; 100; 44; 154; 2; 106; 9; 40; 9; 138; 47; 86; 6; 54; 18; 51; 0; 9; 23; 166; 11;
   158; 4; 38; 30; 209; 29; 4; 45; 32; 42; 203; 15; 113; 45; 130; 21; 112; 13; 32; 25; 19; 7;
   226; 30; 175; 46; 161; 40; 33; 45; 240; 41; 123; 11; 130; 38; 99; 5; 111; 20; 168; 39; 97;
   30; 199; 1; 180; 11; 5; 42; 224; 18; 111; 14; 221; 36; 103; 37; 158; 11; 105; 19; 55; 42;
   254; 33; 28; 3; 54; 13; 34; 25; 88; 13; 211; 11; 150; 35; 106; 43; 191; 13; 253; 26; 110; 38;
   146; 21; 56; 32; 38; 7; 112; 42; 134; 37; 64; 2; 138; 11; 201; 31; 77; 12; 201; 46; 223; 39;
   59; 36; 72; 33; 213; 11; 185; 37; 237; 7; 152; 29; 31; 13; 108; 20; 54; 3; 119; 19; 183; 30;
   30; 41; 50; 20; 229; 45; 66; 42; 118; 23; 167; 2; 75; 21; 80; 11; 97; 30; 172; 17; 217; 0;
   89; 43; 234; 26; 0; 30; 92; 21; 98; 45; 36; 4; 50; 19; 153; 32; 61; 23; 215; 46; 72; 18; 108;
   23; 238; 17; 53; 22; 19; 26; 189; 1; 113; 45; 220; 29; 179; 30; 66; 29; 160; 3; 147; 25; 50;
   37; 70; 40; 254; 1; 0; 35; 164; 16; 10; 33; 250; 29; 194; 5; 251; 45; 23; 37; 41; 6; 175; 4;
   96; 25; 1; 44; 55; 3; 179; 30; 134; 18; 41; 28; 174; 41; 25; 5; 99; 27; 202; 16; 240; 23;
   165; 24; 77; 7; 122; 14; 168; 32; 3; 42; 194; 20; 88; 4; 235; 44; 106; 25; 16; 20; 11; 21; 5;
   33; 234; 29; 172; 32; 89; 9; 180; 44; 75; 46; 12; 27; 146; 21; 177; 8; 225; 25; 49; 2; 96;
   46; 71; 16; 100; 11; 85; 47; 13; 25; 203; 12; 184; 38; 206; 31; 50; 31; 178; 44; 249; 3; 139;
   33; 189; 25; 223; 18; 60; 15; 198; 43; 229; 21; 161; 16; 187; 24; 244; 23; 246; 34; 226; 8;
   80; 8; 80; 11; 147; 27; 92; 35; 13; 30; 82; 0; 171; 41; 95; 28; 28; 2; 233; 10; 26; 10; 73;
   40; 181; 34; 187; 13; 72; 16; 128; 7; 215; 18; 115; 40; 122; 8; 56; 35; 16; 2; 210; 44; 177;
   10; 92; 24; 181; 24; 97; 11; 172; 45; 228; 30; 175; 35; 80; 27; 176; 36; 191; 38; 42; 3; 99;
   8; 29; 17; 10; 47; 78; 4; 58; 7; 58; 18; 254; 16; 234; 42; 233; 21; 3; 40; 243; 29; 253; 10;
   59; 9; 51; 12; 180; 8; 55; 24; 254; 44; 224; 14; 198; 12; 173; 37; 84; 23; 19; 18; 130; 32;
   142; 33; 139; 23; 251; 20; 223; 25; 95; 33; 50; 27; 192; 40; 95; 33; 84; 39; 175; 32; 116;
   36; 48; 41; 120; 47; 237; 17; 2; 5; 150; 18; 230; 5; 228; 41; 63; 10; 91; 27; 44; 44; 233;
   34; 48; 4; 107; 10; 231; 15; 171; 16; 157; 13; 110; 37; 26; 22; 82; 40; 205; 39; 86; 21; 104;
   19; 155; 25; 73; 30; 45; 4; 237; 11; 250; 0; 198; 30; 135; 8; 198; 13; 168; 31; 128; 2; 227;
   22; 234; 21; 193; 44; 192; 8; 196; 2; 156; 32; 203; 21; 69; 10; 212; 17; 56; 36; 77; 43; 6;
   2; 249; 14; 134; 45; 51; 13; 76; 1; 112; 13; 251; 40; 81; 26; 80; 46; 99; 39; 203; 2; 17; 1;
   24; 9; 64; 10; 8; 19; 68; 24; 61; 28; 92; 30; 112; 28; 37; 46; 143; 5; 101; 46; 187; 13; 174;
   44; 99; 29; 33; 38; 222; 19; 28; 40; 133; 23; 69; 39; 23; 2; 199; 45; 29; 10; 11; 33; 81; 34;
   230; 22; 116; 16; 13; 24; 65; 20; 182; 21; 190; 7; 178; 14; 241; 29; 121; 1; 95; 44; 255; 29;
   121; 9; 199; 13; 239; 5; 169; 10; 253; 16; 87; 29; 193; 47; 22; 26; 28; 33; 52; 5; 117; 8;
   180; 17; 51; 39; 85; 30; 121; 17; 65; 35; 244; 5; 84; 12; 12; 14; 124; 32; 90; 37; 113; 20;
   218; 39; 109; 16; 138; 23; 117; 32; 17; 5; 245; 15; 1; 20; 84; 10; 53; 8; 219; 12; 36; 34;
   244; 31; 217; 29; 107; 28; 156; 35; 227; 10; 10; 2; 172; 17; 70; 19; 196; 34; 64; 45; 99; 12;
   142; 2; 195; 28; 7; 21; 3; 0; 169; 18; 166; 25; 108; 25; 110; 11; 205; 44; 250; 0; 179; 17;
   157; 15; 91; 13; 125; 30; 92; 19; 128; 15; 203; 46; 253; 31; 103; 38; 38; 34; 48; 22; 98; 20;
   178; 8; 7; 32; 178; 38; 26; 11; 56; 2; 219; 36; 72; 11; 154; 1; 59; 20; 161; 41; 136; 19; 56;
   2; 97; 19; 253; 19; 117; 11; 224; 37; 205; 5; 250; 2; 183; 39; 192; 20; 140; 13; 8; 8; 72;
   25; 52; 26; 116; 15; 71; 22; 8; 19; 4; 114; 108; 97; 97; 103; 113; 114; 111; 101; 114; 120;
   100; 109; 104; 113; 110; 120; 115; 111; 98; 114; 121; 112; 100; 110; 113; 119; 117; 117; 114;
   110; 112; 57; 1; 26; 2; 141; 57; 181; 194; 187; 190; 219; 37; 147; 126; 14; 4; 160; 143; 163;
   209; 164; 53; 182; 49; 216; 106; 236; 181; 9; 221; 134; 56; 139; 6; 151; 31; 128; 77; 15;
   173; 96; 26; 64; 213; 138; 60; 170; 113; 30; 142; 214; 209; 125; 220; 193; 108; 143; 48; 253;
   183; 125; 65; 207; 70; 218; 186; 19; 28; 223; 82; 241; 228; 46; 171; 45; 133; 62; 216; 140;
   237; 122; 20; 82; 13; 182; 85; 32; 99; 148; 151; 165; 75; 120; 99; 180; 218; 46; 147; 221;
   153; 175; 240; 121; 48; 52; 209; 141; 226; 115; 75; 59; 105; 174; 76; 145; 236; 27; 35; 83;
   108; 207; 154; 53; 207; 70; 39; 144; 51; 172; 241; 247; 150; 182; 144; 179; 184; 136; 57; 24;
   131; 176; 46; 211; 141; 31; 163; 60; 8; 45; 111; 43; 59; 163; 247; 180; 185; 67; 159; 40;
   200; 58; 198; 233; 74; 103; 145; 86; 159; 191; 167; 100; 78; 188; 178; 12; 211; 182; 246; 86;
   81; 181; 144; 201; 72; 223; 6; 19; 129; 119; 249; 194; 195; 133; 199; 121; 236; 21; 130; 119;
   133; 143; 37; 234; 6; 183; 235; 233; 220; 248; 90; 109; 89; 166; 191; 109; 41; 155; 6; 153;
   137; 143; 103; 136; 34; 72; 216; 117; 14; 178; 124; 197; 194; 224; 180; 100; 29; 1; 74; 55;
   169; 195; 107; 145; 173; 76; 92; 54; 123; 124; 137; 178; 29; 9; 15; 144; 83; 229; 246; 39;
   59; 163; 7; 101; 112; 72; 215; 99; 64; 202; 243; 22; 73; 202; 4; 159; 180; 240; 215; 67; 214;
   206; 230; 28; 29; 4; 129; 63; 211; 207; 226; 229; 122; 1; 19; 125; 17; 225; 41; 210; 59; 77;
   254; 206; 177; 190; 29; 250; 115; 210; 190; 124; 52; 31; 143; 238; 107; 62; 230; 190; 101;
   254; 185; 57; 135; 166; 215; 170; 124; 101; 11; 134; 217; 153; 13; 71; 191; 185; 96; 121;
   149; 143; 218; 47; 87; 45; 52; 229; 41; 203; 65; 160; 19; 85; 49; 149; 79; 190; 236; 219;
   138; 119; 221; 134; 102; 89; 250; 40; 241; 186; 177; 12; 109; 136; 174; 240; 95; 241; 5; 135;
   44; 101; 59; 140; 145; 41; 18; 105; 68; 58; 1; 39; 185; 235; 205; 95; 143; 20; 151; 54; 147;
   148; 105; 6; 24; 169; 123; 33; 31; 95; 202; 219; 40; 203; 101; 19; 156; 102; 206; 9; 1; 217;
   36; 219; 59; 49; 90; 143; 79; 163; 6; 20; 168; 28; 95; 93; 74; 159; 134; 144; 60; 210; 236;
   106; 225; 211; 107; 250; 202; 100; 31; 169; 8; 101; 230; 211; 37; 126; 40; 226; 99; 150; 41;
   94; 19; 235; 1; 95; 61; 167; 85; 246; 172; 219; 122; 248; 82; 149; 52; 176; 103; 203; 68;
   160; 167; 42; 154; 158; 167; 189; 31; 240; 254; 188; 14; 178; 69; 201; 237; 90; 92; 149; 35;
   210; 248; 119; 183; 232; 225; 33; 222; 181; 92; 127; 74; 162; 69; 32; 72; 210; 18; 209; 126;
   166; 145; 21; 175; 101; 160; 89; 110; 203; 20; 122; 232; 253; 161; 30; 8; 111; 35; 50; 249;
   188; 253; 12; 71; 215; 85; 56; 196; 110; 122; 81; 246; 136; 99; 255; 51; 198; 43; 145; 97;
   115; 46; 119; 250; 199; 193; 144; 245; 83; 151; 13; 130; 169; 136; 97; 89; 78; 115; 155; 164;
   39; 215; 15; 7; 254; 74; 64; 201; 159; 30; 242; 217; 119; 98; 217; 45; 6; 81; 190; 172; 161;
   106; 138; 34; 127; 80; 154; 218; 109; 131; 233; 13; 93; 250; 104; 94; 231; 219; 249; 14; 109;
   178; 88; 88; 102; 178; 22; 226; 208; 246; 245; 51; 218; 147; 16; 255; 125; 19; 184; 179; 37;
   200; 170; 20; 105; 217; 4; 137; 77; 137; 155; 168; 0; 0; 0; 0; 0; 0; 0; 0; 0; 0; 0; 0].

Definition recorded_bytes : bool :=
  panicked (VerifyBytes wrap64 shake256 600 rec_bytes).
Definition recorded_bytes_result : bool := Eval vm_compute in recorded_bytes.
Check (eq_refl : recorded_bytes_result = true).
