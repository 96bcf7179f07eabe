(** The powers of a primitive 2048-th root of unity modulo 12289, in bit-reversed order, entries 512..1023 (entries 0..511 are the
    tables of NttTables.v). polyntt (the Python NTT package, not part of the repository) uses some such table for n = 1024. *)
From Coq Require Import ZArith List.
Import ListNotations.
Open Scope Z_scope.
Definition psi_upper : list Z := [
  7; 1936; 845; 3723; 3154; 5054; 3285; 7929; 216; 50; 6763; 769; 767; 8484; 10076; 4153; 3120; 6184; 6203; 5646; 8348; 3753; 3536;
  5370; 3229; 4730; 10583; 3929; 1282; 8717; 2021; 9457; 3944; 4099; 5604; 6759; 2171; 8809; 11024; 3007; 9344; 5349; 2633; 1406; 9057;
  11996; 4855; 8520; 9348; 11722; 6627; 5289; 3837; 2595; 3221; 4273; 4050; 7082; 844; 5202; 11309; 11607; 4590; 7207; 8820; 6138;
  7846; 8871; 4693; 2338; 9996; 11872; 1802; 1555; 5103; 10398; 7878; 10699; 1223; 9955; 11009; 614; 12265; 10918; 11385; 9804; 6742;
  7250; 881; 11924; 1015; 10362; 5461; 9343; 2637; 7779; 4684; 3360; 7154; 63; 7302; 2373; 3670; 3808; 578; 5368; 11839; 1944; 7628;
  11779; 9667; 6903; 5618; 10631; 5789; 3502; 5043; 826; 3090; 1398; 3065; 1506; 6586; 4483; 6389; 910; 7570; 11538; 4518; 3094; 1160;
  4820; 2730; 5411; 10036; 1868; 2478; 9449; 4194; 3019; 10506; 7211; 7724; 4974; 7119; 2672; 11424; 1279; 189; 3116; 10526; 2209;
  10759; 1694; 8420; 7866; 5832; 1350; 10555; 8474; 7014; 10499; 11038; 6879; 2035; 1040; 10407; 6164; 7519; 944; 5287; 8620; 6616;
  9269; 6883; 7624; 4834; 2712; 9461; 4352; 8176; 72; 3840; 10447; 3451; 8195; 11048; 4378; 6508; 9244; 9646; 1095; 2873; 2827; 11498;
  2434; 11169; 9754; 12268; 6481; 874; 9988; 170; 6639; 2307; 4289; 11641; 12139; 11259; 11823; 3821; 1681; 4649; 5969; 2929; 6026;
  1573; 8443; 3793; 6226; 11787; 5118; 2602; 10388; 1849; 5776; 9021; 3795; 7988; 7766; 457; 12281; 11410; 9696; 982; 10013; 4218;
  4390; 8835; 8531; 7785; 778; 530; 2626; 3578; 4697; 8823; 1701; 10243; 2940; 9332; 10808; 3317; 9757; 139; 3332; 343; 8841; 4538;
  10381; 7078; 1866; 1208; 7562; 10584; 2450; 11873; 814; 716; 10179; 2164; 6873; 5412; 8080; 9011; 6296; 3515; 11851; 1218; 5061;
  10753; 10568; 2429; 8186; 1373; 9307; 717; 8700; 8921; 4227; 4238; 11677; 8067; 1526; 11749; 12164; 3163; 4032; 6127; 7449; 1389;
  10221; 4404; 11943; 3359; 9084; 5209; 1092; 3678; 4265; 10361; 464; 1826; 2926; 4489; 9118; 1136; 3449; 3708; 9051; 2065; 5826; 3495;
  4564; 8755; 3961; 10533; 4145; 2275; 2461; 4267; 5653; 5063; 8113; 10771; 8524; 11014; 5508; 11113; 6555; 4860; 1125; 10844; 11158;
  6302; 6693; 579; 3889; 9520; 3114; 6323; 212; 8314; 4883; 6454; 3087; 1417; 5676; 7784; 2257; 3744; 4963; 2528; 9233; 5102; 11877;
  6701; 6444; 4924; 4781; 1014; 11841; 1327; 3607; 3942; 7057; 2717; 60; 3200; 10754; 5836; 7723; 2260; 68; 180; 4138; 7684; 2689;
  10880; 7070; 204; 5509; 10821; 8308; 8882; 463; 10945; 9247; 9806; 10235; 4739; 8038; 6771; 1226; 9261; 5216; 11925; 9929; 11053;
  9272; 7043; 4475; 3121; 4705; 1057; 9689; 11883; 10602; 146; 5268; 1403; 1804; 6094; 7100; 12050; 9389; 994; 4554; 4670; 11777; 5464;
  4906; 3375; 9998; 8896; 4335; 7376; 3528; 3825; 8054; 9342; 8307; 636; 5609; 11667; 10552; 5672; 4499; 5598; 3344; 10397; 8665; 6565;
  10964; 11260; 10344; 5959; 10141; 8330; 5797; 2442; 1248; 5115; 4939; 10975; 1744; 2894; 8635; 6599; 9834; 8342; 338; 3343; 8170;
  1522; 10138; 12269; 5002; 4608; 5163; 4578; 377; 11914; 1620; 10453; 11864; 10104; 11897; 6085; 8122; 11251; 11366; 10058; 6197;
  2800; 193; 506; 1255; 1392; 5784; 3276; 8951; 2212; 9615; 10347; 8881; 2575; 1165; 2776; 11111; 6811; 3511].
Definition psi_inv_upper : list Z := [
  8778; 5478; 1178; 9513; 11124; 9714; 3408; 1942; 2674; 10077; 3338; 9013; 6505; 10897; 11034; 11783; 12096; 9489; 6092; 2231; 923;
  1038; 4167; 6204; 392; 2185; 425; 1836; 10669; 375; 11912; 7711; 7126; 7681; 7287; 20; 2151; 10767; 4119; 8946; 11951; 3947; 2455;
  5690; 3654; 9395; 10545; 1314; 7350; 7174; 11041; 9847; 6492; 3959; 2148; 6330; 1945; 1029; 1325; 5724; 3624; 1892; 8945; 6691; 7790;
  6617; 1737; 622; 6680; 11653; 3982; 2947; 4235; 8464; 8761; 4913; 7954; 3393; 2291; 8914; 7383; 6825; 512; 7619; 7735; 11295; 2900;
  239; 5189; 6195; 10485; 10886; 7021; 12143; 1687; 406; 2600; 11232; 7584; 9168; 7814; 5246; 3017; 1236; 2360; 364; 7073; 3028; 11063;
  5518; 4251; 7550; 2054; 2483; 3042; 1344; 11826; 3407; 3981; 1468; 6780; 12085; 5219; 1409; 9600; 4605; 8151; 12109; 12221; 10029;
  4566; 6453; 1535; 9089; 12229; 9572; 5232; 8347; 8682; 10962; 448; 11275; 7508; 7365; 5845; 5588; 412; 7187; 3056; 9761; 7326; 8545;
  10032; 4505; 6613; 10872; 9202; 5835; 7406; 3975; 12077; 5966; 9175; 2769; 8400; 11710; 5596; 5987; 1131; 1445; 11164; 7429; 5734;
  1176; 6781; 1275; 3765; 1518; 4176; 7226; 6636; 8022; 9828; 10014; 8144; 1756; 8328; 3534; 7725; 8794; 6463; 10224; 3238; 8581; 8840;
  11153; 3171; 7800; 9363; 10463; 11825; 1928; 8024; 8611; 11197; 7080; 3205; 8930; 346; 7885; 2068; 10900; 4840; 6162; 8257; 9126;
  125; 540; 10763; 4222; 612; 8051; 8062; 3368; 3589; 11572; 2982; 10916; 4103; 9860; 1721; 1536; 7228; 11071; 438; 8774; 5993; 3278;
  4209; 6877; 5416; 10125; 2110; 11573; 11475; 416; 9839; 1705; 4727; 11081; 10423; 5211; 1908; 7751; 3448; 11946; 8957; 12150; 2532;
  8972; 1481; 2957; 9349; 2046; 10588; 3466; 7592; 8711; 9663; 11759; 11511; 4504; 3758; 3454; 7899; 8071; 2276; 11307; 2593; 879;
  8; 11832; 4523; 4301; 8494; 3268; 6513; 10440; 1901; 9687; 7171; 502; 6063; 8496; 3846; 10716; 6263; 9360; 6320; 7640; 10608; 8468;
  466; 1030; 150; 648; 8000; 9982; 5650; 12119; 2301; 11415; 5808; 21; 2535; 1120; 9855; 791; 9462; 9416; 11194; 2643; 3045; 5781;
  7911; 1241; 4094; 8838; 1842; 8449; 12217; 4113; 7937; 2828; 9577; 7455; 4665; 5406; 3020; 5673; 3669; 7002; 11345; 4770; 6125; 1882;
  11249; 10254; 5410; 1251; 1790; 5275; 3815; 1734; 10939; 6457; 4423; 3869; 10595; 1530; 10080; 1763; 9173; 12100; 11010; 865; 9617;
  5170; 7315; 4565; 5078; 1783; 9270; 8095; 2840; 9811; 10421; 2253; 6878; 9559; 7469; 11129; 9195; 7771; 751; 4719; 11379; 5900; 7806;
  5703; 10783; 9224; 10891; 9199; 11463; 7246; 8787; 6500; 1658; 6671; 5386; 2622; 510; 4661; 10345; 450; 6921; 11711; 8481; 8619;
  9916; 4987; 12226; 5135; 8929; 7605; 4510; 9652; 2946; 6828; 1927; 11274; 365; 11408; 5039; 5547; 2485; 904; 1371; 24; 11675; 1280;
  2334; 11066; 1590; 4411; 1891; 7186; 10734; 10487; 417; 2293; 9951; 7596; 3418; 4443; 6151; 3469; 5082; 7699; 682; 980; 7087; 11445;
  5207; 8239; 8016; 9068; 9694; 8452; 7000; 5662; 567; 2941; 3769; 7434; 293; 3232; 10883; 9656; 6940; 2945; 9282; 1265; 3480; 10118;
  5530; 6685; 8190; 8345; 2832; 10268; 3572; 11007; 8360; 1706; 7559; 9060; 6919; 8753; 8536; 3941; 6643; 6086; 6105; 9169; 8136; 2213;
  3805; 11522; 11520; 5526; 12239; 12073; 4360; 9004; 7235; 9135; 8566; 11444; 10353; 12282].
