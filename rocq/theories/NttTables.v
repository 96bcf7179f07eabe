(** Tables of the repository, copied verbatim. *)
From Coq Require Import ZArith List.
Import ListNotations.
Open Scope Z_scope.

(** ZKNOX_NTT_falcon.sol:14-47 (_ZKNOX_NTTFW_vectorized) *)
Definition packed_psirev : list Z := [
  0x16e40c7b04bc29930e25261022510dd61fdb166802d22ae80fcb1be72a3a0001;
  0x5471c8f1970230116c4139f1e1216602549244324622dce2c4c25c00a4f1d2c;
  0x270b2bdb222012c50e8023c2254612ee2ad313de0bc623802ceb2c462b6f090f;
  0x2d2b1dfe28c42f752531299e1f622b68093e24161ce1246e2c191f212fb00c13;
  0x27d81c1d0cd40b410ca902d9232807dd06a00594014e097a19861218112404ec;
  0x18ea1ce720a525561a5b00910d830e351f7a260d2e9e0d36218629221bc62193;
  0x2624056522011fb01c841b2e10b629780220169f0153265d000903fe01e024e7;
  0x1b030b1500821eff095c116423210f6d1c360895007609ac1687033b215d2c48;
  0x2bec0b2b26501394164224a112fd01620ec22108030501862bd61c1401ba0961;
  0x2de0139b0e78258b1fd2126a00f206012a61214e2407001b1c2506601cec03f9;
  0x268b186a277625fb0bab17860e3e267c2c96213d29ba1c911f4513e0139303ea;
  0x77805622e4e1f10094d1abd200101ed0cb02b4a149d04901ddc2e6d085f2bd8;
  0x2910067f1dd32a6f0a9014ab134a0e3411552ffe0c4d2f611cca2f900f4b0876;
  0x5cc1ce22525144b0a550fd527001c4f1114087e1ec324e2233a0fd906990d24;
  0x2031273824bd2b800c72151f27b3065e0db614d40b3126bf2468207725832352;
  0x1dc0dcb13290f910608277f01a41a4a00f30bc8029f244923c11bba22b926a2;
  0x118d237f27f814f9150728ea015e05e818cb29d22a30263d05cb171b04ef0031;
  0x129207422e57230e0b6d015b2154284a02d300ae069d24400a5f199a1915254f;
  0x28f424bf27fe07a2267217fe02400f7b22380d6a00da0b5c28ce093910130bd6;
  0x50d1d801d5b15352e3c171401a20ebc14d5281216f408e9009c253220800f97;
  0x20302171048717662c4d2b872a850145249a214f0fed2051028c168617d30127;
  0x14b1181a0f7405502b511bc126061817063a28571c0f17490a842f5910ca0d01;
  0x2cbe1850220f1090052723b302c50fce081e045810e207a601b9039a2bdf2012;
  0x1b780efa18e21eb01a932413292e23ce263a247d169629e32fc10e4802ab099b;
  0x2800133005292f41228c12ac125a13c10313226703f21aa523ca1fb824991b88;
  0x27b2009724ea0f75171226382e52062b0c662fcd2533052b22f9185a190f02a5;
  0x10742c320d6e24e52bb0008e19d00d9518892c8c1c7007a42c160dcc2f102fc7;
  0x1df117bd0cbf21f117b40e1220112e5c2da408fe01f81f8c16fe12ae1a27242c;
  0x2be71e4915450f14258604a6211717e621342f6e1ab11161128d1a601d4c1e8e;
  0x2c0717252bf022471a3b07b526d92b0314c3201613341f1d2df70879234313d7;
  0x294101901808135421c61ada191b17f82fc90c7f14561a6807c306a60ded028e;
  0x2b1b03cd1ac62ab207820f27206328102e83013c206d01d417cd0e7e154614db].
(** ZKNOX_NTT_falcon.sol:103-136 (_ZKNOX_NTTINV_vectorized) *)
Definition packed_psiinvrev : list Z := [
  0x222b0db009f121dc066e2b452386191d05192d2f19991026141a203605c70001;
  0x12d525b20a4103b502330b9f0bbe0ab819a111ef1c62193d0d00169113722aba;
  0x23ee005110e003e80b9313200beb26c30499109f06630ad0008c073d120302d6;
  0x26f2049203bb03160c81243b1c23052e1d130abb0c3f21811d3c0de1042608f6;
  0x3b90ea42cc6197a26552f8b276c13cb20940ce01e9d26a511022f7f24ec14fe;
  0xb1a2e212c032ff809a42eae19622de106891f4b14d3137d10510e002a9c09dd;
  0xe6e143b06df0e7b22cb016309f4108721cc227e2f7015a60aab0f5c131a1717;
  0x2b151edd1de9167b26872eb32a6d296128240cd92d28235824c0232d13e40829;
  0x95f0d4814470c400bb82d6224392f0e15b72e5d088229f920701cd822362e25;
  0xcaf0a7e0f8a0b99094224d01b2d224b29a3084e1ae2238f04810b4408c90fd0;
  0x22dd296820280cc70b1f113e27831eed13b20901202c25ac1bb60adc131f2a35;
  0x278b20b60071133700a023b400031eac21cd1cb71b5625710592122e298206f1;
  0x42927a2019412252b711b6404b723512e141000154426b410f101b32a9f2889;
  0x2c171c6e1c2110bc137006470ec4036b098521c3187b24560a06088b17970976;
  0x2c08131529a113dc2fe60bfa0eb305a02a002f0f1d97102f0a7621891c660221;
  0x26a02e4713ed042b2e7b2cfc0ef9213f2e9f1d040b6019bf1c6d09b124d60415;
  0x1b261abb218318342e2d0f942ec5017e07f10f9e20da287f054f153b2c3404e6;
  0x2d732214295b283e15991bab23820038180916e615270e3b1cad17f92e7106c0;
  0x1c2a0cbe2788020a10e41ccd0feb1b3e04fe0928284c15c60dba041118dc03fa;
  0x117312b515a11d741ea0155000930ecd181b0eea2b5b0a7b20ed1abc11b8041a;
  0xbd515da1d53190310752e092703025d01a50ff021ef184d0e10234218441210;
  0x3a00f1223503eb285d139103751778226c16312f7304510b1c229303cf1f8d;
  0x2d5c16f217a70d082ad60ace0034239b29d601af09c918ef208c0b172f6a084f;
  0x14790b6810490c37155c2c0f0d9a2cee1c401da71d550d7500c02ad81cd10801;
  0x26662d5621b90040061e196b0b8409c70c3306d30bee156e1151171f21071489;
  0xfef04222c672e48285b1f1f2ba927e320332d3c0c4e2ada1f710df217b10343;
  0x23001f3700a8257d18b813f207aa29c717ea09fb144004b02ab1208d17e71b50;
  0x2eda182e197b2d750fb020140eb20b672ebc057c047a03b4189b2b7a0e900fd1;
  0x206a0f810acf2f652718190d07ef1b2c21452e5f18ed01c51acc12a612812af4;
  0x242b1fee26c8073324a52f2722970dc920862dc11803098f285f08030b42070d;
  0xab216ec166725a20bc129642f532d2e07b70ead2ea624940cf301aa28bf1d6f;
  0x2fd02b1218e62a3609c405d1062f17362a192ea307171afa1b0808090c821e74].
(** ZKNOX_NTT.sol:182 *)
Definition psi_rev_table : list Z := [
  1; 10810; 7143; 4043; 10984; 722; 5736; 8155; 3542; 8785; 9744; 3621; 10643; 1212; 3195; 5860; 7468; 2639;
  9664; 11340; 11726; 9314; 9283; 9545; 5728; 7698; 5023; 5828; 8961; 6512; 7311; 1351; 2319; 11119; 11334;
  11499; 9088; 3014; 5086; 10963; 4846; 9542; 9154; 3712; 4805; 8736; 11227; 9995; 3091; 12208; 7969; 11289;
  9326; 7393; 9238; 2366; 11112; 8034; 10654; 9521; 12149; 10436; 7678; 11563; 1260; 4388; 4632; 6534; 2426;
  334; 1428; 1696; 2013; 9000; 729; 3241; 2881; 3284; 7197; 10200; 8595; 7110; 10530; 8582; 3382; 11934;
  9741; 8058; 3637; 3459; 145; 6747; 9558; 8357; 7399; 6378; 9447; 480; 1022; 9; 9821; 339; 5791; 544; 10616;
  4278; 6958; 7300; 8112; 8705; 1381; 9764; 11336; 8541; 827; 5767; 2476; 118; 2197; 7222; 3949; 8993; 4452;
  2396; 7935; 130; 2837; 6915; 2401; 442; 7188; 11222; 390; 773; 8456; 3778; 354; 4861; 9377; 5698; 5012;
  9808; 2859; 11244; 1017; 7404; 1632; 7205; 27; 9223; 8526; 10849; 1537; 242; 4714; 8146; 9611; 3704; 5019;
  11744; 1002; 5011; 5088; 8005; 7313; 10682; 8509; 11414; 9852; 3646; 6022; 2987; 9723; 10102; 6250; 9867;
  11224; 2143; 11885; 7644; 1168; 5277; 11082; 3248; 493; 8193; 6845; 2381; 7952; 11854; 1378; 1912; 2166;
  3915; 12176; 7370; 12129; 3149; 12286; 4437; 3636; 4938; 5291; 2704; 10863; 7635; 1663; 10512; 3364; 1689;
  4057; 9018; 9442; 7875; 2174; 4372; 7247; 9984; 4053; 2645; 5195; 9509; 7394; 1484; 9042; 9603; 8311; 9320;
  9919; 2865; 5332; 3510; 1630; 10163; 5407; 3186; 11136; 9405; 10040; 8241; 9890; 8889; 7098; 9153; 9289;
  671; 3016; 243; 6730; 420; 10111; 1544; 3985; 4905; 3531; 476; 49; 1263; 5915; 1483; 9789; 10800; 10706;
  6347; 1512; 350; 10474; 5383; 5369; 10232; 9087; 4493; 9551; 6421; 6554; 2655; 9280; 1693; 174; 723; 10314;
  8532; 347; 2925; 8974; 11863; 1858; 4754; 3030; 4115; 2361; 10446; 2908; 218; 3434; 8760; 3963; 576; 6142;
  9842; 1954; 10238; 9407; 10484; 3991; 8320; 9522; 156; 2281; 5876; 10258; 5333; 3772; 418; 5908; 11836;
  5429; 7515; 7552; 1293; 295; 6099; 5766; 652; 8273; 4077; 8527; 9370; 325; 10885; 11143; 11341; 5990; 1159;
  8561; 8240; 3329; 4298; 12121; 2692; 5961; 7183; 10327; 1594; 6167; 9734; 7105; 11089; 1360; 3956; 6170;
  5297; 8210; 11231; 922; 441; 1958; 4322; 1112; 2078; 4046; 709; 9139; 1319; 4240; 8719; 6224; 11454; 2459;
  683; 3656; 12225; 10723; 5782; 9341; 9786; 9166; 10542; 9235; 6803; 7856; 6370; 3834; 7032; 7048; 9369;
  8120; 9162; 6821; 1010; 8807; 787; 5057; 4698; 4780; 8844; 12097; 1321; 4912; 10240; 677; 6415; 6234; 8953;
  1323; 9523; 12237; 3174; 1579; 11858; 9784; 5906; 3957; 9450; 151; 10162; 12231; 12048; 3532; 11286; 1956;
  7280; 11404; 6281; 3477; 6608; 142; 11184; 9445; 3438; 11314; 4212; 9260; 6695; 4782; 5886; 8076; 504;
  2302; 11684; 11868; 8209; 3602; 6068; 8689; 3263; 6077; 7665; 7822; 7500; 6752; 4749; 4449; 6833; 12142;
  8500; 6118; 8471; 1190; 9606; 3860; 5445; 7753; 11239; 5079; 9027; 2169; 11767; 7965; 4916; 8214; 5315;
  11011; 9945; 1973; 6715; 8775; 11248; 5925; 11271; 654; 3565; 1702; 1987; 6760; 5206; 3199; 12233; 6136;
  6427; 6874; 8646; 4948; 6152; 400; 10561; 5339; 5446; 3710; 6093; 468; 8301; 316; 11907; 10256; 8291; 3879;
  1922; 10930; 6854; 973; 11035].
(** ZKNOX_NTT.sol:185 *)
Definition psi_inv_rev_table : list Z := [
  1; 1479; 8246; 5146; 4134; 6553; 11567; 1305; 6429; 9094; 11077; 1646; 8668; 2545; 3504; 8747; 10938; 4978;
  5777; 3328; 6461; 7266; 4591; 6561; 2744; 3006; 2975; 563; 949; 2625; 9650; 4821; 726; 4611; 1853; 140;
  2768; 1635; 4255; 1177; 9923; 3051; 4896; 2963; 1000; 4320; 81; 9198; 2294; 1062; 3553; 7484; 8577; 3135;
  2747; 7443; 1326; 7203; 9275; 3201; 790; 955; 1170; 9970; 5374; 9452; 12159; 4354; 9893; 7837; 3296; 8340;
  5067; 10092; 12171; 9813; 6522; 11462; 3748; 953; 2525; 10908; 3584; 4177; 4989; 5331; 8011; 1673; 11745;
  6498; 11950; 2468; 12280; 11267; 11809; 2842; 5911; 4890; 3932; 2731; 5542; 12144; 8830; 8652; 4231; 2548;
  355; 8907; 3707; 1759; 5179; 3694; 2089; 5092; 9005; 9408; 9048; 11560; 3289; 10276; 10593; 10861; 11955;
  9863; 5755; 7657; 7901; 11029; 11813; 8758; 7384; 8304; 10745; 2178; 11869; 5559; 12046; 9273; 11618; 3000;
  3136; 5191; 3400; 2399; 4048; 2249; 2884; 1153; 9103; 6882; 2126; 10659; 8779; 6957; 9424; 2370; 2969;
  3978; 2686; 3247; 10805; 4895; 2780; 7094; 9644; 8236; 2305; 5042; 7917; 10115; 4414; 2847; 3271; 8232;
  10600; 8925; 1777; 10626; 4654; 1426; 9585; 6998; 7351; 8653; 7852; 3; 9140; 160; 4919; 113; 8374; 10123;
  10377; 10911; 435; 4337; 9908; 5444; 4096; 11796; 9041; 1207; 7012; 11121; 4645; 404; 10146; 1065; 2422;
  6039; 2187; 2566; 9302; 6267; 8643; 2437; 875; 3780; 1607; 4976; 4284; 7201; 7278; 11287; 545; 7270; 8585;
  2678; 4143; 7575; 12047; 10752; 1440; 3763; 3066; 12262; 5084; 10657; 4885; 11272; 1045; 9430; 2481; 7277;
  6591; 2912; 7428; 11935; 8511; 3833; 11516; 11899; 1067; 5101; 11847; 9888; 1254; 11316; 5435; 1359; 10367;
  8410; 3998; 2033; 382; 11973; 3988; 11821; 6196; 8579; 6843; 6950; 1728; 11889; 6137; 7341; 3643; 5415;
  5862; 6153; 56; 9090; 7083; 5529; 10302; 10587; 8724; 11635; 1018; 6364; 1041; 3514; 5574; 10316; 2344;
  1278; 6974; 4075; 7373; 4324; 522; 10120; 3262; 7210; 1050; 4536; 6844; 8429; 2683; 11099; 3818; 6171;
  3789; 147; 5456; 7840; 7540; 5537; 4789; 4467; 4624; 6212; 9026; 3600; 6221; 8687; 4080; 421; 605; 9987;
  11785; 4213; 6403; 7507; 5594; 3029; 8077; 975; 8851; 2844; 1105; 12147; 5681; 8812; 6008; 885; 5009;
  10333; 1003; 8757; 241; 58; 2127; 12138; 2839; 8332; 6383; 2505; 431; 10710; 9115; 52; 2766; 10966; 3336;
  6055; 5874; 11612; 2049; 7377; 10968; 192; 3445; 7509; 7591; 7232; 11502; 3482; 11279; 5468; 3127; 4169;
  2920; 5241; 5257; 8455; 5919; 4433; 5486; 3054; 1747; 3123; 2503; 2948; 6507; 1566; 64; 8633; 11606; 9830;
  835; 6065; 3570; 8049; 10970; 3150; 11580; 8243; 10211; 11177; 7967; 10331; 11848; 11367; 1058; 4079; 6992;
  6119; 8333; 10929; 1200; 5184; 2555; 6122; 10695; 1962; 5106; 6328; 9597; 168; 7991; 8960; 4049; 3728;
  11130; 6299; 948; 1146; 1404; 11964; 2919; 3762; 8212; 4016; 11637; 6523; 6190; 11994; 10996; 4737; 4774;
  6860; 453; 6381; 11871; 8517; 6956; 2031; 6413; 10008; 12133; 2767; 3969; 8298; 1805; 2882; 2051; 10335;
  2447; 6147; 11713; 8326; 3529; 8855; 12071; 9381; 1843; 9928; 8174; 9259; 7535; 10431; 426; 3315; 9364;
  11942; 3757; 1975; 11566; 12115; 10596; 3009; 9634; 5735; 5868; 2738; 7796; 3202; 2057; 6920; 6906; 1815;
  11939; 10777; 5942; 1583; 1489; 2500; 10806; 6374; 11026; 12240].
(** ZKNOX_falcon_deploy.sol:41 *)
Definition deploy_psi_rev : list Z := [
  1; 10810; 7143; 4043; 10984; 722; 5736; 8155; 3542; 8785; 9744; 3621; 10643; 1212; 3195; 5860; 7468; 2639;
  9664; 11340; 11726; 9314; 9283; 9545; 5728; 7698; 5023; 5828; 8961; 6512; 7311; 1351; 2319; 11119; 11334;
  11499; 9088; 3014; 5086; 10963; 4846; 9542; 9154; 3712; 4805; 8736; 11227; 9995; 3091; 12208; 7969; 11289;
  9326; 7393; 9238; 2366; 11112; 8034; 10654; 9521; 12149; 10436; 7678; 11563; 1260; 4388; 4632; 6534; 2426;
  334; 1428; 1696; 2013; 9000; 729; 3241; 2881; 3284; 7197; 10200; 8595; 7110; 10530; 8582; 3382; 11934;
  9741; 8058; 3637; 3459; 145; 6747; 9558; 8357; 7399; 6378; 9447; 480; 1022; 9; 9821; 339; 5791; 544; 10616;
  4278; 6958; 7300; 8112; 8705; 1381; 9764; 11336; 8541; 827; 5767; 2476; 118; 2197; 7222; 3949; 8993; 4452;
  2396; 7935; 130; 2837; 6915; 2401; 442; 7188; 11222; 390; 773; 8456; 3778; 354; 4861; 9377; 5698; 5012;
  9808; 2859; 11244; 1017; 7404; 1632; 7205; 27; 9223; 8526; 10849; 1537; 242; 4714; 8146; 9611; 3704; 5019;
  11744; 1002; 5011; 5088; 8005; 7313; 10682; 8509; 11414; 9852; 3646; 6022; 2987; 9723; 10102; 6250; 9867;
  11224; 2143; 11885; 7644; 1168; 5277; 11082; 3248; 493; 8193; 6845; 2381; 7952; 11854; 1378; 1912; 2166;
  3915; 12176; 7370; 12129; 3149; 12286; 4437; 3636; 4938; 5291; 2704; 10863; 7635; 1663; 10512; 3364; 1689;
  4057; 9018; 9442; 7875; 2174; 4372; 7247; 9984; 4053; 2645; 5195; 9509; 7394; 1484; 9042; 9603; 8311; 9320;
  9919; 2865; 5332; 3510; 1630; 10163; 5407; 3186; 11136; 9405; 10040; 8241; 9890; 8889; 7098; 9153; 9289;
  671; 3016; 243; 6730; 420; 10111; 1544; 3985; 4905; 3531; 476; 49; 1263; 5915; 1483; 9789; 10800; 10706;
  6347; 1512; 350; 10474; 5383; 5369; 10232; 9087; 4493; 9551; 6421; 6554; 2655; 9280; 1693; 174; 723; 10314;
  8532; 347; 2925; 8974; 11863; 1858; 4754; 3030; 4115; 2361; 10446; 2908; 218; 3434; 8760; 3963; 576; 6142;
  9842; 1954; 10238; 9407; 10484; 3991; 8320; 9522; 156; 2281; 5876; 10258; 5333; 3772; 418; 5908; 11836;
  5429; 7515; 7552; 1293; 295; 6099; 5766; 652; 8273; 4077; 8527; 9370; 325; 10885; 11143; 11341; 5990; 1159;
  8561; 8240; 3329; 4298; 12121; 2692; 5961; 7183; 10327; 1594; 6167; 9734; 7105; 11089; 1360; 3956; 6170;
  5297; 8210; 11231; 922; 441; 1958; 4322; 1112; 2078; 4046; 709; 9139; 1319; 4240; 8719; 6224; 11454; 2459;
  683; 3656; 12225; 10723; 5782; 9341; 9786; 9166; 10542; 9235; 6803; 7856; 6370; 3834; 7032; 7048; 9369;
  8120; 9162; 6821; 1010; 8807; 787; 5057; 4698; 4780; 8844; 12097; 1321; 4912; 10240; 677; 6415; 6234; 8953;
  1323; 9523; 12237; 3174; 1579; 11858; 9784; 5906; 3957; 9450; 151; 10162; 12231; 12048; 3532; 11286; 1956;
  7280; 11404; 6281; 3477; 6608; 142; 11184; 9445; 3438; 11314; 4212; 9260; 6695; 4782; 5886; 8076; 504;
  2302; 11684; 11868; 8209; 3602; 6068; 8689; 3263; 6077; 7665; 7822; 7500; 6752; 4749; 4449; 6833; 12142;
  8500; 6118; 8471; 1190; 9606; 3860; 5445; 7753; 11239; 5079; 9027; 2169; 11767; 7965; 4916; 8214; 5315;
  11011; 9945; 1973; 6715; 8775; 11248; 5925; 11271; 654; 3565; 1702; 1987; 6760; 5206; 3199; 12233; 6136;
  6427; 6874; 8646; 4948; 6152; 400; 10561; 5339; 5446; 3710; 6093; 468; 8301; 316; 11907; 10256; 8291; 3879;
  1922; 10930; 6854; 973; 11035].
(** ZKNOX_falcon_deploy.sol:44 *)
Definition deploy_psi_inv_rev : list Z := [
  1; 1479; 8246; 5146; 4134; 6553; 11567; 1305; 6429; 9094; 11077; 1646; 8668; 2545; 3504; 8747; 10938; 4978;
  5777; 3328; 6461; 7266; 4591; 6561; 2744; 3006; 2975; 563; 949; 2625; 9650; 4821; 726; 4611; 1853; 140;
  2768; 1635; 4255; 1177; 9923; 3051; 4896; 2963; 1000; 4320; 81; 9198; 2294; 1062; 3553; 7484; 8577; 3135;
  2747; 7443; 1326; 7203; 9275; 3201; 790; 955; 1170; 9970; 5374; 9452; 12159; 4354; 9893; 7837; 3296; 8340;
  5067; 10092; 12171; 9813; 6522; 11462; 3748; 953; 2525; 10908; 3584; 4177; 4989; 5331; 8011; 1673; 11745;
  6498; 11950; 2468; 12280; 11267; 11809; 2842; 5911; 4890; 3932; 2731; 5542; 12144; 8830; 8652; 4231; 2548;
  355; 8907; 3707; 1759; 5179; 3694; 2089; 5092; 9005; 9408; 9048; 11560; 3289; 10276; 10593; 10861; 11955;
  9863; 5755; 7657; 7901; 11029; 11813; 8758; 7384; 8304; 10745; 2178; 11869; 5559; 12046; 9273; 11618; 3000;
  3136; 5191; 3400; 2399; 4048; 2249; 2884; 1153; 9103; 6882; 2126; 10659; 8779; 6957; 9424; 2370; 2969;
  3978; 2686; 3247; 10805; 4895; 2780; 7094; 9644; 8236; 2305; 5042; 7917; 10115; 4414; 2847; 3271; 8232;
  10600; 8925; 1777; 10626; 4654; 1426; 9585; 6998; 7351; 8653; 7852; 3; 9140; 160; 4919; 113; 8374; 10123;
  10377; 10911; 435; 4337; 9908; 5444; 4096; 11796; 9041; 1207; 7012; 11121; 4645; 404; 10146; 1065; 2422;
  6039; 2187; 2566; 9302; 6267; 8643; 2437; 875; 3780; 1607; 4976; 4284; 7201; 7278; 11287; 545; 7270; 8585;
  2678; 4143; 7575; 12047; 10752; 1440; 3763; 3066; 12262; 5084; 10657; 4885; 11272; 1045; 9430; 2481; 7277;
  6591; 2912; 7428; 11935; 8511; 3833; 11516; 11899; 1067; 5101; 11847; 9888; 1254; 11316; 5435; 1359; 10367;
  8410; 3998; 2033; 382; 11973; 3988; 11821; 6196; 8579; 6843; 6950; 1728; 11889; 6137; 7341; 3643; 5415;
  5862; 6153; 56; 9090; 7083; 5529; 10302; 10587; 8724; 11635; 1018; 6364; 1041; 3514; 5574; 10316; 2344;
  1278; 6974; 4075; 7373; 4324; 522; 10120; 3262; 7210; 1050; 4536; 6844; 8429; 2683; 11099; 3818; 6171;
  3789; 147; 5456; 7840; 7540; 5537; 4789; 4467; 4624; 6212; 9026; 3600; 6221; 8687; 4080; 421; 605; 9987;
  11785; 4213; 6403; 7507; 5594; 3029; 8077; 975; 8851; 2844; 1105; 12147; 5681; 8812; 6008; 885; 5009;
  10333; 1003; 8757; 241; 58; 2127; 12138; 2839; 8332; 6383; 2505; 431; 10710; 9115; 52; 2766; 10966; 3336;
  6055; 5874; 11612; 2049; 7377; 10968; 192; 3445; 7509; 7591; 7232; 11502; 3482; 11279; 5468; 3127; 4169;
  2920; 5241; 5257; 8455; 5919; 4433; 5486; 3054; 1747; 3123; 2503; 2948; 6507; 1566; 64; 8633; 11606; 9830;
  835; 6065; 3570; 8049; 10970; 3150; 11580; 8243; 10211; 11177; 7967; 10331; 11848; 11367; 1058; 4079; 6992;
  6119; 8333; 10929; 1200; 5184; 2555; 6122; 10695; 1962; 5106; 6328; 9597; 168; 7991; 8960; 4049; 3728;
  11130; 6299; 948; 1146; 1404; 11964; 2919; 3762; 8212; 4016; 11637; 6523; 6190; 11994; 10996; 4737; 4774;
  6860; 453; 6381; 11871; 8517; 6956; 2031; 6413; 10008; 12133; 2767; 3969; 8298; 1805; 2882; 2051; 10335;
  2447; 6147; 11713; 8326; 3529; 8855; 12071; 9381; 1843; 9928; 8174; 9259; 7535; 10431; 426; 3315; 9364;
  11942; 3757; 1975; 11566; 12115; 10596; 3009; 9634; 5735; 5868; 2738; 7796; 3202; 2057; 6920; 6906; 1815;
  11939; 10777; 5942; 1583; 1489; 2500; 10806; 6374; 11026; 12240].
