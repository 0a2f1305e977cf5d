(** Certificates for the polynomial identities of Proof/IsoMath.v: the kernel polynomial, two squares, and quotients by p. *)
From Coq Require Import ZArith List.
Import ListNotations.
Open Scope Z_scope.
Definition iK : list Z := [
  0x133341fb0962a34cb0504a9c4fada0a5090d38679b4c040d5d1c3afb023a3409fcc0815fea66d8b02bbef9c8b5a66e07;
  0x264908af037bcede00d054cf5d4775e83eb6cf63c76b969f8ed174fb59fcff78d201f46f6cfc4ed6552e59ce75177b0;
  0x1335c502c1f54c49aceea65e87fd7203ba0f626f305fc0cfd606a5dae9f3c8e81a4b3b69600129fabd307c69bf319d39;
  0x94440f65f408a6e930e16e3e92dd17bf60d6e9679a8d3d58593de55ac23703042d609537eb3549aac234d896ca82944;
  0x4afe09d5cf4956a23b6b71f59d2b3407b415a774b7be81bbb6fa99cbc798e0ac98ba725a5bc328016b1c268b4766e85;
  0x1].
Definition iS : list Z := [
  0x364612fe1011542e6e51ab814b205ea71230349fc2bed82999ca5c4bba637cfbdc1cd1822808b0a87382ad5ddb73d90;
  0xc32d61473827ae54e633e0cb9dea5bdfbbc71d7a4b116d7f5da84a4066b0ac5af2f7757f47b76d9df5ef9b36e372069;
  0xe197f78676c63cf22f5595ca27fd4347cd967c12e0a0a9126b1ed8b3a846c1c76fcfec9f7ced5b295764ea86f670c67;
  0x7c27bc7963a43fff956e2b54daad283448e72bc32e4f2b72dd2e081b9dfbd8782ba346d057d8950573ced16e2bfcf1d;
  0x14443ebc394c83fe5ad5e34808a27429a9d33d357acf3b74cce49d871ab286ddc98dbbab785c3849dc864e718f7cc111;
  0xcc3ebf1f16ef9957f5aa9c267db7437b85c20040e9c87b7ff704690dcc397e4c537aa404dd7d41265ea3f5376f8124;
  0x174f49c5c03bc60c00fa767b810882f1a405fabeb8730de687fd55637980ae30410f7bc86964d4ae46fbf38de5d92b28;
  0xbc4d85751f1a6c7dce52364b1abae31719edd3551efc790a654258f8fdb24a6d7a57684bafdd216a17b018fd646438b;
  0x6a893aa5e4bb7101f357f06190781d929fd6e1dd2bb260350bcde4d70c040150cde57048b00bb2f88dc25ae6bc8e8c8;
  0x188774a40dc81db608744c72f78b203a072111e7e56a0becf281611cc3f0b8344f9c46c0d78bc6df54dd94ae219d5fd6;
  0xb0e5f187b546d370ed10134dd51a9ea5afe2ce950c6d621277285c8e1a5b32d287d1fa0de82e9d1695cdf420d233161;
  0x1592da97f942047e0b3ba97e63e1a61a9cdeff56994e7e168ac2fc4573c2673bdaa471e537bb86b0cf17cce071833f54;
  0xbd52f5b450d872fdd3fc45634980fb499a56a968d4baf2f1eaf42c943b8c3424fe99030f75c1c9c381b9ca11322aa17;
  0xb541ebd62ce60936d8af9751a1b1eb83500aa20113736ab3bdf5e369c657a277de36b3c5ba05dcc0bda3fdf93fb41ab;
  0x5943ca2c3bac41f048b4e499a88e3fd39e64771852ed2ed6c750c461378eb091b17d266a502bbd115fc4aae47ef405d;
  0x114e816775c39902e2986ad37457f700e1d59f0c160f02a1554c843afdbf5091f02905b01f0070a51b73df874dea6e4f;
  0xc825a8ba33fcbcd0deeb39d01431da76ff878e23b168d050ec136e96b7fa4db98ad56ff21bc0e1cac95b8f52e2d10f6;
  0x193066e443bbff29dd489657eb1a552af4c01d47c6997b7b7a5f1c3bb3cb0b11bc0d6544cf6c806c4a8b6284f7f46d24;
  0x26a20e4e09a560027ee895f66015e228aaf6fcb1e9562ece6d64c84cd347a0e593ab3b3be6151d0a26cc3fa4509a9b;
  0xd10ecda5f4561453854c85db048213e036ec0a826c6e562abfe2b7fb552cf75df73f854ae50ae6097c748f686ccdb3b;
  0x1425d2c8e1a26a0531e2b9507105b0f56e1eb51f7e6d119be1aa608f108c70a2e77a1016a266891a12d4fbe611a0935;
  0xf8942051dda9f78a9b392da80b697037300641e1863f9d611b15d9a11332ae7129ddc56c327e23b6f2a034cfca92392;
  0x1880fe0904b5cdebd70e429445b351892de665ce521867363ded3361df57eb7abe77f324f00d4fac01a522cc8b8b288b;
  0x11f232fd5ca7e8408d3a410b1aed129917243a3c92c76833ab38678178682b463f6272c1c42868c4990d753ff784a37d;
  0x4b636b168654548b500d9db6a986af9a32938291ee834b1a9319620f414a096ed4e5d37b43f8f7fce5145e757786fb2;
  0x10346fa175d204b4d667f29c35af11b661a82de95f72f823866ba17e9b7b82aeebfc991e6b3f0f6d71d0cea0fdef78de;
  0xd1cf4024ae082cc5bac9172754516115f19bb26984b72bcb460115f92cabc86565f0fdeb8a1aba5a9022ffba6b9fc56;
  0xe69b89f793ca86ed2915e4dc93922fc810bc818fa7f4686367792d04d28e36b3c4849ef598ea4b92a5eab6bc7b61ab5;
  0x19650c15e0c5fbbddc37605966c49f7501966c94078b5b31bbdfe212d595731812931f5e967a56346432e6a45d3f1fe4;
  0x15651c2428ce3826d3ddb4fe2d9a7c1243da48d3d0acd5f242e382ce856852a630d118260eae4c28591b56b4d40f9f6;
  0x30673b1c24bc7c97f094944729554461095cd85335b191fff80dffbbb553b41177f1bb29ff5dc3f24e921b95cfa5796].
Definition iT : list Z := [
  0x853ba4ee724d0738e345eb00520059a21e98b19f025e906d2d3db32e37dcef6fc62267726aabd6492c0d61bc9d30141;
  0x1350edf8796a4b8239c507c1d3709ae33e8b533da811c47b1acccc1aae68adaa56ba8d29e9c9e175677fd655a0dd3d78;
  0x2af191986cf1ecb974c106351594d92ba89fbe04bf566979537d690a02490afc5ad54a8dfcf9c9639641b56d8fcfee1;
  0x15758cea31f0ae2751d9d8fa15f00e06030ac121c8cd2d6085234da1a2fdb049ad4b535eae28e78bc11ad91546ccc12b;
  0xcc27d2f0a264472b9d11f9a7b7d9851e25a861a2d59254abcc8855e6d620ac395c13557908663da454742b9ef4c7169;
  0x124c09bb2b761cfda20498068762a7832d996f5f8f59cc47aee059e559bc80ec0dff7c1f4464c67d317405a4c92808a;
  0x12326f9f1ae44948f01f5eabee78ad267fe65a9fb292184a625332769998136c41db98982f200dd18d174589a338d9de;
  0x149f4b619d0a81e9cf4ce7a020d03bef796a6d558eabad29b9066ec12eb90a855c95a75b09985c4a2d7ed472afeb2084;
  0x8c786ff5da0738d3f01d50b6490dbc835386e9fed6c9a80ecc84237e150849abbaee37465700f082e770f6e47404d84;
  0xb0a23e320bd5e88429929fd9ed5c85b2671dbe78f37e44959f13413ed4fefc9662be41c98d347f1a86d8b235b5c7286;
  0x14c7ef9b6c7705c27b79dc22364097f1497fbd3d95a3e8fb69397369d557cd3a81a2731ad62819b5965881b96c2062e1;
  0xb925b75f70f5beab04e8221bf2d29576e649863584a66360747d82c50b409eec94c08a0d8c1f9491deea10fd6daa73f;
  0x647957b19c6cb99e00db2e721b130af87729e34641618620732bcd05d875930fe05268bfc3363381013f92e2eafadde;
  0x127a2434337c5508327e85269ddc90cf31c12aa4feb11567f20f9ad1e4bd0b9a83a3783682aa81bdd98f65c9ad56e9b7;
  0x1f05d5da5c280835062eaaa81175bcbe0725e1e7a9bc9f0898562ab66a5f949ff1dbf28b4885c6abe20f658149c0ed7;
  0x11492744d209645aa9e1023fe063d9fa5fce16ce7e9f739772098fffae3c96f0b1a2b6ac4c0eaaed7d92fefae39dedd1;
  0x5a27730e0a74277ecd9acaa24f6a0020e193ff17b068685fca07d585e3a278a6a96206ce2f07c79f3efb780cdc7c9cd;
  0x7093daf78e450be77c82e5f63de46763661d878ffe65ec4f83653fa40f6339077bf8e994a27e30a85f7b447976040ed;
  0x10e50bca7606a80778007aa8810dbd635d0e26f78b4cfbb4784cf9d949c1bcdc6edcc5418eb0893aeca6510e05caab5b;
  0x77ca8155129d2bbd927c0937c3d717ec0f2e9faab2fc21e221bed4a2605e77eb8ec93d339b46ee0138bd886b2b6a083;
  0x2a2c9d7fea4a7c5303fff70ed905757495ade9712ee51341372eb97cb585a4d6311b4e19e773e15b947013cced1e239;
  0xc84818625900d8e036db43a84800d1ba5b71a4469d4c73cec32af2dad651a2c1afcd9c4aa7abff71742d525027aa711;
  0x1fdb435b0d2d1ccefe075627a716156584802aff4c7d9a81f3e592e0d9b8bca6dac177fe89d19dc463ef09cf258108c].
Definition iQ1 : list Z := [
  0xe2d30220fc872466f9e20f671646303392e81ca6bf37f3c022316950c3d00b5be27807b0fece6aaa23f441e4be2bb3f;
  0x38893771c92c2c255060842c1110ac3808efa87e564ba35ebef2e441d62f26f46331f7f1fa330d9075310929b10aee3;
  0x1c9673a47082ee5b6b4d4715d2553554ae01dc3fdf5d411135972dd16df93237cc8d9511172314a61b47b0afc124500f;
  0x113827133906e093ed1ca9053e6521387cd91b2ca43f137899d2660fa7051d0089740c38d1d4b6b54d931c9cee5713c0;
  0x16d1563db072e55496734d37090ae0b4f39b7f6547d26bb85a65d2d16d39229e8165fd0133c04f31896360d1fb40e40b;
  0xe8db91f0ee43d425b803fc3b07789bd3915320c5307804d9c4ea106ae4f33b08114c55e651d9e88b7821069714cb5b3;
  0xa3a1f86fb4fd29a97bc8c620c3c0570ea00c858c6cf4d2d503e26a78c330ac166162700b75804f0900ca6d487d78950;
  0x35727b4b31174a76d0bf52802cbdabe800fa6bc01261179bc07e31c3391724b2f586ef76b8a834d3d8c23af129c9234;
  0xd844662a7a8ec26ec1af9d1fa51c2918a22796b59de4cf9b06197858bafb5064f5175ba61b5fd0e0df097b96232820;
  0x0;
  0x0].
Definition iQ2 : list Z := [
  0x67db2d3a7edf5e05256bf0e61b3286a1e2cd6e59ed7a05d6a6064683b1482f59a0484fee30911704cb3be005e0c2609;
  0xe58fccafee3ad38c4b782693b49c0260cec3e11c91b7345c7b04d6d611364d65c1b7e3633ea8a08508b55ed22c1b6f4;
  0x106c3dd3d580261bc4d0274f50b20f092578ddafcd1330804a66d0b03511acb7f0d4ecca8de49414dfd38672c39812db;
  0x141c9dbdbb4b566a9e470f6c2b52cb6215f32ac43240b28b7ab0cac66a94ab6cd6eef52729bfad973ab98f59b4655cab;
  0x1f2e0840fd99d45dad3ef6dbec7990a2e9d82fb310e37e93cf1db923facb693ff48db231b2c6958038b65ada6424d42a;
  0x162b2bc54fc68f478a9fa8143a662e6ab2bf942c8a07d5f3ea688a82de7fb56fb2c04821ad2b303391e4e445d619855e;
  0x18868d91b3eea7e294ba8447d50eb65ed340f5a47165ef366168e2057bcc9368f8741acc3647197125184ef63811d91c;
  0x2234472cabede491c10979d42a4535e6ae5a26d2a26f5ee6aa9046166437363f85a98fbf1e49cfa444a8c3170b6358dd;
  0x17873abb9f20870ac955ae50675aebc62e878e8c45f1004dd8417d5a78cfded170a78ff0d6af91c5d6e182d39439e1db;
  0x1c5d664aa34d113740249ae3239bf19b03069ef379a041f8be7143dd424762b1764811029eaa1033140407949191fb6a;
  0x11006ae9362046e896a843668191b145b25a71e452847b688fba34d8bccd02e7620ce7165e6ae2be6741c534caf84465;
  0xe3c1d2a90bddd7f61ed45a39273230939689d806588e364f13594192cd0233f80687b8d661447b322f849b4e52c1b04;
  0x5279f7851052c7a57d324d2a11f8500194021231398ff6126f3aff8f9ab7209734b056aa03f3e9457cbacaf03fac0a8;
  0x1b088cc54f51d84dd835f3a3f4a385231444f2d6b3bc99f360c32f0b175f6a0c9ea2eb74c36bfa1c1be12f72c465040;
  0x0;
  0x0].
Definition iQ3 : list Z := [
  0x326d8d3f4532b086740a6efaada978395d6daf17d9918593d10c6b6fee4c3955c34551dfd71b5388161417421adebcb;
  0xd6df1e2f6ee831bdc2afdff29132df37194cd0da5788426639243b07b19c9a113eadc8eb3a11c671b2be34f23046a11;
  0xedc9b7ba7ce6a862538db5463c9632549577e5e5d861ad25bddcb0cf703864ecf1bd7618f99769207f1badfda833e83;
  0x28e8271841af139c7f68fb73e495d1cfadb10e2e396131e544e7af17a6897f2f77b62925badf4b97bb7f4e9bba1e027;
  0x91287ae4ee982d8c091bf45f0b8a44c542a4713ced96f142d88be200cb44b6456957e3d92ef3caee7f0b64873dae36b;
  0x1cc01e0bddb41fcd635c4dca7894af654799792e1d1887c7b66e5f355621915a2531fe89c1dee08cf770fcb32429dfcc;
  0x2521feedbdb9ea12802e049ce7f806f979b54ca230ec1cbc3e10b5703f1ffc5cf3eb0cc0ba43c44d76567d5cfe334323;
  0x1044a90838fa41ab9ba0d34af35a3f2c52274a3b16f456c8189693ad9a373ddf2a5007348c406a2445269528b23e22df;
  0x1bbe581b67eba2d7f56b833ee3307670cf38d5383d0cc5bdc067e89388a16d2cbc1813a4730f53f8da0ca834321e745d;
  0x291152dbc0996394856f1e851698b4255158671f5563c78d39f94544cc9a38dc19b7b2f3503406b3a13491ea5e05c022;
  0x3f1d070fca17c5c77b65d948eaed3d4ef273bb5cfe5d3fb6a373e66df74e5d3c841b735ec4b459f87a0f1ddeab32c0f3;
  0x47cdeff99439e050f6b3a12dac5684427c5d68c610aa4a97bed6e9b5e0d722f011f1edb6d6f316b1362a580485ddf048;
  0x481176eee1f22ca0f18ac8beb998ee65479e821cecf1cdfccf0d2d6865fba5d09e8809c734c0cdabd742e0c86d7fd7e5;
  0x3590615156404c8e2e1780b8920ff63583bd7fab32946d822d9a1ca4a4a2558cd40e776952184bdc01b46e53a686d2bd;
  0x3c5fa802ce833c8690df0c28755a6893e5b9e32cfb8d804ebe1746ad2c4d2a652a9af59f0cbc02e34d5f78ad6d8bf562;
  0x627da8115f1a8b3d00d790b02256976bc6ce5e3b846f2187471c36ed0eb3c89787892de86a0ebfc613b6a3cd1ab43b99;
  0x6a84c0c94b3f718b69612c6c80f253c6ba2e18d8b500f29deeca3513e54e091ea36057b34c1b561ad6261110a8a37f3b;
  0x3d338633e82e5013cd09724e7521595cb5ebb9cda10ce7e7f06434ac716eb2a19b1a42796ec965d166e87239372d0a94;
  0x3c684c235683983579e5cafc7b215effb44a24574c98214c4066e19c3aa7a4864f7e156548f990e0e71070fbdeee3155;
  0x503fb6790849370145a7944cd6013e92e6383996b6931df3359ffb827565c248220792feba45160a859008800a9769d7;
  0x65a467f6625413221e9c5e8b46ecf1046b4cb4263440201a304e96ef3bb272a2cb939a45b8321827155408cff454d303;
  0x4a34dd163724697b71c6c9c914473f32d05a9c80e5c2ef25ab9a53dc65be195ac3435143df5ef85987bae6c3a54500d2;
  0x441e2f1f8d21279d6af1d2618c33ae967c5fca05084beb34b45e8ccd9bd69abc90e6ecb72cbbf96b4b5aabb5188b9dd1;
  0x3097043dacb946ca429aa5cdde608f9988fef3b8b2ed270ff39f2505ba776dab966c4f1c89fdc023847333329076fdb5;
  0x2c1351515f54e0fd02322dcbb2906df70576fc97271aff7f0c3975e6823632b268bd8204beffaebae407020fa506bfca;
  0x37ba9d792101ad27c7183543139c8db7771c6e71e7c83cd245471d92992b311e49797153f5f74574790221b6975b4a22;
  0x2eb8fcf2179e5ee4a9bbb4278a0db9d5f61359a9b824adb12888aba26fe14ad9d3e9caa77d83c969c3311b371dc268b9;
  0x13b18cf9e740cab92260af3b9efa37da78f33b30dae89cd034ce34d99b06a70ed8696213bf59e0a32ae5447ae46a36c7;
  0x519bd96f9e7f830f97fa244c8896a0926d3eab6bb3e93b3482f68f056058e50b0b413c287d2a1f3e2e6548113294f07;
  0x9b176c4c2f33b5378065d1297cf2c75bf85b459145d566224376a15a060ab234965022eb98c282da324604930363526;
  0x1272221bbacd8f39f861131385a3ed7273772bf01f76be9f14c2ae9144f172862ad4c8c9340850e7cc607e24817c096e].
Definition iQ4 : list Z := [
  0xbf2a0b2c000f2d9624af0d104ccdc71d35ff04a5ec6d988095aff6175c2cce4b57eed0d986650911e6785b5af209eb0;
  0x1f6624b6020693bb5169e68c4d29253e12b26674f754b4677b3aa8aa005912c8a3206976c5c11456648935dfd61f39a6;
  0x26b2a1515dbab0bf723c7328c178512c843b63a0d1a615da7d606f5d1ea0e3738fc28489a23e192490f58b6a93d56e08;
  0x379009db169849f59bff849c75bcb7c2d6169fcafe4313c301c5c2b4249cd39c340b27bafee6c941ec4619c86b01fde9;
  0x446f7f69e8a4a5aefc10b5270a7f1e12df4bda7c834d3e7fba509156c411fb7c71f765f4bf37aa9304c0441bea8bdca1;
  0x502681def699ef24d0cad1496db826e2259acc8887673c9c6e010970de3fd83e99f8a451b44b55e2fe7c737f712e6772;
  0x5de461339f44591063becf501f04a13abb635e94253ee73809961dc588ddf69787ffc110559d749f2b7e3efe679f0e17;
  0x692fdad7bdd2d65dfd80f50ee926196934c15f2ad1b3f3c8ffea0de616da88be560da947d20e64358787aea1f48857be;
  0x7331a08d7b28a7417f60046fc0e7a3174dfb54e723924b5a927f305af2b08a34888c6ff6134dea31612c3086879b729b;
  0x76783f3bc73e5c9b4cc8108bf7c893ad1cd339f569ddae8bf20e6ce0558b9d660235ba7ed23076b448a1dbc4a92ad102;
  0x93515717d07e42f4694988cdcdcc17e7f7b230bceed7b068f5559197545191eec6d2ab3286d1733be066bcf24546598e;
  0x7d70d8a7d35fb04764eb6ad65284693709000a42fd9a25bfb654b8d88814d845b9fea4eeacb731c99d1320351cf17ab9;
  0x7e1f9ed64ec98b8f0c3c497c08fd11d9990c9f1fd9784d98befc07e1e5d9766e0e29d479306fa2866c363eb8636bd7d2;
  0x63ead969d8ccc03d53034b0828e9bfb931691888829ec29964e7a7c43e8f10c6b9125cc7deec78ad04371889391c9f1f;
  0x6322a40f3c2ac0d3566305343a51640206bfad72e84fc918f355d870f52fe8783b91259c5ed8355da53cb0ef968488d3;
  0x496815704ef5c383f62ecb9fe7bf8febfaee18c4ccc88f776c21b56a38f2fff10a6a1095d8888d27856221ab3e23d815;
  0x4833a9dfcc0cbdfd9160a91f33e6fba4630ed6b859dc72a9e254fc0eda7e811b215205d208f48039f39b29dd37d88b0e;
  0x32a63d65483c674e1b915001020e67c76e8f3b70dd4d66537b7e8c1ec542b2345dd2679db53589bb6f72bc500dff1899;
  0x2a3a189635efed80f6673e5a4029a42fa692f729c59c432b917268af038bdc2fb7141423de5470a866f1bff604ee293d;
  0x206ad7e008b03c3590cb5cdf88d519c0ffba7f3bee17c47fad155088fb1b41dbb617826db44730b69680a967621a660d;
  0x160b375dbe5db5dddee5e214408514135dc6550747765dfe6c70f3da820439d0f09ece66e362f7ac41d92059fe5b6874;
  0x890fca10b887aa651e71968a20797d49de137777c047eb9906b5887699f5b301ce218ecb82646d61aa93043381416ff;
  0x1d1996d1b03b7a755fb650fbccecaa4486bcc8f5ff13f66a6046dc7dec1b29ee0def876aaec396bcfcf87fb6248ae0f].
Definition iQ5 : list Z := [
  (-0x4e15ce3b4b381d4ec2319a799ea91a1ea39ae6f209a4b864f83975cc0acd6f70d78ae7c978cd8fafa10862edf4023b71);
  (-0xb7fb2ca7450d15875c79a79edc872e57d14cd00b7924b15fbc121c4e33022924b80b8d164a92c1088cace21c469f51f1);
  (-0x95daa1a7e7f6b55f2e13854149af50b5d06f8ed16bc7a56f554fa4a3aa8276399a3ba359ec85fda90200b7f65afbad9a);
  (-0xe2483dae0662f5f46ec09209df7f9f27ba5c35e79ce13e1ad6485747520103451f8afc1e18f7116a4d863062c758e3da);
  (-0x12b511c0133bbdbf0c56ccf32e07b8bd792680cf1dfa360b381325020bb36a48acc90fba4f314f0b08d11b04408a1942d);
  (-0xea8c6388a6c5d48684930ea52d788f6940ef85dedec0744dc3f68aaadf798e3b6a448d11381b9fd454d49ae65cec150b);
  (-0x16d56166b61449f850c1dd5ddaccb08204bac7b13064cf96b18536b366b2eea898038721965de181e52bfc63807fecd2d);
  (-0x1ec2c7b6171311bd6869c3d5b28feea5a1b47071bf11972e110d928b26f761160717c767322380ec9a0d6739947290ff6);
  (-0x21d23a7496e023ec2e75630e1908067a76ddcc6d65b3ee5f5ec09adf8113ea0d9fe5b6bedb8d7c217d4ee9053494b5608);
  (-0x279547715b415a93a973d1021b58783070d93feec805b81a3954c016e4dfcb57693e2896e3332175d2358c9d93cac2583);
  (-0x25924313457cb60f3f2d3ce32b2d9cdd17365786aaa737e028df320c5f5cdcc2f6044678178c70bd442a42fbe9510de88);
  (-0x226634450a44f3c80cbca660c01545d4e70d2ddfc41c63a2b68943ae007a4ba4d7d782eb63776e68801cab8a168353cd1);
  (-0x27ff9781fb2351025e61dd06b537bc3b498820af231fab927cddc980dc892e89e3e40143f22a9d934ee702e48bb806349);
  (-0x22e89f6ad5313b872c108d976a70253cace5ab44c212b0d90141d41996123d1f66e5b18fa5d641f3eac20ab0014157e24);
  (-0x271dfbc82e88ef8945585cdb58a8a60349bae547152163aa6dbb382aefc7acfff2b5a8c576d7fcd4bb8e2c645c60b41af);
  (-0x2872ee38dc9bd283d1afd2454359998431cb0956805bb4332d8ae65e5aeb50c1c4ce37cc757d86eaff4255fd7d5cb7a61);
  (-0x1e566a9440de1976677459fcb81a425bd7131fd4dce33cd6ee059ba3e16d8dd67509775afc79041755b23b96fe20fce4e);
  (-0x1e4abb1a598f05cde2e9ef8e72cdf25597502dee720b60396422035dc23c408bb9747fc2476153274f573d5ba206dee97);
  (-0x19f4f15795583c604d832768fcaa78921c4a34c9eec8f02df126b3f768917d57c53018d1a603baab5ac98709782188dcd);
  (-0x14186da1fae4b26158da1e7c5a2b707a5df31f7a029cc8a821adedefe05ed6e361c46fcae26d658178c69af953e2eb2ab);
  (-0x167451179cde86a4b283dbb2918f8a985571f358d0b298bfb2c779673f40278806c723bfcc73599adcc199a9d1304d557);
  (-0x10ce4f64d93247e1c55f962abcc9e8b3276f769967aebcdbd4355a321e9a5b1a30871984b71ebb92b1f26871822d1f722);
  (-0xd8bbe9495da73b84e4de7b410c3df606051d28da5cc3814eb9331ad089e4c42d2027346e239231daa83646abe66fced7);
  (-0xb5ddecb59b7c357e671bbbe438f48fb21133669c6f1713f89f93ed96571f207ca7afc9e342db8db8c755c8b95d6cde11);
  (-0x65a13076b1a97846351688098e5698254dc060c8007423c9f3c76e687af1f4e5a92663dfdaf2554e3bb0b90a7425f7ad);
  (-0x5ba3bfd92e99f35a48197254b89afe3ebe240e2143740e355361d1f5f900e5ed3e9b7ba56fd2a70a87125bc934a0fa04);
  (-0x4d9e0f72621e55306a3415122820d04ef57ef2d0d4f41a4a60f67e139658b870c05fa4811ba0022f71e125facde1243b);
  (-0x2150b523a805f9a5d097f9e4c4666b4468d890a1fe5dbce76176c4cbb5b36262238707d6f3f9f1a209ed393c60dafc03);
  (-0x2c1488b49d3e54590facf2887c397ce883e763af25472a67c7841400c1da7947553dea410d9b5cbf32a3e0d793a629e6);
  (-0x1010ded6850dd81ce8385eb977a64713157d936f244180c491537c31b34e58fba463286cd4ef72b6334bd7fe6623dfcd);
  (-0xceb3d7b882e2ccdc7d1a86df7ede605f620b365344f887501b6fb629626612140aa7adecd34d631cfe6eac922d0fee3);
  (-0xa370119328a95f624bc59137a10a9e8a03a4764fabd1e02f06c5a37cfd6c64f7330502a4bb0d5a16c8c894fe1d25f76);
  (-0x48cec60bd5b028ff283c9c9c3393eb38b46590efe0a3eb46d96113166a23c4978ce4f3fcc5edcf4a311a3173879d315);
  (-0x86cc3883642f05897cf29d37a7816958ef13c0847017b5fb918bf2ca7988684fc7f54a06826829542a089ffc637482)].
Definition iBs : list Z := [
  0x223ce80b1d41ef002af5399cbdaf1c57d59f777d5dbb2d4a70d9d016e17da6a52fd7c2b31f98beca13492c1e30d9aac;
  0x19c34a77414bd6a050d1246ee4287f3069def9d857be4dae52b7d71ceb50596ef4739f694ce82661159469fb90655b4e;
  0x3c19d6c7c7cc2c1d801a04c5fe3bdbd8390b706ac2643769cea7bbbf1a1780ac67ddabc1f97bb8c6fa57a609e87b238;
  0xb4bef7faa1cd3b7b5c00cc185a588362061b3e4af92b51e8df2884e3cd40b012d1ec0cbe61ba6f17fccbdefaf57e368;
  0xf2276532309ab9f99a7ab92f83ed57f69f666c20e3e9bf63eb95e53bb46a2d9c3ee269926989367bcb5332db12e27b6].
Definition iBt : list Z := [
  0xe119e9a5c1aff96fc03a04ec4a13b9b717d988e45cb6ceebc99f4745ce75a50585a08a54f0c4dd182e9c58470a3074f;
  0x13337b4e8ac3099601d9a1015f09bda53b6ac8a3648bd697dd7c4cb7fc801f89993ab0b964c177abc53258c77690388d;
  0x10a69989514fa7e7b5d0f2b611dd5c6a954efc9820d588885e7c5308f8dd78d77172731a52090ddced4615afe497d19d;
  0x159c80e2d41dcfbec54e94b47c9b2af5dadfa56ae6323eed1ef61eacb9e323bab2b45b0a15cfbd6ca36925c6ada037d1;
  0x1250a920d129003442f8467dae52da45868ae1f83d8c376dcc331a638e2f5fe672b688ef3272de67809aab1a36efcd90;
  0x1753927218a398134192d8819d92b936409136b4fb53200165d7b11a9ea176c222e1fe0bad31289c446c146bdc3ae11;
  0x12e3ad2c0e0eb805bc43e950b0309909873dee9bedbb0523bb09de14cfff29ef3f0f4c9738bcdf55b52ac6fbbbaad7ea;
  0xa195eef5c3cb6b404851a165604b756a87d7e8d7836161e91c85a629c5522ea2b4061f6f750e7ee1faad7c5269ffb66;
  0x158bf7bf4267bd7abdbcc56cfcaa770c4a439a73debd99ebbfe77f92fba3efed601d021957fc0c812767300ab6bdf641;
  0x19c417add02c3a033d75cc6e056d44bf10fd870a4a1e8a100a3c46671700c83d8c2885d0f47a53c785083d8f93ea68aa;
  0x19e10cb4a51c6202c26ee5c3dbb0b5a7cb427b54cd51c768bd6a87ccb38e86c7584ad33f03858411e91901b15764d6c5].
Definition iQ6 : list Z := [
  0xbd694f55a0589fb23ec652a81296346d46cb80fcd0c6151e522b0845fd49932f894b5185794a3c73094546ab0634654;
  0x22d72df88b908ff7d240cfa6012801ea43147b77fb87bb0255492b86058487fdead918d4be42a11073d67f31ec072ab3;
  0x330b17d547022e55130a02b40fa74f9478b66efbf84ae7234e5e1d0157a0a74499e05f6e2c51be1075cf0a3eedb3733c;
  0x3ed35ad019589cb1a8b299fbd1e6f4a20b63c3d35e71b7d9e336330af3d62792e6d2413c172b4bbfe4ca8cbbb26e413c;
  0x53e43d3fba6204e5c6e69cd5f65b9e5fb13a066b4357fe8880f76f7ac9eb00ec5cd5e29d97d34769ebd38481f4794800;
  0x431252c813512ca17841ee86753058883fe3ff38ccc8cc65d307be4aead2056b4d997e7803a2232402cf242169551d30;
  0x51774c7f0fe4d3d0ff4cdad280ab83fff0dd8fd993028eef119e6ff6be0232565c540f71b9ddf58becfc08152b23ec26;
  0x3b299818246afd7a994049e3edea2bf5eafbb61a5766ce15e4f24ef1b26ca841b146e81b0d6360582f514da8a6f9dee1;
  0x4eda1f8469ea7ca1c7a1d86eda6e3b0154ec0e7f95e5b676e610f54303e53a967f1f0460dda3bd968ee7784b38e413b4;
  0x4379bb2db6639f40a6a4cd74aa6c036e0e96a06082568d67af23a3fb733db8d28c76ccd7d59d7ef707c3d7f72a247abf;
  0x5769db7b8d061fbf5a1fb9c3f790021c0f8855790035f8ae029ab5727bfd49af01f64454b99d40f324ea0d2c8069186d;
  0x4417de254d988ade2b20d3a9f757f2e5d4b0ca8dc430ca29f1e8215752ea3badd9231c88686eabe3fb50fe257d75c308;
  0x37d7a1d2e98a61f3d8f4628b62ce549de64fd7b5c7b7897f51d387b7838bd35897a680b565f4b9e54a739d86b2e77f60;
  0x230d537a83e874e2eb968df7b071faefa87dc38f58ba844a225184698eef10c6eed4564e5d175e6863a5e25bfed83481;
  0x1113fbfdebf3f47950359680ed6ce222f4b113a4eb6ffa1e067bc54c2b6302a1e71067d404d4b75361f0267534d0af57;
  0x400a6b28c7092f115983e4cf35ee5f3269a0604c6696ad538c95a88644deb98cc2597f5b9cf7dba1cbfc9d5135a7cc1].
