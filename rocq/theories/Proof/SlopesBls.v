(** Slopes of the double-and-add computation of x^2 G on BLS12-381 (generated): checked by climb in Proof/G1Cert.v. *)
From Coq Require Import ZArith List.
Import ListNotations.
Open Scope Z_scope.
Definition slopes_x2 : list (bool * Z) := [(false, 0x256addd10de5f1125dc01df7d60354f49e4cdf6d84cbf619723a3ca979025d49cc7536b86e8558e23d63cf91e1aeda5);
  (false, 0xf4e8a55072212bf630cbb20ca15222ed3fdfe9c686fb4ed155b5c1ff038301ea5604a60ba2981ef8caee2c0202b6b19);
  (true, 0x5d19e87eaed912f3eb4141e2135c1becde098401e0e5e00da05168edabaa79236c9bdc26dacbf98a78cf224c619a4bc);
  (false, 0x58883901ceba95ba9a8a1397f7fa6d6c2833a4b650eb55e26139b5baa6eed70be93bddbb8c83cf31f21a049f8d4f7b0);
  (false, 0x2d3f12d2c52f4d30650bbd2e42f4482acb21863682a57209936ca0fc72ff48f67eec2f29d2d84ff2fa2d4d27ba167f);
  (true, 0x17da48c3ba2f376942aff4106de022f3e7e88795cb99fc13c863b4c6184795909294f77c602e129ec77079b436d194a5);
  (false, 0x178f509b5d58671995e70aad6c7f9e6f1e6641af1bddf450aa71c436255628a26c3ff28a1ac3b4cd03c6c03deb71a087);
  (true, 0x1d989cf5fbb244d7325a26a66bedce0dd8ec1b076766718c23a08cae2c31c69284893cb2fe9719a32956488dbf69665);
  (false, 0xab2388075cbb45ab758ff16ac8e415ac51474727f954fef70c6e76ab6e541c876d559da5b120c979f76fddd74018b59);
  (false, 0x195e42dd075e7216b618875b79221399dc085314cb3bfb4260c64e38e467cb9e74fcb6135d93f85a721159d5987f4d56);
  (false, 0x9dc30c01edd9b357df5c8114ab87755ae541dbadc891c2a58f0079798e0266e5c44fc061aa1feaf6ebe928b97ce9612);
  (false, 0x3b79bf24d0e5810555c352e6a88bd7e02a12b78ed77e0342b48a3e0a13c8662b97bd64ef7eb9e6b489eb5b0b641ea31);
  (true, 0xe6256ee31874a3c2fb3cc6d84fd30d3223f655011f9a96e1c7e85599c538191a926ac9ac8c8fef12121429d5d361ffa);
  (false, 0xac680d28df4b5be9340b6e02323ec7be9613cd33c10b01435239b8ae84509a3f001d7625f62d16d693756c8c709352f);
  (false, 0x264344f26bd049020e86b565045c1b1508ad24c75cf0fdc81bf9b458fa7297d439b231c0762cc2b5133cc35d0ace378);
  (false, 0xec42997ea866c0f8c1e6f5d04491c04c0c3f4d1821e827b06ab5d6d5d5f92f86e4322d5f1d74906eb5f146a212101e9);
  (false, 0x55a3a10ec93bc499c68792aa08267e9bbd81662f48991ca4f922383a6191f32cd101e57d9393b2fb3a477534db3da67);
  (true, 0x7745fbaf57c38a945fc7b0e036c8500d2dde3b748a7e752b5bbae04ff19a8d02c9be5a1eeeb89190c0aa9de9191bb1b);
  (false, 0xf097dc91ee249d9664eac56e9aac374b0e68254cc56ba0a4f4f548fc0ed4c6999f657bfdd16d64563392fec8c0715f9);
  (false, 0x12c46c9c5c3f97238194995cde59f80e20fa508921199c5ca9e814e2cd262dbc85f1b1fb095841d44d84015d54f18113);
  (true, 0xd66daa2af943341298da925df70c2267fdf75b8f14bd92bfd7134a0e737d91dd366e8e7452347afe44da2f839299c5a);
  (false, 0xb65783aa164dd49c1a96ba0dbe167c3a9a2e21c3d44fafc82a8ec5b664eaf25ca3e5ef7cfec7ae95fa74ebda828e956);
  (true, 0x1247105db6798e7aca0e049f5895460cfc96ff222e9422ac5b27f3fff84550aee349623353649d65b962353389b1a118);
  (false, 0x19beb3d4ed3346413a31f1491959325adfafa04c46031f5438feb8bdabfabe7efd9e8413d7dbe981f2930a5741b8f2f0);
  (false, 0xc029244f6ec8662f138d76331c3fb0b2ca75b266929d0ffcb9c6cc39bf5c5d49b6e5e22d9d9b4ecabc15f17360fd6cc);
  (true, 0x1965a72bdac6ed14163d259006a3b203ef9b19e5fe5bdae8d4798d318ee2ef8a132e7b70d0d19d296bd66b8324687cf4);
  (false, 0x93773a5a4a318cae36b6837fcef05bda81573e4ccefa05e27eca7851f0268d6a8f68ffaf26151c86085a5b3df1c344f);
  (false, 0xcb119f6015e77d0fb80788c2f879adc22e97f721bc8a82dd7a5ab11d22d1333758e44f0d45926d26f65fa8bdd880292);
  (false, 0xcefee0a1a8a2c5ae0c22b92efc5bb8fc0bf6aaf6bca8e52d13c8d8d7549926f2a638dda8af68286d9ec3a160e9c8eaf);
  (true, 0x10759172ce560fbc55d420ea9ef13afe9765fa061b20adb02eeb8a9b132ed53e2a08580bfc3115369a8eaecd0e037404);
  (false, 0x70bf3244a545f35df4ddc0926693e385d27843944976fa9d08bc9c91022e142cbc6671d7224c334e65f61c1aa652614);
  (false, 0x5b7001e20bf7d95ca9c01ea865999e936847080021c2def8ce4cd01b8431eed952b4eb3fb716bd69ec25d31af41a33);
  (false, 0x14faae0a9c7ab740a7c9649e40ca16f84c9ec8be896146908c8cb971224c2cdecb282e26275a0b887d24d28b442286cc);
  (false, 0x1017c8209ddee84cb9c57f68be17237a33a4c4becf9c3c1740e5de5b9d4e3c4693d9ac8126523f5593378aa9cfd07e3);
  (false, 0x19e102950d3f08a728a25b1dc43e2130335c50cb6636955f89c7d7b10569b6aa83f867b9632d7a0fde040d6461001640);
  (false, 0xbb33ab0245afffd1fc3d34b7a791bd4f46d231c252d4d360fea582e9b4bcee600dce0cbcdf02ad297dd5d3bb7c5974);
  (false, 0x139c9902a0e5fb0371f67cde77d16e5875f2b5102907eae3f6362c5dfe0bc34b76cd174e58b600dec36c278530eb2f30);
  (false, 0x68e9ce064041c3d6be498a4731e32fa78e155564ed4008990e585398ccf7288a073770c4b7b19ba05c2cac93771ace3);
  (false, 0x595c80f4dfc35aead33afc779ff31a5f190201f3062b4df8b4d11b90de66e9dc703d0c0130bf7ef8972c60aab2f125c);
  (false, 0xd53046c2bce1ec868b19272ac6ce5839307c4e1d77370b45f7b13ad94e011c3f7e95f84308b6adf19ce99e5f959a32b);
  (true, 0xd0e13cf27c3fea1624120489ad9942008428b259d5e736ec17e435f8ebb6be06af260191c878d0aadbe865d4e94920d);
  (false, 0xa161c13dc383d980d0da5ccfaf97994c1ce80aaeb771b5517926240293310464383c1e40ecf5a9de5123acfd47106cb);
  (false, 0xaf14a61006f8b5dc0087e6d2fabca06a0aa7213d45aab7ce140d191f2ecdfde561af6dfacb10a0fcf594aaf0a7d0b64);
  (false, 0x505d209229f018fe629ee559cfb8dbb67e06517919a1268eadc29c8e1a90ffec74ecab7c2ca217a86700191ccf38147);
  (false, 0xea4e9cc602a9c5a73d1756752f03a7fc1a4911751a19d6d1d95069d15f4fa9cec110c9424468351559fd3facdacae1d);
  (false, 0x57e2b740fa99b57ce2bcfe2d9ae3d60663ecdedc5dd7f36a9114a9074b466ff6d693d868120a90e74d81e078a6267cd);
  (false, 0xfe2ad93351bb89613ac3adf53d3370f72ec9c84e894a1505a13799a5809a5b3a808b01077a163daef4552df28ff646a);
  (false, 0x146dc7025accd969b410f07f288650b0f4a791442e797093e901b653d602bb13e964c265cf5150d43011d84b7348e0cd);
  (false, 0x759944aab20b31580cbf691dcf91a0b6ba59e3d967299b59e1b7b51eb53c63489aaf69a3b2635ad227d1bc14e5063ac);
  (false, 0xac9f6fd885fcbc52e0c66c4d81d101b167147cbf937b6dfadc38ae93b51c25db782e383e06e40f52e386ca9fa537d8c);
  (false, 0x1011040e5893f2910edab932ab133410742ee243d8257edd97b68ed46b08ab657d10777268cd0603b1cabd68144f3a1a);
  (false, 0x148506f7fbcbb1d96d8c1bbff322656c0b8dd711d34564f18caf2dbb6cad37a33ad639d95e2211364e858cb045c95d85);
  (false, 0x14775fc177b5f105df75596628c3d6528f027ec66e2ee4113c74987717a88b3284f2facfc98aaeb0df6ec602a83cd0);
  (false, 0xa5278b1738b0b87f25fbd801048831d0b9dfd8d0221eb20fe7bb28e0f65189bc122be68892a56a49c9eb267f50c2b1f);
  (false, 0xb2e14ef1948f2f26c7f37fff896b24437349294cb5dafb26b12fa25a4fb39813c5996708b60eb5721b53456654fa801);
  (false, 0xe59b6696095c1d32bd98d121e4c2a3d208653ec71b96e4394ee7328ce9d3ee5c142fe83f34e1f329ddc9ab6387a388f);
  (false, 0x15cd1ba42614c38e517c5d7291c10888aa97983a16cd5c9098c2a9725ed44b60aabf12c6b42879bff43a2ec4e4b59d36);
  (true, 0x12426701c41096e29a5f1876e3b1c4b6e66b5ab98b30d57eadde2f558682600882701bbc35c6b68efd6e41f8fd8747a9);
  (false, 0x16241ce5a3fa7e4315cae8c688a0719a7f151f8a6f4b06a7de523e2b806c25f08b506d1c11ff9b30bca199c8666d9d09);
  (true, 0x12e497cd9ee0121b544e532f38a71ea3feb59b2fd55252435ec4f197f9dd196d91d200f00cda506c51807928f9aac75c);
  (false, 0x88cbe58f7ad7c6ac85121cba5f8d5f6d881338101d9cc5cc362a3c0c803511d71ef4f88eec4f90186aa8f384b72324d);
  (false, 0x7079ce3c8c6543c3a466db432a8b5734905f23f0268f4fb202cb4e95173e90d7c68b064c832a52667209f48a62349b6);
  (true, 0xa8d977d16534f025fb93307eda85cc3708eae1ae74d2f7335c5d85c8c2a38bcd7ebc325a09f115f56c0036edd292bfe);
  (false, 0x3447347f88c228b7d4b86df25cd38f4800f8fe72cb46268db21686177035109a4a7e850cdf6c022d58321d2275ecde2);
  (false, 0x3aced309c784b9878eea1889b2418d2c5cec5ffa7ec8f663b17f0a639d3411151941858928bd01bcd7183768f8d4d5f);
  (false, 0xd926c06e1e5d52370d5e6a3b40a543146e87dbe1755cf11bfa89e3d03eaad835c8b79fe51a7b2e12e27c7589f80cf02);
  (true, 0xfe7b003132bc21f29e3241d03e1e453383bec84516b55183708984635dae88e207db6850f67767003b207e6ac1d9b83);
  (false, 0xdad0315d136fbe6de5827af18cf68bd24cb85bee415a56213e1492287eabd84a36f8fbf29e218de1a69173187f65606);
  (false, 0x7216516c82c09f3133330a107bc90afb804536b14c9c1fd77b673c242aef19bbf54f5ff4337fa9651cc1a1573b3382e);
  (false, 0xf3ac983309f45acb60afa21a1c1afc78437ee512d628ff0ff39abde1ff08252343d0743a83a1cf5a5f1a1cf8abc9a79);
  (false, 0xb9575049e6ce284b3843c911a550615c510d562c1d2a3b4e68c9abb695fcef381ec8a6552ba7bba022daf9c86cafdf8);
  (false, 0xb66d52bf63302cd7d19b20b211576f7908ac2ce09083c51471e630ed2eec7ded662b6313e3c85013cb90115304f6aa);
  (false, 0x6dda45179fbdcf04d74fcd38ef775deaae0822f55e6c3f43e49672094a550564a08738c3753a0458a97b550435b77be);
  (false, 0x25a1777bf71b4d2e37b53625cca3e81f9bdf5fee3dc85a45bb7cad0e639ef30dafa09006be783e1e61ad47221b7c55);
  (false, 0xce5901df48a8b459d5f08ae9e5231299dd9e52da7d65ed0fcd1ee783dfdec547701ddd08c11a377a90bd41876d99067);
  (false, 0x8cfb2ef582fcb9dd031c39050f6c20a95c32bc248d8d6b5491cf8e3169a76dac98b8af41abe3edc2fb63e1f22b4bd2a);
  (true, 0xf57144ab7ae57dd1c4558e752541b5b741c1cfe54eaf1c5f5c3a9683583e6414257fa3b0c20e9cabe7c774944951732);
  (false, 0xda5f246ff1e77966795be987da7cde0c750665e44e7a2e0c140f15833219d407aab904444524759b577c1a47ca01137);
  (false, 0xcedfcb524eb9be8823321696152c1a2cbc2f58f6c006e6c5b38433ed4f82d4402edcb9dbf45404fbc57039533ba0b6e);
  (false, 0x8f0d79a91267224435a20e7fbe1e8dfdfba6ddac060843c2c871cc5d13aa802a6d96087159bd4af0aa6d4307c19d0a8);
  (false, 0x167bc59c07f4c6fa43fdc3e46051f72ff4262e26505ce5a008d46ee8e642b641d0b5e0298216b736411873e997b3731);
  (false, 0x6ed9012945eba85c55c31b63e8eea9d0fac90d79b860d167cf9e8148cb7ec5d0ad05d9c7d907e82249238abf87fa875);
  (false, 0x3f6c83dfacf406b91b63a04e931172f8524799efd7526e4127437672708ee5cfa881bab477dcf2340c138c660e35caa);
  (false, 0xd8164e8798a6e22bc30612e930cef76ca4c4bcfb03d1216d3253c380c1fdab644c30b24f61077b12f54bf326c235ae3);
  (false, 0xf320ee099847aafe7ee81270114913d79dab8176b234cc12d0a816d955d997540de597a1bc76528f49a48cf1ee2a76f);
  (false, 0xcb183ac599d391dc866baa1e53bf497efa1a612cb1052e993c77e8b6ee1bb0d886907f15c3068742905adc93b96ccca);
  (false, 0x16a6743e15031101ada797b435f59de4ed914fb1fc426a470cd8d82d24286ab0af04f41e28ac093ca9d0d26ffe3e90a);
  (false, 0xe36bf438e1d767cfef3fde3a48f5e1fda124fd5d182bd9f694ef6a2937d8e4d73ac2fc4841f8893a8ace37f90c0706c);
  (false, 0x19cba881cb19dc5724d22bcc4b1d06d3facd87b03ba1584ce2f1ec8f8c02a28f41aafe95c5cffb0c55267dcbc06033d8);
  (false, 0xd7b19057064a95a30de3399ddd33edadf97067eefc059587eeda54a375f018ec7ae2ed0bc7655eb3f2088c331f4787);
  (false, 0x13d29f255700190331c65a509dcaa75d4222ffe8798fcd9522ac7ee3e0882567a98be4827b961699aecc2f102f984b5e);
  (false, 0x35f8040d43ebd1797eb8321c5b3cbc66b5c7cd8c97f240b38c72e946504e0a9310ac509f738d58e49f88f9bbc541b2c);
  (false, 0x11ad81fe8c874cfdc49486dbb0ae2f39c70a39f42954792b4dd8dafe752f81bd8429c96c622c6b70854307f81799ee5d);
  (false, 0xc199167acd9309388f9fd488574a241abe8ca9771a05c75cd46a7f558c41d4a04b6aeedb78d28fae552d4b96bcfa3ad);
  (false, 0xbc38ac9a514fa82fd4f58e25b6d57190bc9b415617063f668e81028199f4bbc805bbdcb3785fc6ff8158ab535630c8b);
  (false, 0x10e938a5fce376e46ceede92f2b54b3aaff3fc152d50355b84841da7981b7626e1fec0ff089ad087f144cda193b3730b);
  (false, 0x851d6b3cbf065cbfcd138ab4a5236feb0a475d2568da67a7deb750612369c7e15dbac5bb0e8a6cecb2b75424a52d6f0);
  (false, 0xc4eb29cf494bb97d748cc02da9272b84e55d7f2feffff9a1610ee2874c3e9d81eedfe6f4e882dd293a5267f30f2dae9);
  (false, 0x163cf145120e1eac77de0680406f9758af94117f6b874cd3b81b2ece9e496f440ca5748953195d0f6e8b624d850dced9);
  (false, 0xbaad9b3405a74a8d192c3ef296b281e46760b3b587ed1297c9ccd554125a22faa0d87df47f245cc97e0fdf9e0daa223);
  (false, 0x252eccd02be956aa5b1a704b5481c0a7df349c51f7f4febba51cacc56ee0ab1fad2d6b399f5e3c14f93b3f1f6762bfe);
  (false, 0xb05ef3dcf903a00db638ba524843ba2913e8197f68622a4e5d27635fc3157737fa6c3da967b0cd4bd7d13771e126c8a);
  (false, 0x18e39563666fcee274c17002394f653855105457d55793d649a25d042ee4e97b944c525a48e5ac83677b8c0bab0b01c);
  (false, 0x961e5ef8983f6522851bfb62f334916432b76cea0f16a28a36021a4602793c6b5c2ece4ff664efade1c2c2f6e8df5d);
  (false, 0x1918e881e4ae3b69b485263733388328e19b0ba414cf6c0eae6a7053a5a54f65678c51af4c6855974479a619e1e46ec);
  (false, 0x115a9cd4738cd361fbab0a11020c161ca3c3e2dc18e3c69aff995e12327e6ffc24351af38f343c035135d6c417035c16);
  (false, 0x181330dbd643871b93e2a8e910107e975e8e011d2f1cd566072f8e73c210f72981321f66583a72a67b36ea9d6f4ae735);
  (false, 0x1e90c9b91bfdf8b15fad1ec2a6ffc2818e5a8c68cd04bdff2d49d4afa7d01c221e2dd65ad1dbe31f4fb3e6070d73056);
  (false, 0x9f9e447a9d1ab80e1c55d2eabc03da308558b7b455035af0bbd91bb45ba1c5b080bc0d76a19accd056566d32a6458f1);
  (false, 0x179d36d267d6f86f1e7e2efebe8a46962b5ee9c5ea2bbdc635ba149d738c4846daf74c88c4f998abda4b54bff6b85017);
  (true, 0x15e2eed249dd6ebf3aa13a292fea53de5f595ebdf9c7490cd9883a7584f960977a4a3a8747bd64e32ddd36b1d2eacb90);
  (false, 0x146fa7f1f3c21ce8bcb4d93bac92624322b16cdb8bf6678ad1ffc370887940e8e1c69e1f196cda44d40aad41cc908aee);
  (false, 0x18ebdb14e5ea6a3abeaff2feb432c07fc28b59d21baccec5858d05c7898d4e8f4c98586dfa3820ba99736b19793f64b);
  (false, 0x267278f96fc64b445ae7a1595ac0a33f2ee06f1b70f435bea1cf5d19e2a0465d0179e72cdbbf6a52fe90aa435e6adb8);
  (false, 0xdcf93ba251408b6446024820c9b1b9589ec1b1cc3f620bf2a5eab05ea9c44b835ac881f2875d858872d4f1560414ed3);
  (false, 0x5ab19387a80ed5dcf55794a613e046a8e0b5816e535d915d94e9d0e7930662a8b0692a72d333b75c1769e99b84985ec);
  (false, 0x1952fcf3d83277b4fd1a10a379f3ec049ee2fc21c25e15bbd5fb8b6ece2485fbaa167826504c85e1427d7d2d23db4532);
  (false, 0xd652d0a88baa6bb0a70fa0b917c3a287ce2bf8231e423f54b607880951a3b8e44d01912856199a5c842017985aa9aa4);
  (false, 0x43845288a11c3995ac2ab9b2eb6a8954da50140fb87d5c4e36405831ff9948136268d713f885dba7693419f2e753a6e);
  (false, 0x14914c04b1e8252f765ea4619017843cbb9d03a57951f3a802e1a949b53709e163ee05726b4b1a3a8002c92a72e011ea);
  (false, 0x17fc12ec54650c826fae6720bc09b61e6134553432800d72734ebf3f71d186f987d02db7ea703289ce7b0322a76ab189);
  (false, 0x54081a46243005198a575815c469284de7b9941620e087470c77485e419219ac54b5791ce28e119048fdaf3023669b5);
  (false, 0xee3c1a9cd9b044102e1d4a652629eb5e36bfe1eecaadb529856dbf2763a02396861be2e1f5a49661078c9e4115cbf80);
  (false, 0x2b291e09c308a6ff54bcba3e732411432c18c8cfb971e961e4bcaf857e213b69d52cc664c35b6cdb78acdbb5ec5f0b7);
  (false, 0x10b3f40068bbe4cb179236d3dc5d9368ffc539fefea7378af59ad57fd1e8da490c95dbb84209662b41efb3fd761af5);
  (false, 0xc2941e8754234e69065124b55ba07598f15b4eca2712cc9895a0b321ae65601610361b9ebc91c575688c23ccfb50a07);
  (false, 0x6e6ba33f26698772ba69ce9d49ef0a503fec77830677854700e73612a0a85a4e23d715232e8f13dae8fd5a224054c3a);
  (false, 0x198844ed2a7c593d8ef2a6883f94b13fcd4be7ae51e8d31c89d679f5e5f817028c5c207910e00d27f8ca79c90424f948);
  (false, 0x7af5f75843938e54c130cd30a1ba414f0863ff6d58181f5f3770143d93c3591579a5068615ffe24cd5719c6a122d3a2);
  (false, 0xa97768bb6d01edbb9410ca4ab6ac46bfce9cb3d6f146ee9722b0b06cfcd51616fc905723960883ba837117c483a7750);
  (false, 0x8e24e11478a56f11ba8d047d3c895b24fffa27453b028d1644487aa13250f9daeb77940f5979f76514438a80b231885);
  (false, 0xc9307b77bf9dcc5505a346ee17c5fe32541ff82d0367359fe7d9ebecf1a1f9b847a8b08374018d35881b629db840fc8);
  (false, 0x626f2df19eab343bc993df82c6f0aa61bc403e866559590c3debdc7f0f97a1ce0660b868667bcef8c3bfcb9fde153e1);
  (false, 0x85bc819c79d65c15d7e30f5bcc6c2bef027e124bef12b713378e36098b47d3dc06258e0f8b8b0a501dd25cd36e75e0f);
  (false, 0x64cd33ec2daf33102e75cae9b5df4c30be9c9fe9295ac4b672631667db05563e9b1c1bea2361ea257cc27e354fd5fc1);
  (false, 0x8ce9bb3be6fee32fb3cd7b85f7d5ddce0776cf7daca146c37b1ff03382f69c0a6649159af32eda1fc02d50304b20353);
  (false, 0x30f9301aaae5abb30b066fe19d4c911aec8d001918aa28bb20c3caccac3676654505735dd7370c6166defa9e0ae56d8);
  (false, 0x19146322d6f0387d034f8c31a5efaaf9a90c4b5c11160da9200579d957a873a2c7e8e898e9cabb5e3b9c4cca8840959b);
  (false, 0x5cc899305eaf25704854bb4b44b817c9fb0bce854297f8e32454bce20a3912a455371b488833a47d78644472f7451ef);
  (false, 0x63d836b20a4045aedd12144f92775dde164ff9d2712fbc684ba063f6be6c9a563dcc2c87c38ef197ba32ad11dd9b354);
  (false, 0x97e4bf38cbe59076deb50d279d6c5b2db9a460eb1ea847d0dfc540eb34cc1e77ee7e484c0ad7ac6b3fefc7e45e80aed);
  (false, 0x3b0bcff1c167e6a9ef1f2ecfdffbd9d1f7d168456c208e16326e7d82751dff6a06a0a2cb8fb30cb923a137d63218481);
  (false, 0xbf0bd6843e94babd3c977f0848a46a2b9c529eaa2c53d1212bfebddab96fddc47ac58ad9e5e2fbc1a870198d8df5d7c)].
