(** GENERATED by tools/roms.py from /repo/src/roms/rom_*.rs: transcription of the constants. Do not edit. *)
From Verif Require Import Base.Word Model.Big.

Inductive modtype := NotSpecial | PseudoMersenne | MontgomeryFriendly | GeneralisedMersenne.  (* types.rs *)
Inductive curvetype := Edwards | Weierstrass | Montgomery.                                     (* types.rs *)
Record rom := mkrom { r_cfg : cfg; r_MODULUS : list Z; r_R2MODP : list Z; r_MCONST : Z; r_MODBITS : Z; r_MOD8 : Z;
  r_MODTYPE : modtype; r_SH : Z; r_CURVETYPE : curvetype; r_CURVE_A : Z; r_CURVE_B_I : Z; r_CURVE_B : list Z;
  r_ORDER : list Z; r_GX : list Z; r_GY : list Z; r_COF_I : Z; r_COF : list Z }.

(* /repo/src/roms/rom_anssi_32.rs *)
Definition cfg_anssi_32 : cfg := mkcfg 32 28 32.
Definition rom_anssi_32 : rom := mkrom cfg_anssi_32
  [0x86e9c03; 0xfcf353d; 0x8ca6de8; 0xadbcabc; 0x35b3961; 0xe8ce424; 0xf10126d; 0xb3ad58; 0x1fd178c; 0xf]
  [0x288cc9c; 0x18d2374; 0x646bd2b; 0x4929e67; 0xd6f7f2d; 0x220e6c1; 0xabce02e; 0x751b1fd; 0x7401b78; 0xe]
  0x64e1155 256 7 NotSpecial 14 Weierstrass (-3) 0
  [0xb7bb73f; 0x75ed967; 0x1a18030; 0xc9ae4b; 0xfdfec; 0x754a44c; 0xd4aba; 0x5428a93; 0xe353fca; 0xe]
  [0x6d655e1; 0xfdd459c; 0x2bf941f; 0x67e140d; 0x35b53dc; 0xe8ce424; 0xf10126d; 0xb3ad58; 0x1fd178c; 0xf]
  [0x98f5cff; 0xc97a2dd; 0x8b70164; 0xd2dcaf9; 0x3958c27; 0x4749d42; 0xb31183d; 0x56c139e; 0x6b3d4c3; 0xb]
  [0x4062cfb; 0x115a155; 0x4c9e183; 0xc307e8e; 0xf8c2701; 0xf0f3ece; 0x11f9271; 0xc8b2049; 0x142e0f7; 0x6]
  1
  [0x1; 0x0; 0x0; 0x0; 0x0; 0x0; 0x0; 0x0; 0x0; 0x0].
(* /repo/src/roms/rom_anssi_64.rs *)
Definition cfg_anssi_64 : cfg := mkcfg 64 56 32.
Definition rom_anssi_64 : rom := mkrom cfg_anssi_64
  [0xfcf353d86e9c03; 0xadbcabc8ca6de8; 0xe8ce42435b3961; 0xb3ad58f10126d; 0xf1fd178c]
  [0x18d2374288cc9c; 0x4929e67646bd2b; 0x220e6c1d6f7f2d; 0x751b1fdabce02e; 0xe7401b78]
  0x97483a164e1155 256 7 NotSpecial 24 Weierstrass (-3) 0
  [0x75ed967b7bb73f; 0xc9ae4b1a18030; 0x754a44c00fdfec; 0x5428a9300d4aba; 0xee353fca]
  [0xfdd459c6d655e1; 0x67e140d2bf941f; 0xe8ce42435b53dc; 0xb3ad58f10126d; 0xf1fd178c]
  [0xc97a2dd98f5cff; 0xd2dcaf98b70164; 0x4749d423958c27; 0x56c139eb31183d; 0xb6b3d4c3]
  [0x115a1554062cfb; 0xc307e8e4c9e183; 0xf0f3ecef8c2701; 0xc8b204911f9271; 0x6142e0f7]
  1
  [0x1; 0x0; 0x0; 0x0; 0x0].
(* /repo/src/roms/rom_bls24_32.rs *)
Definition cfg_bls24_32 : cfg := mkcfg 32 29 60.
Definition rom_bls24_32 : rom := mkrom cfg_bls24_32
  [0xa06152b; 0x2260b3a; 0xb4c36be; 0x5ffc5d0; 0xbdb6a64; 0x5b78e2e; 0x1c1a28ca; 0x10e6441b; 0x1f244061; 0xb4704f0; 0x141e5ccd; 0x9837504; 0x3f2e77e; 0xd763740; 0x1316ea0e; 0xf0079; 0x555c]
  [0x8533ea9; 0x6a02789; 0x183b24de; 0x1e45ecf8; 0xc8f8f37; 0x10cad209; 0x4c0c4b8; 0x9b1fabd; 0xdebe4c0; 0xdc353f9; 0x18a18e26; 0x10f489bb; 0x31206a5; 0x19673bbf; 0x6be69f9; 0xb091169; 0x9cd]
  0x95fe7d 479 3 NotSpecial 14 Weierstrass 0 19
  [0x13; 0x0; 0x0; 0x0; 0x0; 0x0; 0x0; 0x0; 0x0; 0x0; 0x0; 0x0; 0x0; 0x0; 0x0; 0x0; 0x0]
  [0x10000001; 0xd047ff; 0x1fd54464; 0x1e3ce067; 0xe322dda; 0x1d356f3f; 0x7433b44; 0x49091f9; 0x1729cc2; 0x250286c; 0x16e62ed; 0xb403e1e; 0x1001000; 0x80; 0x0; 0x0; 0x0]
  [0xbe3ccd4; 0x33b07af; 0x1b67d159; 0x3dfc5b5; 0xeba1fcc; 0x1a3c1f84; 0x56be204; 0xef8df1b; 0x11ae2d84; 0x5fee546; 0x161b3bf9; 0x183b20ee; 0x1ea5d99b; 0x14f0c5bf; 0xbe521b7; 0x17c682f9; 0x1ab2]
  [0x121e5245; 0x65d2e56; 0x11577db1; 0x16dacc11; 0x14f39746; 0x459f694; 0x12483fcf; 0xc828b04; 0xfd63e5a; 0x7b1d52; 0xafde738; 0xf349254; 0x1a4529ff; 0x10e53353; 0xf91dee1; 0x16e18d8a; 0x47fc]
  0
  [0x19f415ab; 0x1e0ffdff; 0x15aaadff; 0xaa; 0x0; 0x0; 0x0; 0x0; 0x0; 0x0; 0x0; 0x0; 0x0; 0x0; 0x0; 0x0; 0x0].
(* /repo/src/roms/rom_bls24_64.rs *)
Definition cfg_bls24_64 : cfg := mkcfg 64 56 60.
Definition rom_bls24_64 : rom := mkrom cfg_bls24_64
  [0x44c1674a06152b; 0xffe2e82d30daf8; 0x6f1c5cbdb6a642; 0x3220df068a328b; 0xe09e1f24406187; 0xba825079733568; 0x6e803f2e77e4c1; 0x3ccc5ba839aec; 0x555c0078]
  [0x6a4a1fe013df5b; 0xe8e46d4d1bde65; 0x1f841391f45c67; 0x9148a4516fb28; 0x4398524edf4c88; 0x41c0e241b6dce8; 0xe42c208c19411; 0xa7fe6fd73a7b1c; 0xfccca76]
  0xbd5d7d8095fe7d 479 3 NotSpecial 25 Weierstrass 0 19
  [0x13; 0x0; 0x0; 0x0; 0x0; 0x0; 0x0; 0x0; 0x0]
  [0x1a08fff0000001; 0x1e7033ff551190; 0x6ade7ee322ddaf; 0x848fc9d0ced13a; 0x50d81729cc224; 0x1f0f05b98bb44a; 0x10010010005a0; 0x0; 0x0]
  [0x6760f5ebe3ccd4; 0xefe2daed9f4564; 0x783f08eba1fcc1; 0xc6f8d95af88134; 0xdca8d1ae2d8477; 0x9077586cefe4bf; 0x8b7fea5d99bc1d; 0x17caf9486de9e1; 0x1ab2be34]
  [0xcba5cad21e5245; 0x6d6608c55df6c4; 0xb3ed294f39746b; 0x145824920ff3c8; 0x63aa4fd63e5a64; 0x492a2bf79ce00f; 0x66a7a4529ff79a; 0x6c53e477b861ca; 0x47fcb70c]
  0
  [0xc1ffbff9f415ab; 0x5556aab7ff; 0x0; 0x0; 0x0; 0x0; 0x0; 0x0; 0x0].
(* /repo/src/roms/rom_bls381_32.rs *)
Definition cfg_bls381_32 : cfg := mkcfg 32 29 48.
Definition rom_bls381_32 : rom := mkrom cfg_bls381_32
  [0x1fffaaab; 0xff7ffff; 0x14ffffee; 0x17fffd62; 0xf6241ea; 0x9507b58; 0xafd9cc3; 0x109e70a2; 0x1764774b; 0x121a5d66; 0x12c6e9ed; 0x12ffcd34; 0x111ea3; 0xd]
  [0x15bef7ae; 0x1031cd0e; 0x2dd93e8; 0x9226323; 0xe6e2cd2; 0x11684daa; 0x1170e5db; 0x88e25b1; 0x1b366399; 0x1c536f47; 0xd1f9cbc; 0x278b67f; 0x1ea66a2b; 0xc]
  0x1ffcfffd 381 3 NotSpecial 14 Weierstrass 0 4
  [0x4; 0x0; 0x0; 0x0; 0x0; 0x0; 0x0; 0x0; 0x0; 0x0; 0x0; 0x0; 0x0; 0x0]
  [0x1; 0x1ffffff8; 0x1f96ffbf; 0x1b4805ff; 0x1d80553b; 0xc0404d0; 0x1520cce7; 0xa6533af; 0x73eda7; 0x0; 0x0; 0x0; 0x0; 0x0]
  [0x1b22c6bb; 0x19d78056; 0x1e86bbfe; 0xbd07ff2; 0x1ac586c5; 0x1d1f8b8d; 0x4168538; 0x9f2ee97; 0xfc3688c; 0x27d4d60; 0x9a558e3; 0x32faf28; 0x1f1d3a73; 0xb]
  [0x6c5e7e1; 0x551194a; 0x222b903; 0x198e8945; 0xb3edd03; 0xc659602; 0xbd8036c; 0x12baba01; 0x4fcf5e0; 0xba0ec57; 0x8278c3b; 0x75541e3; 0xb3f481e; 0x4]
  0
  [0xaaab; 0x55558; 0x157855a3; 0x191800aa; 0x396; 0x0; 0x0; 0x0; 0x0; 0x0; 0x0; 0x0; 0x0; 0x0].
(* /repo/src/roms/rom_bls381_64.rs *)
Definition cfg_bls381_64 : cfg := mkcfg 64 58 48.
Definition rom_bls381_64 : rom := mkrom cfg_bls381_64
  [0x1feffffffffaaab; 0x2ffffac54ffffee; 0x12a0f6b0f6241ea; 0x213ce144afd9cc3; 0x2434bacd764774b; 0x25ff9a692c6e9ed; 0x1a0111ea3]
  [0x20639a1d5bef7ae; 0x1244c6462dd93e8; 0x22d09b54e6e2cd2; 0x111c4b63170e5db; 0x38a6de8fb366399; 0x4f16cfed1f9cbc; 0x19ea66a2b]
  0x1f3fffcfffcfffd 381 3 NotSpecial 25 Weierstrass 0 4
  [0x4; 0x0; 0x0; 0x0; 0x0; 0x0; 0x0]
  [0x3ffffff00000001; 0x36900bfff96ffbf; 0x180809a1d80553b; 0x14ca675f520cce7; 0x73eda7; 0x0; 0x0]
  [0x33af00adb22c6bb; 0x17a0ffe5e86bbfe; 0x3a3f171bac586c5; 0x13e5dd2e4168538; 0x4fa9ac0fc3688c; 0x65f5e509a558e3; 0x17f1d3a73]
  [0xaa232946c5e7e1; 0x331d128a222b903; 0x18cb2c04b3edd03; 0x25757402bd8036c; 0x1741d8ae4fcf5e0; 0xeaa83c68278c3b; 0x8b3f481e]
  0
  [0xaaab0000aaab; 0x3230015557855a3; 0x396; 0x0; 0x0; 0x0; 0x0].
(* /repo/src/roms/rom_bls383_32.rs *)
Definition cfg_bls383_32 : cfg := mkcfg 32 29 48.
Definition rom_bls383_32 : rom := mkrom cfg_bls383_32
  [0x5aab0ab; 0x11b8eb24; 0x19214af6; 0x187e5314; 0x124f47a8; 0x1c00b4b0; 0x1446b0c6; 0x59e6cb4; 0x4a0ad46; 0xff5494; 0x81b6b71; 0x956dd6b; 0x16556956; 0x2a]
  [0x116907f4; 0x405b700; 0x1752ac11; 0x67a9e7c; 0x1941c581; 0x1aea38c4; 0xb1e4d22; 0xce841ae; 0xa0fc49b; 0xb4b1f48; 0x13852312; 0x1b3fdced; 0x1fece397; 0x26]
  0x73435fd 383 3 NotSpecial 14 Weierstrass 0 15
  [0xf; 0x0; 0x0; 0x0; 0x0; 0x0; 0x0; 0x0; 0x0; 0x0; 0x0; 0x0; 0x0; 0x0]
  [0x1ebc0001; 0x1904cf5f; 0x834e5ce; 0xbe12b42; 0xb381de0; 0xe40b4c; 0x270110; 0x10018017; 0x1002001; 0x0; 0x0; 0x0; 0x0; 0x0]
  [0x8734573; 0x623b9c8; 0x1d1dc11e; 0xbb7e107; 0x1e3445c5; 0x1d6c2578; 0x10b0be1e; 0xed6103e; 0x10f31d9f; 0x296ed82; 0x18e0d7d0; 0x12f3d9c9; 0x1fcba55b; 0x20]
  [0x3f224; 0x968b2f4; 0x1fe63f48; 0xfa93d90; 0x14d2dde5; 0x54a56f5; 0x12441d4c; 0x18cd76c8; 0x199d0dad; 0xe18e236; 0x92ba73; 0x99f6600; 0x8f16727; 0x3]
  0
  [0x15169eab; 0xa82ab0a; 0xaaeffed; 0x15558001; 0x555; 0x0; 0x0; 0x0; 0x0; 0x0; 0x0; 0x0; 0x0; 0x0].
(* /repo/src/roms/rom_bls383_64.rs *)
Definition cfg_bls383_64 : cfg := mkcfg 64 58 48.
Definition rom_bls383_64 : rom := mkrom cfg_bls383_64
  [0x2371d6485aab0ab; 0x30fca6299214af6; 0x3801696124f47a8; 0xb3cd969446b0c6; 0x1fea9284a0ad46; 0x12adbad681b6b71; 0x556556956]
  [0x80b6e0116907f4; 0xcf53cf9752ac11; 0x35d47189941c581; 0x19d0835cb1e4d22; 0x16963e90a0fc49b; 0x367fb9db3852312; 0x4dfece397]
  0x1bc0571073435fd 383 3 NotSpecial 23 Weierstrass 0 15
  [0xf; 0x0; 0x0; 0x0; 0x0; 0x0; 0x0]
  [0x32099ebfebc0001; 0x17c25684834e5ce; 0x1c81698b381de0; 0x2003002e0270110; 0x1002001; 0x0; 0x0]
  [0xc4773908734573; 0x176fc20fd1dc11e; 0x3ad84af1e3445c5; 0x1dac207d0b0be1e; 0x52ddb050f31d9f; 0x25e7b3938e0d7d0; 0x41fcba55b]
  [0x12d165e8003f224; 0x1f527b21fe63f48; 0xa94adeb4d2dde5; 0x319aed912441d4c; 0x1c31c46d99d0dad; 0x133ecc00092ba73; 0x68f16727]
  0
  [0x150556155169eab; 0x2aab0002aaeffed; 0x555; 0x0; 0x0; 0x0; 0x0].
(* /repo/src/roms/rom_bls461_32.rs *)
Definition cfg_bls461_32 : cfg := mkcfg 32 28 58.
Definition rom_bls461_32 : rom := mkrom cfg_bls461_32
  [0xaaaaaab; 0xac0000a; 0x54aaaaa; 0x5555; 0x400020; 0x91557f0; 0xf26aa; 0xfa5c1cc; 0xb42a8df; 0x7b14848; 0x8bacca4; 0x6f1e32d; 0x4935fbd; 0x55d6941; 0xd5a555a; 0x5545554; 0x1555]
  [0xc9b6a33; 0x2ecd087; 0x3ccb2b1; 0xcd461fe; 0x8cb5ab2; 0xc5b9635; 0x5312e92; 0xb659f64; 0x3b596fa; 0x8679006; 0xa92e2b3; 0x3ce05e3; 0x363550f; 0x7c07a8e; 0x382c083; 0x6347fea; 0xbd]
  0xffffffd 461 3 NotSpecial 14 Weierstrass 0 9
  [0x9; 0x0; 0x0; 0x0; 0x0; 0x0; 0x0; 0x0; 0x0; 0x0; 0x0; 0x0; 0x0; 0x0; 0x0; 0x0; 0x0]
  [0x1; 0x0; 0xffffc00; 0x7fefffe; 0x110000; 0x7ffc800; 0x801fc01; 0x5fd000e; 0x17fe0; 0xfffc018; 0xffffff7; 0x0; 0x0; 0x0; 0x0; 0x0; 0x0]
  [0xadee93d; 0x4d026a8; 0x74b7411; 0xd9c00ee; 0x31ac7f2; 0xc3981b5; 0x9218229; 0xd3564dc; 0xa096650; 0x6f7c292; 0x9743616; 0xbe922b1; 0x12cf668; 0xc81327; 0x463b73a; 0xe74e99b; 0xad0]
  [0xad1d465; 0xf763157; 0xc4ff470; 0x17884c8; 0xb8d215d; 0xa819e66; 0xf4959d0; 0xe5c3245; 0xb84910a; 0xb8bfa40; 0xbe96eec; 0x8bf9f8c; 0xf277acc; 0x5f1c3f2; 0x5f68c9; 0xcdb14b3; 0x77b]
  0
  [0xaaaaaab; 0xa7fffea; 0x1556aa; 0xd55aaab; 0x554ffff; 0x1555; 0x0; 0x0; 0x0; 0x0; 0x0; 0x0; 0x0; 0x0; 0x0; 0x0; 0x0].
(* /repo/src/roms/rom_bls461_64.rs *)
Definition cfg_bls461_64 : cfg := mkcfg 64 60 58.
Definition rom_bls461_64 : rom := mkrom cfg_bls461_64
  [0xaac0000aaaaaaab; 0x20000555554aaaa; 0x6aa91557f004000; 0xa8dffa5c1cc00f2; 0xacca47b14848b42; 0x935fbd6f1e32d8b; 0xd5a555a55d69414; 0x15555545554]
  [0x96d08774614dda8; 0xcd45f539225d5bd; 0xd712eb760c95ab1; 0xb3b687155f30b55; 0xc4e62a05c3f5b81; 0xba1151676ca3cd0; 0x7edd8a958f442be; 0x12b89dd3f91]
  0xc0005fffffffd 461 3 NotSpecial 19 Weierstrass 0 9
  [0x9; 0x0; 0x0; 0x0; 0x0; 0x0; 0x0; 0x0]
  [0x1; 0x7fefffeffffc0; 0xc017ffc80001100; 0x7fe05fd000e801f; 0xffff7fffc018001; 0xff; 0x0; 0x0]
  [0x14d026a8adee93d; 0xf2d9c00ee74b741; 0x229c3981b531ac7; 0x6650d3564dc9218; 0x436166f7c292a09; 0x2cf668be922b197; 0x463b73a0c813271; 0xad0e74e99b]
  [0xf763157ad1d465; 0x5d17884c8c4ff47; 0x9d0a819e66b8d21; 0x910ae5c3245f495; 0x96eecb8bfa40b84; 0x277acc8bf9f8cbe; 0x5f68c95f1c3f2f; 0x77bcdb14b3]
  0
  [0xaa7fffeaaaaaaab; 0xffd55aaab01556a; 0x1555554ff; 0x0; 0x0; 0x0; 0x0; 0x0].
(* /repo/src/roms/rom_bls48_32.rs *)
Definition cfg_bls48_32 : cfg := mkcfg 32 29 70.
Definition rom_bls48_32 : rom := mkrom cfg_bls48_32
  [0x1cf6ac0b; 0x17b7307f; 0x19877e7b; 0x12ce0134; 0x14228402; 0x1bd4c386; 0x1dacbb04; 0x40410d0; 0x25a415; 0x980b53e; 0xde6e250; 0x15d9aad6; 0x5da950; 0x1029b7a; 0x54ab351; 0x14ad90ce; 0x3729047; 0x1fe7e2d9; 0x145f610b; 0x1f]
  [0xd59d0fa; 0x12f01fd0; 0xde8fd41; 0x35aaee1; 0xb937f48; 0x50700e8; 0x1f50efce; 0x1019b13c; 0x3470a2f; 0x11094115; 0xf9fb72d; 0x6ad10e2; 0x1cfd9f8; 0x44f4785; 0x2b48793; 0x1148ed3; 0xf609e61; 0x1ee34bc7; 0x1735d29e; 0x0]
  0x9da805d 556 3 NotSpecial 14 Weierstrass 0 17
  [0x11; 0x0; 0x0; 0x0; 0x0; 0x0; 0x0; 0x0; 0x0; 0x0; 0x0; 0x0; 0x0; 0x0; 0x0; 0x0; 0x0; 0x0; 0x0; 0x0]
  [0x1; 0x17fff800; 0xa769c21; 0x8aa813c; 0x2029c21; 0xa68f58b; 0xb6307f4; 0x1184da51; 0x6dfed78; 0x1a3c85e9; 0x571037b; 0x1637f1f9; 0x1c465fb0; 0x98354b9; 0x118df17a; 0x1422355d; 0x43bf73e; 0x6; 0x0; 0x0]
  [0x5d71d33; 0x1943697b; 0x18cb783f; 0x1b00aa9f; 0x1711ee0b; 0x7f80b23; 0x129fd8cc; 0x1345e03f; 0x9a80f66; 0x7038173; 0xc056511; 0x142801f5; 0x42b2c3a; 0x1af09869; 0x7924166; 0x8381264; 0x957edd7; 0xbacaedc; 0xa27a4a1; 0x13]
  [0xa6ed83a; 0x14d2d9ff; 0xa29c33d; 0x1b8972a9; 0x6958677; 0x19c8f547; 0x1ded7e3e; 0x14f9e3dc; 0x18fb7229; 0x27171c0; 0x1551e32d; 0xe6184cc; 0x6260e3c; 0x733d204; 0x579c437; 0x1534665c; 0x2b3349d; 0x3162fd7; 0xb634253; 0x1]
  0
  [0x1f12abeb; 0x516887b; 0x5; 0x0; 0x0; 0x0; 0x0; 0x0; 0x0; 0x0; 0x0; 0x0; 0x0; 0x0; 0x0; 0x0; 0x0; 0x0; 0x0; 0x0].
(* /repo/src/roms/rom_bls48_64.rs *)
Definition cfg_bls48_64 : cfg := mkcfg 64 58 70.
Definition rom_bls48_64 : rom := mkrom cfg_bls48_64
  [0x2f6e60ffcf6ac0b; 0x259c02699877e7b; 0x37a9870d4228402; 0x80821a1dacbb04; 0x13016a7c025a415; 0x2bb355acde6e250; 0x20536f405da950; 0x295b219c54ab351; 0x3fcfc5b23729047; 0x3f45f610b]
  [0x25e03fa0d59d0fa; 0x6b55dc2de8fd41; 0xa0e01d0b937f48; 0x20336279f50efce; 0x2212822a3470a2f; 0xd5a21c4f9fb72d; 0x89e8f0a1cfd9f8; 0x2291da62b48793; 0x3dc6978ef609e61; 0x1735d29e]
  0x21bfcbca9da805d 556 3 NotSpecial 24 Weierstrass 0 17
  [0x11; 0x0; 0x0; 0x0; 0x0; 0x0; 0x0; 0x0; 0x0; 0x0]
  [0x2ffff0000000001; 0x11550278a769c21; 0x14d1eb162029c21; 0x2309b4a2b6307f4; 0x34790bd26dfed78; 0x2c6fe3f2571037b; 0x1306a973c465fb0; 0x28446abb18df17a; 0xc43bf73e; 0x0]
  [0x3286d2f65d71d33; 0x3601553f8cb783f; 0xff01647711ee0b; 0x268bc07f29fd8cc; 0xe0702e69a80f66; 0x285003eac056511; 0x35e130d242b2c3a; 0x107024c87924166; 0x17595db8957edd7; 0x26a27a4a1]
  [0x29a5b3fea6ed83a; 0x3712e552a29c33d; 0x3391ea8e6958677; 0x29f3c7b9ded7e3e; 0x4e2e3818fb7229; 0x1cc30999551e32d; 0xe67a4086260e3c; 0x2a68ccb8579c437; 0x62c5fae2b3349d; 0x2b634253]
  0
  [0xa2d10f7f12abeb; 0x5; 0x0; 0x0; 0x0; 0x0; 0x0; 0x0; 0x0; 0x0].
(* /repo/src/roms/rom_bn254_32.rs *)
Definition cfg_bn254_32 : cfg := mkcfg 32 28 32.
Definition rom_bn254_32 : rom := mkrom cfg_bn254_32
  [0x13; 0x0; 0x13a7; 0x0; 0x86121; 0x8000000; 0x1ba344d; 0x4000000; 0x5236482; 0x2]
  [0xf5e7e39; 0x2f2a96f; 0xb96f13c; 0x64e8642; 0xc7146; 0x9926f7b; 0x4dacd24; 0x8321e7b; 0xd127a2e; 0x1]
  0x79435e5 254 3 NotSpecial 14 Weierstrass 0 2
  [0x2; 0x0; 0x0; 0x0; 0x0; 0x0; 0x0; 0x0; 0x0; 0x0]
  [0xd; 0x0; 0x10a1; 0x8000000; 0x7ff9f; 0x8000000; 0x1ba344d; 0x4000000; 0x5236482; 0x2]
  [0x12; 0x0; 0x13a7; 0x0; 0x86121; 0x8000000; 0x1ba344d; 0x4000000; 0x5236482; 0x2]
  [0x1; 0x0; 0x0; 0x0; 0x0; 0x0; 0x0; 0x0; 0x0; 0x0]
  1
  [0x1; 0x0; 0x0; 0x0; 0x0; 0x0; 0x0; 0x0; 0x0; 0x0].
(* /repo/src/roms/rom_bn254_64.rs *)
Definition cfg_bn254_64 : cfg := mkcfg 64 56 32.
Definition rom_bn254_64 : rom := mkrom cfg_bn254_64
  [0x13; 0x13a7; 0x80000000086121; 0x40000001ba344d; 0x25236482]
  [0x2f2a96ff5e7e39; 0x64e8642b96f13c; 0x9926f7b00c7146; 0x8321e7b4dacd24; 0x1d127a2e]
  0x435e50d79435e5 254 3 NotSpecial 26 Weierstrass 0 2
  [0x2; 0x0; 0x0; 0x0; 0x0]
  [0xd; 0x800000000010a1; 0x8000000007ff9f; 0x40000001ba344d; 0x25236482]
  [0x12; 0x13a7; 0x80000000086121; 0x40000001ba344d; 0x25236482]
  [0x1; 0x0; 0x0; 0x0; 0x0]
  1
  [0x1; 0x0; 0x0; 0x0; 0x0].
(* /repo/src/roms/rom_bn254cx_32.rs *)
Definition cfg_bn254cx_32 : cfg := mkcfg 32 28 32.
Definition rom_bn254cx_32 : rom := mkrom cfg_bn254cx_32
  [0xc1b55b3; 0x6623ef5; 0x93ee1be; 0xd6ee180; 0x6d3243f; 0x647a636; 0xdb0bddf; 0x8702a0; 0x4000000; 0x2]
  [0x8a0800a; 0x466a061; 0x43056a3; 0x2b3a225; 0x9c6600; 0x148515b; 0x6bdf50; 0xec9ea56; 0xc992e66; 0x1]
  0x9789e85 254 3 NotSpecial 14 Weierstrass 0 2
  [0x2; 0x0; 0x0; 0x0; 0x0; 0x0; 0x0; 0x0; 0x0; 0x0]
  [0x6eb1f6d; 0x11c0a63; 0x906cebe; 0xd6ee0cc; 0x6d2c43f; 0x647a636; 0xdb0bddf; 0x8702a0; 0x4000000; 0x2]
  [0xc1b55b2; 0x6623ef5; 0x93ee1be; 0xd6ee180; 0x6d3243f; 0x647a636; 0xdb0bddf; 0x8702a0; 0x4000000; 0x2]
  [0x1; 0x0; 0x0; 0x0; 0x0; 0x0; 0x0; 0x0; 0x0; 0x0]
  1
  [0x1; 0x0; 0x0; 0x0; 0x0; 0x0; 0x0; 0x0; 0x0; 0x0].
(* /repo/src/roms/rom_bn254cx_64.rs *)
Definition cfg_bn254cx_64 : cfg := mkcfg 64 56 32.
Definition rom_bn254cx_64 : rom := mkrom cfg_bn254cx_64
  [0x6623ef5c1b55b3; 0xd6ee18093ee1be; 0x647a6366d3243f; 0x8702a0db0bddf; 0x24000000]
  [0x466a0618a0800a; 0x2b3a22543056a3; 0x148515b09c6600; 0xec9ea5606bdf50; 0x1c992e66]
  0x4e205bf9789e85 254 3 NotSpecial 26 Weierstrass 0 2
  [0x2; 0x0; 0x0; 0x0; 0x0]
  [0x11c0a636eb1f6d; 0xd6ee0cc906cebe; 0x647a6366d2c43f; 0x8702a0db0bddf; 0x24000000]
  [0x6623ef5c1b55b2; 0xd6ee18093ee1be; 0x647a6366d3243f; 0x8702a0db0bddf; 0x24000000]
  [0x1; 0x0; 0x0; 0x0; 0x0]
  1
  [0x1; 0x0; 0x0; 0x0; 0x0].
(* /repo/src/roms/rom_brainpool_32.rs *)
Definition cfg_brainpool_32 : cfg := mkcfg 32 28 32.
Definition rom_brainpool_32 : rom := mkrom cfg_brainpool_32
  [0xf6e5377; 0x13481d1; 0x6202820; 0xf623d52; 0xd726e3b; 0x909d838; 0xc3e660a; 0xa1eea9b; 0x9fb57db; 0xa]
  [0xb9a3787; 0x9e04f49; 0x8f3cf49; 0x2931721; 0xf1dbc89; 0x54e8c3c; 0xf7559ca; 0xbb411a3; 0x773e15f; 0x9]
  0xefd89b9 256 7 NotSpecial 14 Weierstrass (-3) 0
  [0xee92b04; 0xe58101f; 0xf49256a; 0xebc4af2; 0x6b7bf93; 0x733d0b7; 0x4fe66a7; 0x30d84ea; 0x62c61c4; 0x6]
  [0x74856a7; 0x1e0e829; 0x1a6f790; 0x7aa3b56; 0xd718c39; 0x909d838; 0xc3e660a; 0xa1eea9b; 0x9fb57db; 0xa]
  [0xe1305f4; 0xa191562; 0xfbc2b79; 0x42c47aa; 0x149afa1; 0xb23a656; 0x7732213; 0xc1cfe7b; 0x3e8eb3c; 0xa]
  [0xb25c9be; 0xabe8f35; 0x27001d; 0xb6de39d; 0x17e69bc; 0xe146444; 0xd7f7b22; 0x3439c56; 0xd996c82; 0x2]
  1
  [0x1; 0x0; 0x0; 0x0; 0x0; 0x0; 0x0; 0x0; 0x0; 0x0].
(* /repo/src/roms/rom_brainpool_64.rs *)
Definition cfg_brainpool_64 : cfg := mkcfg 64 56 32.
Definition rom_brainpool_64 : rom := mkrom cfg_brainpool_64
  [0x13481d1f6e5377; 0xf623d526202820; 0x909d838d726e3b; 0xa1eea9bc3e660a; 0xa9fb57db]
  [0x9e04f49b9a3787; 0x29317218f3cf49; 0x54e8c3cf1dbc89; 0xbb411a3f7559ca; 0x9773e15f]
  0xa75590cefd89b9 256 7 NotSpecial 24 Weierstrass (-3) 0
  [0xe58101fee92b04; 0xebc4af2f49256a; 0x733d0b76b7bf93; 0x30d84ea4fe66a7; 0x662c61c4]
  [0x1e0e82974856a7; 0x7aa3b561a6f790; 0x909d838d718c39; 0xa1eea9bc3e660a; 0xa9fb57db]
  [0xa191562e1305f4; 0x42c47aafbc2b79; 0xb23a656149afa1; 0xc1cfe7b7732213; 0xa3e8eb3c]
  [0xabe8f35b25c9be; 0xb6de39d027001d; 0xe14644417e69bc; 0x3439c56d7f7b22; 0x2d996c82]
  1
  [0x1; 0x0; 0x0; 0x0; 0x0].
(* /repo/src/roms/rom_c25519_32.rs *)
Definition cfg_c25519_32 : cfg := mkcfg 32 29 32.
Definition rom_c25519_32 : rom := mkrom cfg_c25519_32
  [0x1fffffed; 0x1fffffff; 0x1fffffff; 0x1fffffff; 0x1fffffff; 0x1fffffff; 0x1fffffff; 0x1fffffff; 0x7fffff]
  [0x169000; 0x0; 0x0; 0x0; 0x0; 0x0; 0x0; 0x0; 0x0]
  0x13 255 5 PseudoMersenne 6 Montgomery 486662 0
  [0x0; 0x0; 0x0; 0x0; 0x0; 0x0; 0x0; 0x0; 0x0]
  [0x1cf5d3ed; 0x9318d2; 0x1de73596; 0x1df3bd45; 0x14d; 0x0; 0x0; 0x0; 0x100000]
  [0x9; 0x0; 0x0; 0x0; 0x0; 0x0; 0x0; 0x0; 0x0]
  [0x0; 0x0; 0x0; 0x0; 0x0; 0x0; 0x0; 0x0; 0x0]
  8
  [0x8; 0x0; 0x0; 0x0; 0x0; 0x0; 0x0; 0x0; 0x0].
(* /repo/src/roms/rom_c25519_64.rs *)
Definition cfg_c25519_64 : cfg := mkcfg 64 56 32.
Definition rom_c25519_64 : rom := mkrom cfg_c25519_64
  [0xffffffffffffed; 0xffffffffffffff; 0xffffffffffffff; 0xffffffffffffff; 0x7fffffff]
  [0xa4000000000000; 0x5; 0x0; 0x0; 0x0]
  0x13 255 5 PseudoMersenne 25 Montgomery 486662 0
  [0x0; 0x0; 0x0; 0x0; 0x0]
  [0x12631a5cf5d3ed; 0xf9dea2f79cd658; 0x14de; 0x0; 0x10000000]
  [0x9; 0x0; 0x0; 0x0; 0x0]
  [0x0; 0x0; 0x0; 0x0; 0x0]
  8
  [0x8; 0x0; 0x0; 0x0; 0x0].
(* /repo/src/roms/rom_c41417_32.rs *)
Definition cfg_c41417_32 : cfg := mkcfg 32 29 52.
Definition rom_c41417_32 : rom := mkrom cfg_c41417_32
  [0x1fffffef; 0x1fffffff; 0x1fffffff; 0x1fffffff; 0x1fffffff; 0x1fffffff; 0x1fffffff; 0x1fffffff; 0x1fffffff; 0x1fffffff; 0x1fffffff; 0x1fffffff; 0x1fffffff; 0x1fffffff; 0xff]
  [0x0; 0x242000; 0x0; 0x0; 0x0; 0x0; 0x0; 0x0; 0x0; 0x0; 0x0; 0x0; 0x0; 0x0; 0x0]
  0x11 414 7 PseudoMersenne 14 Edwards 1 3617
  [0xe21; 0x0; 0x0; 0x0; 0x0; 0x0; 0x0; 0x0; 0x0; 0x0; 0x0; 0x0; 0x0; 0x0; 0x0]
  [0x106af79; 0x18738d2f; 0x18f3c606; 0x1806715a; 0x22b36f1; 0xa67b830; 0xcf32490; 0x1ffffffd; 0x1fffffff; 0x1fffffff; 0x1fffffff; 0x1fffffff; 0x1fffffff; 0x1fffffff; 0x1f]
  [0x13cbc595; 0x7e9c097; 0x14df1931; 0x14e7f550; 0x1a111301; 0x15a6b6b5; 0xd526292; 0x18feaffe; 0x1f44c03e; 0x1e6a31b4; 0x70c9b97; 0x43180c6; 0x1443300; 0x19a4828a; 0x68]
  [0x22; 0x0; 0x0; 0x0; 0x0; 0x0; 0x0; 0x0; 0x0; 0x0; 0x0; 0x0; 0x0; 0x0; 0x0]
  8
  [0x8; 0x0; 0x0; 0x0; 0x0; 0x0; 0x0; 0x0; 0x0; 0x0; 0x0; 0x0; 0x0; 0x0; 0x0].
(* /repo/src/roms/rom_c41417_64.rs *)
Definition cfg_c41417_64 : cfg := mkcfg 64 60 52.
Definition rom_c41417_64 : rom := mkrom cfg_c41417_64
  [0xfffffffffffffef; 0xfffffffffffffff; 0xfffffffffffffff; 0xfffffffffffffff; 0xfffffffffffffff; 0xfffffffffffffff; 0x3fffffffffffff]
  [0x121000; 0x0; 0x0; 0x0; 0x0; 0x0; 0x0]
  0x11 414 7 PseudoMersenne 6 Edwards 1 3617
  [0xe21; 0x0; 0x0; 0x0; 0x0; 0x0; 0x0]
  [0xb0e71a5e106af79; 0x1c0338ad63cf181; 0x414cf706022b36f; 0xffffffffeb3cc92; 0xfffffffffffffff; 0xfffffffffffffff; 0x7ffffffffffff]
  [0x4fd3812f3cbc595; 0x1a73faa8537c64c; 0x4ab4d6d6ba11130; 0x3ec7f57ff35498a; 0xe5fcd46369f44c0; 0x300218c0631c326; 0x1a334905141443]
  [0x22; 0x0; 0x0; 0x0; 0x0; 0x0; 0x0]
  8
  [0x8; 0x0; 0x0; 0x0; 0x0; 0x0; 0x0].
(* /repo/src/roms/rom_ed25519_32.rs *)
Definition cfg_ed25519_32 : cfg := mkcfg 32 29 32.
Definition rom_ed25519_32 : rom := mkrom cfg_ed25519_32
  [0x1fffffed; 0x1fffffff; 0x1fffffff; 0x1fffffff; 0x1fffffff; 0x1fffffff; 0x1fffffff; 0x1fffffff; 0x7fffff]
  [0x169000; 0x0; 0x0; 0x0; 0x0; 0x0; 0x0; 0x0; 0x0]
  0x13 255 5 PseudoMersenne 6 Edwards (-1) 0
  [0x135978a3; 0xf5a6e50; 0x10762add; 0x149a82; 0x1e898007; 0x3cbbbc; 0x19ce331d; 0x1dc56dff; 0x52036c]
  [0x1cf5d3ed; 0x9318d2; 0x1de73596; 0x1df3bd45; 0x14d; 0x0; 0x0; 0x0; 0x100000]
  [0xf25d51a; 0xab16b04; 0x969ecb2; 0x198ec12a; 0xdc5c692; 0x1118feeb; 0xffb0293; 0x1a79adca; 0x216936]
  [0x6666658; 0x13333333; 0x19999999; 0xccccccc; 0x6666666; 0x13333333; 0x19999999; 0xccccccc; 0x666666]
  8
  [0x8; 0x0; 0x0; 0x0; 0x0; 0x0; 0x0; 0x0; 0x0].
(* /repo/src/roms/rom_ed25519_64.rs *)
Definition cfg_ed25519_64 : cfg := mkcfg 64 56 32.
Definition rom_ed25519_64 : rom := mkrom cfg_ed25519_64
  [0xffffffffffffed; 0xffffffffffffff; 0xffffffffffffff; 0xffffffffffffff; 0x7fffffff]
  [0xa4000000000000; 0x5; 0x0; 0x0; 0x0]
  0x13 255 5 PseudoMersenne 25 Edwards (-1) 0
  [0xeb4dca135978a3; 0xa4d4141d8ab75; 0x797779e8980070; 0x2b6ffe738cc740; 0x52036cee]
  [0x12631a5cf5d3ed; 0xf9dea2f79cd658; 0x14de; 0x0; 0x10000000]
  [0x562d608f25d51a; 0xc7609525a7b2c9; 0x31fdd6dc5c692c; 0xcd6e53fec0a4e2; 0x216936d3]
  [0x66666666666658; 0x66666666666666; 0x66666666666666; 0x66666666666666; 0x66666666]
  8
  [0x8; 0x0; 0x0; 0x0; 0x0].
(* /repo/src/roms/rom_fp256bn_32.rs *)
Definition cfg_fp256bn_32 : cfg := mkcfg 32 28 32.
Definition rom_fp256bn_32 : rom := mkrom cfg_fp256bn_32
  [0xed33013; 0x292ddba; 0x80a82d3; 0x65fb129; 0x49f0cdc; 0x5eee71a; 0xd46e5f2; 0xfffcf0c; 0xfffffff; 0xf]
  [0x3b9f8b; 0xede3363; 0xfec54e8; 0x92ffee9; 0x3c55f79; 0x13c1c06; 0xc0123fa; 0xa12f2ea; 0xe559b2a; 0x8]
  0x537e5e5 256 3 NotSpecial 14 Weierstrass 0 3
  [0x3; 0x0; 0x0; 0x0; 0x0; 0x0; 0x0; 0x0; 0x0; 0x0]
  [0x10b500d; 0x2d536cd; 0x9921af6; 0x65fb129; 0x49e0cdc; 0x5eee71a; 0xd46e5f2; 0xfffcf0c; 0xfffffff; 0xf]
  [0x1; 0x0; 0x0; 0x0; 0x0; 0x0; 0x0; 0x0; 0x0; 0x0]
  [0x2; 0x0; 0x0; 0x0; 0x0; 0x0; 0x0; 0x0; 0x0; 0x0]
  1
  [0x1; 0x0; 0x0; 0x0; 0x0; 0x0; 0x0; 0x0; 0x0; 0x0].
(* /repo/src/roms/rom_fp256bn_64.rs *)
Definition cfg_fp256bn_64 : cfg := mkcfg 64 56 32.
Definition rom_fp256bn_64 : rom := mkrom cfg_fp256bn_64
  [0x292ddbaed33013; 0x65fb12980a82d3; 0x5eee71a49f0cdc; 0xfffcf0cd46e5f2; 0xffffffff]
  [0xede336303b9f8b; 0x92ffee9fec54e8; 0x13c1c063c55f79; 0xa12f2eac0123fa; 0x8e559b2a]
  0x6c964e0537e5e5 256 3 NotSpecial 24 Weierstrass 0 3
  [0x3; 0x0; 0x0; 0x0; 0x0]
  [0x2d536cd10b500d; 0x65fb1299921af6; 0x5eee71a49e0cdc; 0xfffcf0cd46e5f2; 0xffffffff]
  [0x1; 0x0; 0x0; 0x0; 0x0]
  [0x2; 0x0; 0x0; 0x0; 0x0]
  1
  [0x1; 0x0; 0x0; 0x0; 0x0].
(* /repo/src/roms/rom_fp512bn_32.rs *)
Definition cfg_fp512bn_32 : cfg := mkcfg 32 28 32.
Definition rom_fp512bn_32 : rom := mkrom cfg_fp512bn_32
  [0x2adef33; 0x7594049; 0x131919ed; 0x14ab9cbe; 0x16fe1916; 0x12ef5591; 0x2e39231; 0x3d597d3; 0x55146cf; 0x88d877a; 0x102ef8f0; 0x1196a60f; 0x1c60ba1d; 0x1cf63f80; 0x1fffffff; 0x1fffffff; 0x1fffffff; 0x7ffff]
  [0xfd68b47; 0xfcf5d2c; 0x437675a; 0x1bbc3fbf; 0x1411e413; 0x13453559; 0x10b5639; 0x1c34ce79; 0x6d476bf; 0xfd05f2b; 0x15d17c28; 0x6c9f76e; 0x1c2375b3; 0x78cce9b; 0x15f0ab33; 0x1960f32e; 0x1a8d44e; 0x57a38]
  0x1ccc5c05 512 3 NotSpecial 10 Weierstrass 0 3
  [0x3; 0x0; 0x0; 0x0; 0x0; 0x0; 0x0; 0x0; 0x0; 0x0; 0x0; 0x0; 0x0; 0x0; 0x0; 0x0; 0x0; 0x0]
  [0x119a09ed; 0x153252fa; 0x1e68ad01; 0x627c09; 0x79a34a1; 0x12ef5593; 0x2e39231; 0x3d597d3; 0x45146cf; 0x88d877a; 0x102ef8f0; 0x1196a60f; 0x1c60ba1d; 0x1cf63f80; 0x1fffffff; 0x1fffffff; 0x1fffffff; 0x7ffff]
  [0x1; 0x0; 0x0; 0x0; 0x0; 0x0; 0x0; 0x0; 0x0; 0x0; 0x0; 0x0; 0x0; 0x0; 0x0; 0x0; 0x0; 0x0]
  [0x2; 0x0; 0x0; 0x0; 0x0; 0x0; 0x0; 0x0; 0x0; 0x0; 0x0; 0x0; 0x0; 0x0; 0x0; 0x0; 0x0; 0x0]
  1
  [0x1; 0x0; 0x0; 0x0; 0x0; 0x0; 0x0; 0x0; 0x0; 0x0; 0x0; 0x0; 0x0; 0x0; 0x0; 0x0; 0x0; 0x0].
(* /repo/src/roms/rom_fp512bn_64.rs *)
Definition cfg_fp512bn_64 : cfg := mkcfg 64 60 64.
Definition rom_fp512bn_64 : rom := mkrom cfg_fp512bn_64
  [0x4eb280922adef33; 0x6a55ce5f4c6467b; 0xc65deab236fe191; 0xcf1eacbe98b8e48; 0x3c111b0ef455146; 0xa1d8cb5307c0bbe; 0xffff9ec7f01c60b; 0xfffffffffffffff; 0xffffffff]
  [0x1fa6dcef99812e9; 0xab3452895a0b74e; 0xc53ea988c079e1e; 0x1e90e033ba630b9; 0xf1ea41c0714d8b0; 0xe72785387509e28; 0xd86794f834dab00; 0x9757c2accd342a1; 0x44ecb079]
  0x692a189fccc5c05 512 3 NotSpecial 28 Weierstrass 0 3
  [0x3; 0x0; 0x0; 0x0; 0x0; 0x0; 0x0; 0x0; 0x0]
  [0x6a64a5f519a09ed; 0x10313e04f9a2b40; 0xc65deab2679a34a; 0xcf1eacbe98b8e48; 0x3c111b0ef445146; 0xa1d8cb5307c0bbe; 0xffff9ec7f01c60b; 0xfffffffffffffff; 0xffffffff]
  [0x1; 0x0; 0x0; 0x0; 0x0; 0x0; 0x0; 0x0; 0x0]
  [0x2; 0x0; 0x0; 0x0; 0x0; 0x0; 0x0; 0x0; 0x0]
  1
  [0x1; 0x0; 0x0; 0x0; 0x0; 0x0; 0x0; 0x0; 0x0].
(* /repo/src/roms/rom_goldilocks_32.rs *)
Definition cfg_goldilocks_32 : cfg := mkcfg 32 29 56.
Definition rom_goldilocks_32 : rom := mkrom cfg_goldilocks_32
  [0x1fffffff; 0x1fffffff; 0x1fffffff; 0x1fffffff; 0x1fffffff; 0x1fffffff; 0x1fffffff; 0x1fdfffff; 0x1fffffff; 0x1fffffff; 0x1fffffff; 0x1fffffff; 0x1fffffff; 0x1fffffff; 0x1fffffff; 0x1fff]
  [0x0; 0x10; 0x0; 0x0; 0x0; 0x0; 0x0; 0x0; 0x3000000; 0x0; 0x0; 0x0; 0x0; 0x0; 0x0; 0x0]
  0x1 448 7 GeneralisedMersenne 14 Edwards 1 (-39081)
  [0x1fff6756; 0x1fffffff; 0x1fffffff; 0x1fffffff; 0x1fffffff; 0x1fffffff; 0x1fffffff; 0x1fdfffff; 0x1fffffff; 0x1fffffff; 0x1fffffff; 0x1fffffff; 0x1fffffff; 0x1fffffff; 0x1fffffff; 0x1fff]
  [0xb5844f3; 0x1bc61495; 0x1163d548; 0x1984e51b; 0x3690216; 0xda4d76b; 0xfa7113b; 0x1fef9944; 0x1fffffff; 0x1fffffff; 0x1fffffff; 0x1fffffff; 0x1fffffff; 0x1fffffff; 0x1fffffff; 0x7ff]
  [0x15555555; 0xaaaaaaa; 0x15555555; 0xaaaaaaa; 0x15555555; 0xaaaaaaa; 0x15555555; 0x152aaaaa; 0xaaaaaaa; 0x15555555; 0xaaaaaaa; 0x15555555; 0xaaaaaaa; 0x15555555; 0xaaaaaaa; 0x1555]
  [0xa9386ed; 0x1757de6f; 0x13681af6; 0x19657da3; 0x3098bbb; 0x12c19d15; 0x12e03595; 0xe515b18; 0x17b7e36d; 0x1ac426e; 0xdbb5e8; 0x10d8560; 0x159d6205; 0xb8246d9; 0x17a58d2b; 0x15c0]
  4
  [0x4; 0x0; 0x0; 0x0; 0x0; 0x0; 0x0; 0x0; 0x0; 0x0; 0x0; 0x0; 0x0; 0x0; 0x0; 0x0].
(* /repo/src/roms/rom_goldilocks_64.rs *)
Definition cfg_goldilocks_64 : cfg := mkcfg 64 58 56.
Definition rom_goldilocks_64 : rom := mkrom cfg_goldilocks_64
  [0x3ffffffffffffff; 0x3ffffffffffffff; 0x3ffffffffffffff; 0x3fbffffffffffff; 0x3ffffffffffffff; 0x3ffffffffffffff; 0x3ffffffffffffff; 0x3ffffffffff]
  [0x200000000; 0x0; 0x0; 0x0; 0x3000000; 0x0; 0x0; 0x0]
  0x1 448 7 GeneralisedMersenne 16 Edwards 1 (-39081)
  [0x3ffffffffff6756; 0x3ffffffffffffff; 0x3ffffffffffffff; 0x3fbffffffffffff; 0x3ffffffffffffff; 0x3ffffffffffffff; 0x3ffffffffffffff; 0x3ffffffffff]
  [0x378c292ab5844f3; 0x3309ca37163d548; 0x1b49aed63690216; 0x3fdf3288fa7113b; 0x3ffffffffffffff; 0x3ffffffffffffff; 0x3ffffffffffffff; 0xffffffffff]
  [0x155555555555555; 0x155555555555555; 0x155555555555555; 0x2a5555555555555; 0x2aaaaaaaaaaaaaa; 0x2aaaaaaaaaaaaaa; 0x2aaaaaaaaaaaaaa; 0x2aaaaaaaaaa]
  [0x2eafbcdea9386ed; 0x32cafb473681af6; 0x25833a2a3098bbb; 0x1ca2b6312e03595; 0x35884dd7b7e36d; 0x21b0ac00dbb5e8; 0x17048db359d6205; 0x2b817a58d2b]
  4
  [0x4; 0x0; 0x0; 0x0; 0x0; 0x0; 0x0; 0x0].
(* /repo/src/roms/rom_hifive_32.rs *)
Definition cfg_hifive_32 : cfg := mkcfg 32 29 42.
Definition rom_hifive_32 : rom := mkrom cfg_hifive_32
  [0x1ffffffd; 0x1fffffff; 0x1fffffff; 0x1fffffff; 0x1fffffff; 0x1fffffff; 0x1fffffff; 0x1fffffff; 0x1fffffff; 0x1fffffff; 0x1fffffff; 0x1ffff]
  [0x9000000; 0x0; 0x0; 0x0; 0x0; 0x0; 0x0; 0x0; 0x0; 0x0; 0x0; 0x0]
  0x3 336 5 PseudoMersenne 12 Edwards 1 11111
  [0x2b67; 0x0; 0x0; 0x0; 0x0; 0x0; 0x0; 0x0; 0x0; 0x0; 0x0; 0x0]
  [0x1e9fa805; 0x197cacb9; 0x1e4eea9e; 0x17ad70f; 0x1fa9850c; 0x38a0a; 0x0; 0x0; 0x0; 0x0; 0x0; 0x4000]
  [0xc; 0x0; 0x0; 0x0; 0x0; 0x0; 0x0; 0x0; 0x0; 0x0; 0x0; 0x0]
  [0x5fe8632; 0x15f63428; 0xd976c4; 0x1aaca194; 0x35b6db5; 0x8e3f7a; 0x52d1b0e; 0xf0a7a36; 0x1c161d00; 0x8170c70; 0x1185ad59; 0x181b]
  8
  [0x8; 0x0; 0x0; 0x0; 0x0; 0x0; 0x0; 0x0; 0x0; 0x0; 0x0; 0x0].
(* /repo/src/roms/rom_hifive_64.rs *)
Definition cfg_hifive_64 : cfg := mkcfg 64 60 42.
Definition rom_hifive_64 : rom := mkrom cfg_hifive_64
  [0xffffffffffffffd; 0xfffffffffffffff; 0xfffffffffffffff; 0xfffffffffffffff; 0xfffffffffffffff; 0xfffffffff]
  [0x9000000000000; 0x0; 0x0; 0x0; 0x0; 0x0]
  0x3 336 5 PseudoMersenne 24 Edwards 1 11111
  [0x2b67; 0x0; 0x0; 0x0; 0x0; 0x0]
  [0xb2f95973e9fa805; 0xc0bd6b87f93baa7; 0x71415fa9850; 0x0; 0x0; 0x200000000]
  [0xc; 0x0; 0x0; 0x0; 0x0; 0x0]
  [0x2bec68505fe8632; 0x5d5650ca0365db1; 0x3811c7ef435b6db; 0x7853d1b14b46c; 0x56502e18e1c161d; 0xc0dc616b]
  8
  [0x8; 0x0; 0x0; 0x0; 0x0; 0x0].
(* /repo/src/roms/rom_nist256_32.rs *)
Definition cfg_nist256_32 : cfg := mkcfg 32 28 32.
Definition rom_nist256_32 : rom := mkrom cfg_nist256_32
  [0xfffffff; 0xfffffff; 0xfffffff; 0xfff; 0x0; 0x0; 0x1000000; 0x0; 0xfffffff; 0xf]
  [0x50000; 0x300000; 0x0; 0x0; 0xffffffa; 0xfffffbf; 0xffffeff; 0xfffafff; 0x2ffff; 0x0]
  0x1 256 7 NotSpecial 14 Weierstrass (-3) 0
  [0x7d2604b; 0xce3c3e2; 0x3b0f63b; 0x6b0cc5; 0x6bc651d; 0x5576988; 0x7b3ebbd; 0xaa3a93e; 0xac635d8; 0x5]
  [0xc632551; 0xb9cac2f; 0x79e84f3; 0xfaada71; 0xfffbce6; 0xfffffff; 0xffffff; 0x0; 0xfffffff; 0xf]
  [0x898c296; 0xa13945d; 0xb33a0f4; 0x7d812de; 0xf27703; 0xe563a44; 0x7f8bce6; 0xe12c424; 0xb17d1f2; 0x6]
  [0x7bf51f5; 0xb640683; 0x15ececb; 0x33576b3; 0xe162bce; 0x4a7c0f9; 0xb8ee7eb; 0xfe1a7f9; 0xfe342e2; 0x4]
  1
  [0x1; 0x0; 0x0; 0x0; 0x0; 0x0; 0x0; 0x0; 0x0; 0x0].
(* /repo/src/roms/rom_nist256_64.rs *)
Definition cfg_nist256_64 : cfg := mkcfg 64 56 32.
Definition rom_nist256_64 : rom := mkrom cfg_nist256_64
  [0xffffffffffffff; 0xffffffffff; 0x0; 0x1000000; 0xffffffff]
  [0x3000000050000; 0x0; 0xfffffbfffffffa; 0xfffafffffffeff; 0x2ffff]
  0x1 256 7 NotSpecial 24 Weierstrass (-3) 0
  [0xce3c3e27d2604b; 0x6b0cc53b0f63b; 0x55769886bc651d; 0xaa3a93e7b3ebbd; 0x5ac635d8]
  [0xb9cac2fc632551; 0xfaada7179e84f3; 0xffffffffffbce6; 0xffffff; 0xffffffff]
  [0xa13945d898c296; 0x7d812deb33a0f4; 0xe563a440f27703; 0xe12c4247f8bce6; 0x6b17d1f2]
  [0xb6406837bf51f5; 0x33576b315ececb; 0x4a7c0f9e162bce; 0xfe1a7f9b8ee7eb; 0x4fe342e2]
  1
  [0x1; 0x0; 0x0; 0x0; 0x0].
(* /repo/src/roms/rom_nist384_32.rs *)
Definition cfg_nist384_32 : cfg := mkcfg 32 29 48.
Definition rom_nist384_32 : rom := mkrom cfg_nist384_32
  [0x1fffffff; 0x7; 0x0; 0x1ffffe00; 0x1fffefff; 0x1fffffff; 0x1fffffff; 0x1fffffff; 0x1fffffff; 0x1fffffff; 0x1fffffff; 0x1fffffff; 0x1fffffff; 0x7f]
  [0x0; 0x8000; 0x1ff80000; 0x1fffff; 0x2000000; 0x0; 0x0; 0x1ffffffc; 0xf; 0x100; 0x400; 0x0; 0x0; 0x0]
  0x1 384 7 NotSpecial 14 Weierstrass (-3) 0
  [0x13ec2aef; 0x142e476e; 0xbb4674a; 0xc731b14; 0x1875ac65; 0x447a809; 0x4480c50; 0xddfd028; 0x19181d9c; 0x1f1fc168; 0x623815a; 0x47dcfc9; 0x1312fa7e; 0x59]
  [0xcc52973; 0x760cb56; 0xc29debb; 0x141b6491; 0x12ddf581; 0x6c0fa1b; 0x1fff1d8d; 0x1fffffff; 0x1fffffff; 0x1fffffff; 0x1fffffff; 0x1fffffff; 0x1fffffff; 0x7f]
  [0x12760ab7; 0x12a2f1c3; 0x154a5b0e; 0x5e4bb7e; 0x2a38550; 0xf0412a; 0xe6167dd; 0xc5174f3; 0x146e1d3b; 0x1799056b; 0x3ac71c7; 0x1d160a6f; 0x87ca22b; 0x55]
  [0x10ea0e5f; 0x1218ebe4; 0x1fa0675e; 0x1639c3a; 0xb8c00a6; 0x1889daf8; 0x11f3a768; 0x17a51342; 0x9f8f41d; 0x1c9496e1; 0x1767a62f; 0xc4c58de; 0x17de4a9; 0x1b]
  1
  [0x1; 0x0; 0x0; 0x0; 0x0; 0x0; 0x0; 0x0; 0x0; 0x0; 0x0; 0x0; 0x0; 0x0].
(* /repo/src/roms/rom_nist384_64.rs *)
Definition cfg_nist384_64 : cfg := mkcfg 64 56 48.
Definition rom_nist384_64 : rom := mkrom cfg_nist384_64
  [0xffffffff; 0xffff0000000000; 0xfffffffffeffff; 0xffffffffffffff; 0xffffffffffffff; 0xffffffffffffff; 0xffffffffffff]
  [0xfe000000010000; 0xffffff; 0x2; 0xfffffffe00; 0x1000000020000; 0x0; 0x0]
  0x100000001 384 7 NotSpecial 8 Weierstrass (-3) 0
  [0x85c8edd3ec2aef; 0x398d8a2ed19d2a; 0x8f5013875ac656; 0xfe814112031408; 0xf82d19181d9c6e; 0xe7e4988e056be3; 0xb3312fa7e23e]
  [0xec196accc52973; 0xdb248b0a77aec; 0x81f4372ddf581a; 0xffffffffc7634d; 0xffffffffffffff; 0xffffffffffffff; 0xffffffffffff]
  [0x545e3872760ab7; 0xf25dbf55296c3a; 0xe082542a385502; 0x8ba79b9859f741; 0x20ad746e1d3b62; 0x5378eb1c71ef3; 0xaa87ca22be8b]
  [0x431d7c90ea0e5f; 0xb1ce1d7e819d7a; 0x13b5f0b8c00a60; 0x289a147ce9da31; 0x92dc29f8f41dbd; 0x2c6f5d9e98bf92; 0x3617de4a9626]
  1
  [0x1; 0x0; 0x0; 0x0; 0x0; 0x0; 0x0].
(* /repo/src/roms/rom_nist521_32.rs *)
Definition cfg_nist521_32 : cfg := mkcfg 32 28 66.
Definition rom_nist521_32 : rom := mkrom cfg_nist521_32
  [0xfffffff; 0xfffffff; 0xfffffff; 0xfffffff; 0xfffffff; 0xfffffff; 0xfffffff; 0xfffffff; 0xfffffff; 0xfffffff; 0xfffffff; 0xfffffff; 0xfffffff; 0xfffffff; 0xfffffff; 0xfffffff; 0xfffffff; 0xfffffff; 0x1ffff]
  [0x400000; 0x0; 0x0; 0x0; 0x0; 0x0; 0x0; 0x0; 0x0; 0x0; 0x0; 0x0; 0x0; 0x0; 0x0; 0x0; 0x0; 0x0; 0x0]
  0x1 521 7 PseudoMersenne 11 Weierstrass (-3) 0
  [0xb503f00; 0x451fd46; 0xc34f1ef; 0xdf883d2; 0xf073573; 0xbd3bb1b; 0xb1652c0; 0xec7e937; 0x6193951; 0xf109e15; 0x489918e; 0x15f3b8b; 0x25b99b3; 0xeea2da7; 0xb68540; 0x929a21a; 0xe1c9a1f; 0x3eb9618; 0x5195]
  [0x1386409; 0x6fb71e9; 0xc47aebb; 0xc9b8899; 0x5d03bb5; 0x48f709a; 0xb7fcc01; 0xbf2f966; 0x1868783; 0xfffffa5; 0xfffffff; 0xfffffff; 0xfffffff; 0xfffffff; 0xfffffff; 0xfffffff; 0xfffffff; 0xfffffff; 0x1ffff]
  [0x2e5bd66; 0x7e7e31c; 0xa429bf9; 0xb3c1856; 0x8de3348; 0x27a2ffa; 0x8fe1dc1; 0xefe7592; 0x14b5e77; 0x4d3dbaa; 0x8af606b; 0xb521f82; 0x139053f; 0x429c648; 0x62395b4; 0x9e3ecb6; 0x404e9cd; 0x8e06b70; 0xc685]
  [0xfd16650; 0xbe94769; 0x2c24088; 0x7086a27; 0x761353c; 0x13fad0; 0xc550b9; 0x5ef4264; 0x7ee7299; 0x3e662c9; 0xfbd1727; 0x446817a; 0x449579b; 0xd998f54; 0x42c7d1b; 0x5c8a5fb; 0xa3bc004; 0x296a789; 0x11839]
  1
  [0x1; 0x0; 0x0; 0x0; 0x0; 0x0; 0x0; 0x0; 0x0; 0x0; 0x0; 0x0; 0x0; 0x0; 0x0; 0x0; 0x0; 0x0; 0x0].
(* /repo/src/roms/rom_nist521_64.rs *)
Definition cfg_nist521_64 : cfg := mkcfg 64 60 66.
Definition rom_nist521_64 : rom := mkrom cfg_nist521_64
  [0xfffffffffffffff; 0xfffffffffffffff; 0xfffffffffffffff; 0xfffffffffffffff; 0xfffffffffffffff; 0xfffffffffffffff; 0xfffffffffffffff; 0xfffffffffffffff; 0x1ffffffffff]
  [0x4000000000; 0x0; 0x0; 0x0; 0x0; 0x0; 0x0; 0x0; 0x0]
  0x1 521 7 PseudoMersenne 19 Weierstrass (-3) 0
  [0xf451fd46b503f00; 0x73df883d2c34f1e; 0x2c0bd3bb1bf0735; 0x3951ec7e937b165; 0x9918ef109e15619; 0x5b99b315f3b8b48; 0xb68540eea2da72; 0x8e1c9a1f929a21a; 0x51953eb961]
  [0xb6fb71e91386409; 0xb5c9b8899c47aeb; 0xc0148f709a5d03b; 0x8783bf2f966b7fc; 0xffffffffffa5186; 0xfffffffffffffff; 0xfffffffffffffff; 0xfffffffffffffff; 0x1ffffffffff]
  [0x97e7e31c2e5bd66; 0x48b3c1856a429bf; 0xdc127a2ffa8de33; 0x5e77efe75928fe1; 0xf606b4d3dbaa14b; 0x39053fb521f828a; 0x62395b4429c6481; 0x404e9cd9e3ecb6; 0xc6858e06b7]
  [0x8be94769fd16650; 0x3c7086a272c2408; 0xb9013fad076135; 0x72995ef42640c55; 0xd17273e662c97ee; 0x49579b446817afb; 0x42c7d1bd998f544; 0x9a3bc0045c8a5fb; 0x11839296a78]
  1
  [0x1; 0x0; 0x0; 0x0; 0x0; 0x0; 0x0; 0x0; 0x0].
(* /repo/src/roms/rom_nums256e_32.rs *)
Definition cfg_nums256e_32 : cfg := mkcfg 32 29 32.
Definition rom_nums256e_32 : rom := mkrom cfg_nums256e_32
  [0x1fffff43; 0x1fffffff; 0x1fffffff; 0x1fffffff; 0x1fffffff; 0x1fffffff; 0x1fffffff; 0x1fffffff; 0xffffff]
  [0x22e2400; 0x0; 0x0; 0x0; 0x0; 0x0; 0x0; 0x0; 0x0]
  0xbd 256 3 PseudoMersenne 5 Edwards 1 (-15342)
  [0x1fffc355; 0x1fffffff; 0x1fffffff; 0x1fffffff; 0x1fffffff; 0x1fffffff; 0x1fffffff; 0x1fffffff; 0xffffff]
  [0xedd4af5; 0x123d8c87; 0x1650e6c6; 0xab54a5e; 0x419; 0x0; 0x0; 0x0; 0x400000]
  [0xeed13da; 0x6f60481; 0x20d61a8; 0x13141dc6; 0x9bd60c3; 0x1eafb490; 0xdf73478; 0x1f6d5d44; 0x8a7514]
  [0x198a89e6; 0x1d30b73b; 0x15bb4cb; 0x1ec3b021; 0x18010715; 0x12ecd325; 0x171f3a59; 0x13fb3b24; 0x44d53e]
  4
  [0x4; 0x0; 0x0; 0x0; 0x0; 0x0; 0x0; 0x0; 0x0].
(* /repo/src/roms/rom_nums256e_64.rs *)
Definition cfg_nums256e_64 : cfg := mkcfg 64 56 32.
Definition rom_nums256e_64 : rom := mkrom cfg_nums256e_64
  [0xffffffffffff43; 0xffffffffffffff; 0xffffffffffffff; 0xffffffffffffff; 0xffffffff]
  [0x89000000000000; 0x8b; 0x0; 0x0; 0x0]
  0xbd 256 3 PseudoMersenne 24 Edwards 1 (-15342)
  [0xffffffffffc355; 0xffffffffffffff; 0xffffffffffffff; 0xffffffffffffff; 0xffffffff]
  [0x47b190eedd4af5; 0x5aa52f59439b1a; 0x4195; 0x0; 0x40000000]
  [0xdec0902eed13da; 0x8a0ee3083586a0; 0x5f69209bd60c39; 0x6aea237dcd1e3d; 0x8a7514fb]
  [0xa616e7798a89e6; 0x61d810856ed32f; 0xd9a64b8010715f; 0xd9d925c7ce9665; 0x44d53e9f]
  4
  [0x4; 0x0; 0x0; 0x0; 0x0].
(* /repo/src/roms/rom_nums256w_32.rs *)
Definition cfg_nums256w_32 : cfg := mkcfg 32 28 32.
Definition rom_nums256w_32 : rom := mkrom cfg_nums256w_32
  [0xfffff43; 0xfffffff; 0xfffffff; 0xfffffff; 0xfffffff; 0xfffffff; 0xfffffff; 0xfffffff; 0xfffffff; 0xf]
  [0x0; 0x8900000; 0x8b; 0x0; 0x0; 0x0; 0x0; 0x0; 0x0; 0x0]
  0xbd 256 3 PseudoMersenne 14 Weierstrass (-3) 152961
  [0x25581; 0x0; 0x0; 0x0; 0x0; 0x0; 0x0; 0x0; 0x0; 0x0]
  [0x751a825; 0xab20294; 0x65c6020; 0x8275ea2; 0xfffe43c; 0xfffffff; 0xfffffff; 0xfffffff; 0xfffffff; 0xf]
  [0x21aacb1; 0x52ee1eb; 0x4c73abc; 0x9b0903d; 0xb098357; 0xa04f42c; 0x1297a95; 0x5aaadb6; 0xc9ed6b6; 0xb]
  [0x184de9f; 0xb5b9cb2; 0x10fbb80; 0xc3d1153; 0x35c955; 0xf77e04e; 0x673448b; 0x3399b6a; 0x8fc0f1; 0xd]
  1
  [0x1; 0x0; 0x0; 0x0; 0x0; 0x0; 0x0; 0x0; 0x0; 0x0].
(* /repo/src/roms/rom_nums256w_64.rs *)
Definition cfg_nums256w_64 : cfg := mkcfg 64 56 32.
Definition rom_nums256w_64 : rom := mkrom cfg_nums256w_64
  [0xffffffffffff43; 0xffffffffffffff; 0xffffffffffffff; 0xffffffffffffff; 0xffffffff]
  [0x89000000000000; 0x8b; 0x0; 0x0; 0x0]
  0xbd 256 3 PseudoMersenne 24 Weierstrass (-3) 152961
  [0x25581; 0x0; 0x0; 0x0; 0x0]
  [0xab20294751a825; 0x8275ea265c6020; 0xffffffffffe43c; 0xffffffffffffff; 0xffffffff]
  [0x52ee1eb21aacb1; 0x9b0903d4c73abc; 0xa04f42cb098357; 0x5aaadb61297a95; 0xbc9ed6b6]
  [0xb5b9cb2184de9f; 0xc3d115310fbb80; 0xf77e04e035c955; 0x3399b6a673448b; 0xd08fc0f1]
  1
  [0x1; 0x0; 0x0; 0x0; 0x0].
(* /repo/src/roms/rom_nums384e_32.rs *)
Definition cfg_nums384e_32 : cfg := mkcfg 32 29 48.
Definition rom_nums384e_32 : rom := mkrom cfg_nums384e_32
  [0x1ffffec3; 0x1fffffff; 0x1fffffff; 0x1fffffff; 0x1fffffff; 0x1fffffff; 0x1fffffff; 0x1fffffff; 0x1fffffff; 0x1fffffff; 0x1fffffff; 0x1fffffff; 0x1fffffff; 0x7f]
  [0x0; 0x4448000; 0x6; 0x0; 0x0; 0x0; 0x0; 0x0; 0x0; 0x0; 0x0; 0x0; 0x0; 0x0]
  0x13d 384 3 PseudoMersenne 14 Edwards 1 (-11556)
  [0x1fffd19f; 0x1fffffff; 0x1fffffff; 0x1fffffff; 0x1fffffff; 0x1fffffff; 0x1fffffff; 0x1fffffff; 0x1fffffff; 0x1fffffff; 0x1fffffff; 0x1fffffff; 0x1fffffff; 0x7f]
  [0x6a3897d; 0x5cee627; 0xd721e48; 0x8aab556; 0x1e1cf61e; 0xd0e5a35; 0x1fff891c; 0x1fffffff; 0x1fffffff; 0x1fffffff; 0x1fffffff; 0x1fffffff; 0x1fffffff; 0x1f]
  [0xc206bde; 0x6aa0723; 0x116504d4; 0x52562ca; 0x163406ff; 0x1fd47998; 0x10015d8f; 0x8dcb7c9; 0x15b30bf4; 0x14d72aed; 0x102da884; 0xb524cd9; 0x1b111fb4; 0x30]
  [0x10729392; 0xc681f0f; 0x1b123727; 0x561f28d; 0x1964b007; 0xc7bfb22; 0x1d5a0c3e; 0xe9e284b; 0x1716ad82; 0x11d886e; 0x1ce2c69; 0x134ddd61; 0x983e67b; 0x41]
  4
  [0x4; 0x0; 0x0; 0x0; 0x0; 0x0; 0x0; 0x0; 0x0; 0x0; 0x0; 0x0; 0x0; 0x0].
(* /repo/src/roms/rom_nums384e_64.rs *)
Definition cfg_nums384e_64 : cfg := mkcfg 64 56 48.
Definition rom_nums384e_64 : rom := mkrom cfg_nums384e_64
  [0xfffffffffffec3; 0xffffffffffffff; 0xffffffffffffff; 0xffffffffffffff; 0xffffffffffffff; 0xffffffffffffff; 0xffffffffffff]
  [0x188890000; 0x0; 0x0; 0x0; 0x0; 0x0; 0x0]
  0x13d 384 3 PseudoMersenne 8 Edwards 1 (-11556)
  [0xffffffffffd19f; 0xffffffffffffff; 0xffffffffffffff; 0xffffffffffffff; 0xffffffffffffff; 0xffffffffffffff; 0xffffffffffff]
  [0xb9dcc4e6a3897d; 0x555aab35c87920; 0x1cb46be1cf61e4; 0xffffffffe2471a; 0xffffffffffffff; 0xffffffffffffff; 0x3fffffffffff]
  [0xd540e46c206bde; 0x92b16545941350; 0xa8f33163406ff2; 0xe5be4c005763ff; 0xe55db5b30bf446; 0x266cc0b6a2129a; 0x61b111fb45a9]
  [0x8d03e1f0729392; 0xb0f946ec48dc9d; 0xf7f645964b0072; 0xf1425f56830f98; 0xb10dd716ad8274; 0xeeb08738b1a423; 0x82983e67b9a6]
  4
  [0x4; 0x0; 0x0; 0x0; 0x0; 0x0; 0x0].
(* /repo/src/roms/rom_nums384w_32.rs *)
Definition cfg_nums384w_32 : cfg := mkcfg 32 29 48.
Definition rom_nums384w_32 : rom := mkrom cfg_nums384w_32
  [0x1ffffec3; 0x1fffffff; 0x1fffffff; 0x1fffffff; 0x1fffffff; 0x1fffffff; 0x1fffffff; 0x1fffffff; 0x1fffffff; 0x1fffffff; 0x1fffffff; 0x1fffffff; 0x1fffffff; 0x7f]
  [0x0; 0x4448000; 0x6; 0x0; 0x0; 0x0; 0x0; 0x0; 0x0; 0x0; 0x0; 0x0; 0x0; 0x0]
  0x13d 384 3 PseudoMersenne 14 Weierstrass (-3) (-34568)
  [0x1fff77bb; 0x1fffffff; 0x1fffffff; 0x1fffffff; 0x1fffffff; 0x1fffffff; 0x1fffffff; 0x1fffffff; 0x1fffffff; 0x1fffffff; 0x1fffffff; 0x1fffffff; 0x1fffffff; 0x7f]
  [0x1b0e61b9; 0x26c0fb3; 0xdf89e98; 0x153a7a98; 0x16881bed; 0x178f75ae; 0x1fff587a; 0x1fffffff; 0x1fffffff; 0x1fffffff; 0x1fffffff; 0x1fffffff; 0x1fffffff; 0x7f]
  [0x98152a; 0x1ce5d021; 0x18711efa; 0x1dda201e; 0xc742522; 0x148d9536; 0x7d3cef4; 0x19bf703f; 0x60225c1; 0x12082f8d; 0x12203288; 0x2de3038; 0x17956f0b; 0x3a]
  [0x6180716; 0x3a5c763; 0x1d2b4997; 0xd69b77f; 0x837ebcd; 0x1be890d; 0xe72e482; 0xeff0fee; 0x1eb00469; 0x2c267b; 0x15f8cf4c; 0x3371c71; 0xdee368e; 0x56]
  1
  [0x1; 0x0; 0x0; 0x0; 0x0; 0x0; 0x0; 0x0; 0x0; 0x0; 0x0; 0x0; 0x0; 0x0].
(* /repo/src/roms/rom_nums384w_64.rs *)
Definition cfg_nums384w_64 : cfg := mkcfg 64 58 48.
Definition rom_nums384w_64 : rom := mkrom cfg_nums384w_64
  [0x3fffffffffffec3; 0x3ffffffffffffff; 0x3ffffffffffffff; 0x3ffffffffffffff; 0x3ffffffffffffff; 0x3ffffffffffffff; 0xfffffffff]
  [0x88900000000000; 0x6; 0x0; 0x0; 0x0; 0x0; 0x0]
  0x13d 384 3 PseudoMersenne 22 Weierstrass (-3) (-34568)
  [0x3ffffffffff77bb; 0x3ffffffffffffff; 0x3ffffffffffffff; 0x3ffffffffffffff; 0x3ffffffffffffff; 0x3ffffffffffffff; 0xfffffffff]
  [0x4d81f67b0e61b9; 0x2a74f530df89e98; 0x2f1eeb5d6881bed; 0x3ffffffffff587a; 0x3ffffffffffffff; 0x3ffffffffffffff; 0xfffffffff]
  [0x39cba042098152a; 0x3bb4403d8711efa; 0x291b2a6cc742522; 0x337ee07e7d3cef4; 0x24105f1a60225c1; 0x5bc60712203288; 0x757956f0b]
  [0x74b8ec66180716; 0x1ad36effd2b4997; 0x37d121a837ebcd; 0x1dfe1fdce72e482; 0x584cf7eb00469; 0x66e38e35f8cf4c; 0xacdee368e]
  1
  [0x1; 0x0; 0x0; 0x0; 0x0; 0x0; 0x0].
(* /repo/src/roms/rom_nums512e_32.rs *)
Definition cfg_nums512e_32 : cfg := mkcfg 32 29 64.
Definition rom_nums512e_32 : rom := mkrom cfg_nums512e_32
  [0x1ffffdc7; 0x1fffffff; 0x1fffffff; 0x1fffffff; 0x1fffffff; 0x1fffffff; 0x1fffffff; 0x1fffffff; 0x1fffffff; 0x1fffffff; 0x1fffffff; 0x1fffffff; 0x1fffffff; 0x1fffffff; 0x1fffffff; 0x1fffffff; 0x1fffffff; 0x7ffff]
  [0xb100000; 0x278; 0x0; 0x0; 0x0; 0x0; 0x0; 0x0; 0x0; 0x0; 0x0; 0x0; 0x0; 0x0; 0x0; 0x0; 0x0; 0x0]
  0x239 512 3 PseudoMersenne 10 Edwards 1 (-78296)
  [0x1ffecbef; 0x1fffffff; 0x1fffffff; 0x1fffffff; 0x1fffffff; 0x1fffffff; 0x1fffffff; 0x1fffffff; 0x1fffffff; 0x1fffffff; 0x1fffffff; 0x1fffffff; 0x1fffffff; 0x1fffffff; 0x1fffffff; 0x1fffffff; 0x1fffffff; 0x7ffff]
  [0x1beed46d; 0x1a3467a8; 0x1bfb3fd9; 0xc0af0db; 0x86f52a4; 0xc64b85b; 0x6ea78ff; 0xda5f9f2; 0x1fb4f063; 0x1fffffff; 0x1fffffff; 0x1fffffff; 0x1fffffff; 0x1fffffff; 0x1fffffff; 0x1fffffff; 0x1fffffff; 0x1ffff]
  [0x19ec57fe; 0xdcd594c; 0x113c0571; 0xa4a84f9; 0x104ad0fe; 0x4c92b44; 0xc3de2f7; 0x9ddc8ce; 0x74621c1; 0x1139dc0a; 0x9e85faf; 0x1b894704; 0x1d1e79f4; 0x9e29997; 0x32de223; 0x16d38f43; 0x116d128d; 0x6fc71]
  [0x1e2f5e1; 0x136ef606; 0x1c7407cc; 0xda71537; 0xc1fd026; 0x3431576; 0x15898068; 0x1e5d32c6; 0x120ca53; 0xc84f41a; 0xa4adae5; 0x104b3a45; 0x76f726d; 0x1512b772; 0x3d5dea0; 0x194e3316; 0x1ff39d49; 0x3684d]
  4
  [0x4; 0x0; 0x0; 0x0; 0x0; 0x0; 0x0; 0x0; 0x0; 0x0; 0x0; 0x0; 0x0; 0x0; 0x0; 0x0; 0x0; 0x0].
(* /repo/src/roms/rom_nums512e_64.rs *)
Definition cfg_nums512e_64 : cfg := mkcfg 64 60 64.
Definition rom_nums512e_64 : rom := mkrom cfg_nums512e_64
  [0xffffffffffffdc7; 0xfffffffffffffff; 0xfffffffffffffff; 0xfffffffffffffff; 0xfffffffffffffff; 0xfffffffffffffff; 0xfffffffffffffff; 0xfffffffffffffff; 0xffffffff]
  [0x100000000000000; 0x4f0b; 0x0; 0x0; 0x0; 0x0; 0x0; 0x0; 0x0]
  0x239 512 3 PseudoMersenne 28 Edwards 1 (-78296)
  [0xffffffffffecbef; 0xfffffffffffffff; 0xfffffffffffffff; 0xfffffffffffffff; 0xfffffffffffffff; 0xfffffffffffffff; 0xfffffffffffffff; 0xfffffffffffffff; 0xffffffff]
  [0x7468cf51beed46d; 0x4605786defecff6; 0xfd8c970b686f52a; 0x636d2fcf91ba9e3; 0xfffffffffffb4f0; 0xfffffffffffffff; 0xfffffffffffffff; 0xfffffffffffffff; 0x3fffffff]
  [0x5b9ab2999ec57fe; 0xe525427cc4f015c; 0xdc992568904ad0f; 0xc14eee46730f78b; 0xebe273b81474621; 0x9f4dc4a38227a17; 0x888d3c5332fd1e7; 0x128db69c7a18cb7; 0xdf8e316d]
  [0x26ddec0c1e2f5e1; 0x66d38a9bf1d01f3; 0xa06862aecc1fd02; 0x53f2e9963562601; 0xb95909e834120ca; 0x26d8259d22a92b6; 0x7a82a256ee476f7; 0x9d49ca7198b0f57; 0x6d09bff3]
  4
  [0x4; 0x0; 0x0; 0x0; 0x0; 0x0; 0x0; 0x0; 0x0].
(* /repo/src/roms/rom_nums512w_32.rs *)
Definition cfg_nums512w_32 : cfg := mkcfg 32 29 64.
Definition rom_nums512w_32 : rom := mkrom cfg_nums512w_32
  [0x1ffffdc7; 0x1fffffff; 0x1fffffff; 0x1fffffff; 0x1fffffff; 0x1fffffff; 0x1fffffff; 0x1fffffff; 0x1fffffff; 0x1fffffff; 0x1fffffff; 0x1fffffff; 0x1fffffff; 0x1fffffff; 0x1fffffff; 0x1fffffff; 0x1fffffff; 0x7ffff]
  [0xb100000; 0x278; 0x0; 0x0; 0x0; 0x0; 0x0; 0x0; 0x0; 0x0; 0x0; 0x0; 0x0; 0x0; 0x0; 0x0; 0x0; 0x0]
  0x239 512 3 PseudoMersenne 10 Weierstrass (-3) 121243
  [0x1d99b; 0x0; 0x0; 0x0; 0x0; 0x0; 0x0; 0x0; 0x0; 0x0; 0x0; 0x0; 0x0; 0x0; 0x0; 0x0; 0x0; 0x0]
  [0x433555d; 0x10a9f9c8; 0x1f3490f3; 0xd166cc0; 0xbdc63b5; 0xc76cbe8; 0xc6d3f09; 0x1f729cf0; 0x1f5b3ca4; 0x1fffffff; 0x1fffffff; 0x1fffffff; 0x1fffffff; 0x1fffffff; 0x1fffffff; 0x1fffffff; 0x1fffffff; 0x7ffff]
  [0xcabae57; 0x4143cac; 0x1bd778b7; 0x1ac026fa; 0x15831d5; 0x14312ab; 0x167a4de5; 0xa20ed66; 0x195021a1; 0x129836cf; 0x1141b830; 0xa03ed0a; 0xcad83bb; 0x1e9da94c; 0xdc00a80; 0x1527b45; 0x1447141d; 0x1d601]
  [0x183527a6; 0x1d043b01; 0x1f43fa48; 0x16b83c99; 0x5602cf2; 0x1420592d; 0x17a70486; 0x1b5161dd; 0x14a28415; 0x3de8a78; 0x3d2c983; 0x17797719; 0x197dbdea; 0x15d88025; 0x1bbb718f; 0xad679c1; 0x14ca29ad; 0x4a1d2]
  1
  [0x1; 0x0; 0x0; 0x0; 0x0; 0x0; 0x0; 0x0; 0x0; 0x0; 0x0; 0x0; 0x0; 0x0; 0x0; 0x0; 0x0; 0x0].
(* /repo/src/roms/rom_nums512w_64.rs *)
Definition cfg_nums512w_64 : cfg := mkcfg 64 60 64.
Definition rom_nums512w_64 : rom := mkrom cfg_nums512w_64
  [0xffffffffffffdc7; 0xfffffffffffffff; 0xfffffffffffffff; 0xfffffffffffffff; 0xfffffffffffffff; 0xfffffffffffffff; 0xfffffffffffffff; 0xfffffffffffffff; 0xffffffff]
  [0x100000000000000; 0x4f0b; 0x0; 0x0; 0x0; 0x0; 0x0; 0x0; 0x0]
  0x239 512 3 PseudoMersenne 28 Weierstrass (-3) 121243
  [0x1d99b; 0x0; 0x0; 0x0; 0x0; 0x0; 0x0; 0x0; 0x0]
  [0xe153f390433555d; 0x568b36607cd243c; 0x258ed97d0bdc63b; 0xa4fb94e7831b4fc; 0xfffffffffff5b3c; 0xfffffffffffffff; 0xfffffffffffffff; 0xfffffffffffffff; 0xffffffff]
  [0xc8287958cabae57; 0x5d60137d6f5de2d; 0x94286255615831d; 0xa151076b359e937; 0xc25306d9f95021; 0x3bb501f6854506e; 0x2a03d3b5298cad8; 0x141d0a93da2b700; 0x3ac03447]
  [0x3a08760383527a6; 0x2b5c1e4cfd0fe92; 0x1a840b25a5602cf; 0x15da8b0eede9c12; 0x60c7bd14f14a284; 0xdeabbcbb8c8f4b2; 0xc63ebb1004b97db; 0x29ad56b3ce0eeed; 0x943a54ca]
  1
  [0x1; 0x0; 0x0; 0x0; 0x0; 0x0; 0x0; 0x0; 0x0].
(* /repo/src/roms/rom_rsa2048_32.rs *)
Definition cfg_rsa2048_32 : cfg := mkcfg 32 28 128.
(* /repo/src/roms/rom_rsa2048_64.rs *)
Definition cfg_rsa2048_64 : cfg := mkcfg 64 58 128.
(* /repo/src/roms/rom_rsa3072_32.rs *)
Definition cfg_rsa3072_32 : cfg := mkcfg 32 28 48.
(* /repo/src/roms/rom_rsa3072_64.rs *)
Definition cfg_rsa3072_64 : cfg := mkcfg 64 58 48.
(* /repo/src/roms/rom_rsa4096_32.rs *)
Definition cfg_rsa4096_32 : cfg := mkcfg 32 29 64.
(* /repo/src/roms/rom_rsa4096_64.rs *)
Definition cfg_rsa4096_64 : cfg := mkcfg 64 60 64.
(* /repo/src/roms/rom_secp256k1_32.rs *)
Definition cfg_secp256k1_32 : cfg := mkcfg 32 28 32.
Definition rom_secp256k1_32 : rom := mkrom cfg_secp256k1_32
  [0xffffc2f; 0xfffffef; 0xfffffff; 0xfffffff; 0xfffffff; 0xfffffff; 0xfffffff; 0xfffffff; 0xfffffff; 0xf]
  [0x0; 0xa100000; 0x2000e90; 0x7a; 0x1; 0x0; 0x0; 0x0; 0x0; 0x0]
  0x2253531 256 7 NotSpecial 14 Weierstrass 0 7
  [0x7; 0x0; 0x0; 0x0; 0x0; 0x0; 0x0; 0x0; 0x0; 0x0]
  [0x364141; 0xd25e8cd; 0x8a03bbf; 0xdce6af4; 0xffebaae; 0xfffffff; 0xfffffff; 0xfffffff; 0xfffffff; 0xf]
  [0x6f81798; 0xf2815b1; 0xe28d959; 0xfcdb2dc; 0xb07029b; 0x95ce870; 0xc55a062; 0xf9dcbba; 0x9be667e; 0x7]
  [0xb10d4b8; 0x47d08ff; 0x554199c; 0xb448a68; 0x8a8fd17; 0xfc0e110; 0x55da4fb; 0x26a3c46; 0x83ada77; 0x4]
  1
  [0x1; 0x0; 0x0; 0x0; 0x0; 0x0; 0x0; 0x0; 0x0; 0x0].
(* /repo/src/roms/rom_secp256k1_64.rs *)
Definition cfg_secp256k1_64 : cfg := mkcfg 64 56 32.
Definition rom_secp256k1_64 : rom := mkrom cfg_secp256k1_64
  [0xfffffefffffc2f; 0xffffffffffffff; 0xffffffffffffff; 0xffffffffffffff; 0xffffffff]
  [0xa1000000000000; 0x7a2000e90; 0x1; 0x0; 0x0]
  0x38091dd2253531 256 7 NotSpecial 24 Weierstrass 0 7
  [0x7; 0x0; 0x0; 0x0; 0x0]
  [0xd25e8cd0364141; 0xdce6af48a03bbf; 0xfffffffffebaae; 0xffffffffffffff; 0xffffffff]
  [0xf2815b16f81798; 0xfcdb2dce28d959; 0x95ce870b07029b; 0xf9dcbbac55a062; 0x79be667e]
  [0x47d08ffb10d4b8; 0xb448a68554199c; 0xfc0e1108a8fd17; 0x26a3c4655da4fb; 0x483ada77]
  1
  [0x1; 0x0; 0x0; 0x0; 0x0].
Definition all_cfgs : list cfg := [cfg_anssi_32; cfg_anssi_64; cfg_bls24_32; cfg_bls24_64; cfg_bls381_32; cfg_bls381_64; cfg_bls383_32; cfg_bls383_64; cfg_bls461_32; cfg_bls461_64; cfg_bls48_32; cfg_bls48_64; cfg_bn254_32; cfg_bn254_64; cfg_bn254cx_32; cfg_bn254cx_64; cfg_brainpool_32; cfg_brainpool_64; cfg_c25519_32; cfg_c25519_64; cfg_c41417_32; cfg_c41417_64; cfg_ed25519_32; cfg_ed25519_64; cfg_fp256bn_32; cfg_fp256bn_64; cfg_fp512bn_32; cfg_fp512bn_64; cfg_goldilocks_32; cfg_goldilocks_64; cfg_hifive_32; cfg_hifive_64; cfg_nist256_32; cfg_nist256_64; cfg_nist384_32; cfg_nist384_64; cfg_nist521_32; cfg_nist521_64; cfg_nums256e_32; cfg_nums256e_64; cfg_nums256w_32; cfg_nums256w_64; cfg_nums384e_32; cfg_nums384e_64; cfg_nums384w_32; cfg_nums384w_64; cfg_nums512e_32; cfg_nums512e_64; cfg_nums512w_32; cfg_nums512w_64; cfg_rsa2048_32; cfg_rsa2048_64; cfg_rsa3072_32; cfg_rsa3072_64; cfg_rsa4096_32; cfg_rsa4096_64; cfg_secp256k1_32; cfg_secp256k1_64].
Definition all_roms : list rom := [rom_anssi_32; rom_anssi_64; rom_bls24_32; rom_bls24_64; rom_bls381_32; rom_bls381_64; rom_bls383_32; rom_bls383_64; rom_bls461_32; rom_bls461_64; rom_bls48_32; rom_bls48_64; rom_bn254_32; rom_bn254_64; rom_bn254cx_32; rom_bn254cx_64; rom_brainpool_32; rom_brainpool_64; rom_c25519_32; rom_c25519_64; rom_c41417_32; rom_c41417_64; rom_ed25519_32; rom_ed25519_64; rom_fp256bn_32; rom_fp256bn_64; rom_fp512bn_32; rom_fp512bn_64; rom_goldilocks_32; rom_goldilocks_64; rom_hifive_32; rom_hifive_64; rom_nist256_32; rom_nist256_64; rom_nist384_32; rom_nist384_64; rom_nist521_32; rom_nist521_64; rom_nums256e_32; rom_nums256e_64; rom_nums256w_32; rom_nums256w_64; rom_nums384e_32; rom_nums384e_64; rom_nums384w_32; rom_nums384w_64; rom_nums512e_32; rom_nums512e_64; rom_nums512w_32; rom_nums512w_64; rom_secp256k1_32; rom_secp256k1_64].
