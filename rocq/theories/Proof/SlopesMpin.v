(** A concrete M-Pin identity on bn254, and the slopes of the double-and-add computation of its 1234-fold: generated, checked by climb in MpinInst.v. *)
From Coq Require Import ZArith List. Import ListNotations. Open Scope Z_scope.
(** the identity: ivan.  The residue of its SHA-256 digest is no abscissa of a curve point, the next integer is. *)
Definition mp_id : list Z := [105; 118; 97; 110].
Definition mp_x : Z := 0x135a9dc7bc376fbc2054dc887b366f46f2defc901524da8fae22fbd319384f0c.
Definition mp_y : Z := 0x19d4c1b91534da29cc4fce0550ebd9f16dde2f6dc896795deb0f8d6a2d51e5d8.
Definition mp_fx : Z := 0x152c5027707e427e8604c2d8cc98a65a1ca481268718116eb6c23b7a9f13244b.
Definition mp_fy : Z := 0x1399f85d0beb561a1aa6e34abcbe1664e547d4b6bd9e14a91fd6d836a5c20ab7.
Definition mp_sx : Z := 0x21b4170a5de4ce2e9b703788ded5f78147e7ee68b7253df0e4eb1e36ad3bf25e.
Definition mp_sy : Z := 0x154bd35813078b6311e69a364979e6109dab4ad2d1d86217c16b239e41bdb758.
Definition mp_s : Z := 0x52150c1148cde8f428b908c05ed56d8ceba5b0d0ab3f770f26ad808e1695e4a.
Definition mp_1234 : list (bool * Z) := [(false, 0x776d38a855a8c5e5c1fd8017f16f116b6d8a5fbd42b63d42d6bafa06e297ea7);
  (false, 0x2262bb8ae2946c7cdd722d95fb5427f2768255ee670d4470decf176bab1032be);
  (false, 0x1183ef32529b29aae8e206104becb94f38361c9c2f65cd97b3fe27e90a785138);
  (true, 0x5e18039ac7622de913fb9f7b6e1fd2862c5d5865812d23e39e48a7e61e98d49);
  (false, 0xae5f0c90807737c9308e961d76d23d9859da67c5eba69cd21c21df897fc2003);
  (true, 0x10b0b6689f9879089ade3a5d5b0e148cd0bf9a099c49883e339065b9c728dba);
  (false, 0x18299783b58453774aa0257312d5fedd7c36b4692cbcaf5641869cfe22d5a214);
  (false, 0x66b10c62ea3cfbe6975c71782d3bcbde81e1224f5538b14549646daf53f3793);
  (true, 0x68ace017fdaa854f1274d02ab035d8ae0a143900a994bc1e8659ef6107a81b3);
  (false, 0xe50c2ec6cd6d7478cc26583af9c2f72b137a8a676d02ad3b861e3f671744575);
  (false, 0x1a550afe3efb82be20ecc5815964a62888d4e4f4f99eb75b04af3704283addf3);
  (false, 0x10c58a9b8a5b08fdd1dc5fc201dfc378f02d5ada86af1dfa65368b8f549d1cbf);
  (true, 0xd13263baf9d3f3b8e76d0386b40b81a9cab72f588e70e9042208cab9efe496);
  (false, 0x37afcc24439cdd299a7df92f8b78934e3cafc9fb08b7ca42c0534e622fc9d06)].
Definition cert_bn254_p := [(5994341377, 2, [(4657, 1); (419, 1)]);
  (2749283, 2, [(1013, 1); (59, 1)]);
  (65982793, 2, [(2749283, 1)]);
  (15698303, 2, [(29179, 1)]);
  (1033337, 2, [(3491, 1)]);
  (16798108731015832284940804142231733909889187121439069848933715426072753864723, 2, [(5994341377, 1); (65982793, 1); (15698303, 1); (1033337, 1); (71693, 1); (641, 1)])].
Definition bn254_p : Z := 16798108731015832284940804142231733909889187121439069848933715426072753864723.
