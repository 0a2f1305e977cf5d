(** Certificates for the field moduli and group orders of the ROMs (generated by /verif/tools/genprimes.py from factorisations of N-1). *)
From Verif Require Import Proof.NumTheory Proof.Pocklington.
From Coq Require Import ZArith Znumtheory List.
Import ListNotations.
Open Scope Z_scope.

Definition cert_ed25519_p : list cert := [(1919519569386763, 2, [(127, 1); (47, 2); (19, 1); (7, 1); (3, 1)]);
  (569003, 2, [(419, 1); (97, 1)]);
  (2773320623, 2, [(569003, 1)]);
  (72106336199, 2, [(2773320623, 1)]);
  (75445702479781427272750846543864801, 2, [(1919519569386763, 1); (72106336199, 1)]);
  (31757755568855353, 2, [(4153, 1); (223, 1); (107, 1); (31, 1)]);
  (74058212732561358302231226437062788676166966415465897661863160754340907, 2, [(75445702479781427272750846543864801, 1); (31757755568855353, 1)]);
  (57896044618658097711785492504343953926634992332820282019728792003956564819949, 2, [(74058212732561358302231226437062788676166966415465897661863160754340907, 1)])].
Definition ed25519_p : Z := 57896044618658097711785492504343953926634992332820282019728792003956564819949.
Theorem prime_ed25519_p : prime ed25519_p.
Proof. apply (chain_prime cert_ed25519_p); [vm_cast_no_check (eq_refl true)|]. cbn [map cert_ed25519_p fst In]. unfold ed25519_p. tauto. Qed.

Definition cert_secp256k1_p : list cert := [(255515944373312847190720520512484175977, 2, [(96557, 1); (41201, 1); (4423, 1); (2657, 1); (1627, 1)]);
  (205115282021455665897114700593932402728804164701536103180137503955397371, 2, [(255515944373312847190720520512484175977, 1)]);
  (115792089237316195423570985008687907853269984665640564039457584007908834671663, 2, [(205115282021455665897114700593932402728804164701536103180137503955397371, 1)])].
Definition secp256k1_p : Z := 115792089237316195423570985008687907853269984665640564039457584007908834671663.
Theorem prime_secp256k1_p : prime secp256k1_p.
Proof. apply (chain_prime cert_secp256k1_p); [vm_cast_no_check (eq_refl true)|]. cbn [map cert_secp256k1_p fst In]. unfold secp256k1_p. tauto. Qed.

Definition nist256_p : Z := 115792089210356248762697446949407573530086143415290314195533631308867097853951.

Definition cert_bls381_p : list cert := [(755057, 2, [(1151, 1)]);
  (3819663927398918131021, 6, [(755057, 1); (113, 1); (19, 1); (5, 1); (3, 2)]);
  (1125266252156850182658904441386709967, 2, [(3819663927398918131021, 1)]);
  (15778400344354997994418419698270088123916926905054652752758194827714659, 2, [(1125266252156850182658904441386709967, 1)]);
  (4002409555221667393417789825735904156556882819939007885332058136124031650490837864442687629129015664037894272559787, 2, [(15778400344354997994418419698270088123916926905054652752758194827714659, 1)])].
Definition bls381_p : Z := 4002409555221667393417789825735904156556882819939007885332058136124031650490837864442687629129015664037894272559787.
Theorem prime_bls381_p : prime bls381_p.
Proof. apply (chain_prime cert_bls381_p); [vm_cast_no_check (eq_refl true)|]. cbn [map cert_bls381_p fst In]. unfold bls381_p. tauto. Qed.

Definition nist256_n : Z := 115792089210356248762697446949407573529996955224135760342422259061068512044369.

Definition cert_secp256k1_n : list cert := [(545358713, 2, [(28181, 1)]);
  (305873, 2, [(2731, 1)]);
  (29047611873442575647497758179, 2, [(545358713, 1); (305873, 1); (293, 1)]);
  (341948486974166000522343609283189, 2, [(29047611873442575647497758179, 1)]);
  (174723607534414371449, 2, [(120233, 1); (4051, 1); (59, 1)]);
  (115792089237316195423570985008687907852837564279074904382605163141518161494337, 2, [(341948486974166000522343609283189, 1); (174723607534414371449, 1)])].
Definition secp256k1_n : Z := 115792089237316195423570985008687907852837564279074904382605163141518161494337.
Theorem prime_secp256k1_n : prime secp256k1_n.
Proof. apply (chain_prime cert_secp256k1_n); [vm_cast_no_check (eq_refl true)|]. cbn [map cert_secp256k1_n fst In]. unfold secp256k1_n. tauto. Qed.

