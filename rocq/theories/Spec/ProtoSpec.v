(** Vocabulary for random integers and the elliptic curve protocols. *)
From Coq Require Import ZArith List.
Import ListNotations.
Open Scope Z_scope.

(** the bits of a byte, least significant first, and the integer with the given bits, first bit most significant *)
Definition lsb_bits (x : Z) : list Z := map (fun i => (x / 2 ^ Z.of_nat i) mod 2) (seq 0 8).
Definition bits_value (l : list Z) : Z := fold_left (fun a b => 2 * a + b) l 0.
(** the integer made of the first n bits of a byte string *)
Definition bit_int (n : nat) (bs : list Z) : Z := bits_value (firstn n (concat (map lsb_bits bs))).
(** bytes needed for n bits *)
Definition bytes_for (n : nat) : nat := ((n + 7) / 8)%nat.

(** ECDSA over the curve y^2 = x^3 + a x + b modulo p with base point G of order n: e is the integer of the message digest.
    (c, d) is a signature made with the private key s and some nonce k: c = x(kG) mod n, d = (e + s c)/k mod n, both nonzero *)
From Verif Require Import Spec.CurveSpec Spec.EcpSpec.
Definition ecdsa_signature (p a n : Z) (G : point) (e s c d : Z) : Prop :=
  0 < c < n /\ 0 < d < n /\ exists k x y, 0 < k < n /\ w_times p a G (Z.to_nat k) (Aff x y) /\ c = x mod n /\ (d * k) mod n = (e + s * c) mod n.
(** (c, d) is accepted for the public key W: c and d in [1, n-1], and with d i = 1 the point (e i) G + (c i) W is not infinity and has x mod n = c *)
Definition ecdsa_valid (p a n : Z) (G W : point) (e c d : Z) : Prop :=
  0 < c < n /\ 0 < d < n /\ exists i A B x y, 0 <= i < n /\ (d * i) mod n = 1 /\
    w_times p a W (Z.to_nat ((c * i) mod n)) A /\ w_times p a G (Z.to_nat ((e * i) mod n)) B /\ w_sum p a A B (Aff x y) /\ x mod n = c.

(** ECIES (IEEE 1363a, DHAES mode): keys K1 || K2 = KDF2(V || Z, p1), ciphertext AES-CBC(K1, padded m), tag HMAC(K2, C || p2 || 8-byte length of p2) *)
From Verif Require Import Spec.Bytes Spec.Sha2Spec Spec.KdfSpec.
Definition ecies_k1 (Q : sha_par) (aesk : nat) (v z p1 : list Z) : list Z := firstn aesk (KDF2 Q (v ++ z) p1 (2 * aesk)).
Definition ecies_k2 (Q : sha_par) (aesk : nat) (v z p1 : list Z) : list Z := skipn aesk (KDF2 Q (v ++ z) p1 (2 * aesk)).
Definition ecies_tag (Q : sha_par) (k2 c p2 : list Z) : list Z := HMAC Q k2 (c ++ p2 ++ i2osp (Z.of_nat (length p2)) 8).
