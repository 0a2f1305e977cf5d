(** RFC 8017: MGF1, EME-OAEP and EMSA-PKCS1-v1_5. *)
From Verif Require Import Base.Word Base.Arr Spec.Bytes Spec.Sha2Spec Spec.KdfSpec.

(** B.2.1 *)
Definition MGF1 (P : sha_par) (seed : list Z) (len : nat) : list Z :=
  firstn len (flat_map (fun c => SHA2 P (seed ++ i2osp (Z.of_nat c) 4)) (seq 0 (blocks_for (outlen P) len))).
(** 7.1.1 step 2, with G the mask generation applied to the seed; k = length of the modulus in bytes *)
Definition OAEP_DB (P : sha_par) (k : nat) (label m : list Z) : list Z :=
  SHA2 P label ++ repeat 0 (k - length m - 2 * outlen P - 2) ++ [1] ++ m.
Definition OAEP (G : list Z -> nat -> list Z) (P : sha_par) (k : nat) (label seed m : list Z) : list Z :=
  let maskedDB := xorl (OAEP_DB P k label m) (G seed (k - outlen P - 1)%nat) in
  let maskedSeed := xorl seed (MGF1 P maskedDB (outlen P)) in
  0 :: maskedSeed ++ maskedDB.
Definition RFC8017_OAEP (P : sha_par) := OAEP (MGF1 P) P.
(** the longest message: step 1b *)
Definition OAEP_capacity (P : sha_par) (k : nat) : nat := (k - 2 * outlen P - 2)%nat.
(** em is an encoding of m under this label, with some seed *)
Definition OAEP_encodes (G : list Z -> nat -> list Z) (P : sha_par) (k : nat) (label em m : list Z) : Prop :=
  (length m <= OAEP_capacity P k)%nat /\ exists seed, bytes seed /\ length seed = outlen P /\ em = OAEP G P k label seed m.

(** 9.2: DER of DigestInfo for SHA-256, SHA-384, SHA-512: SEQUENCE { SEQUENCE { OID 2.16.840.1.101.3.4.2.x, NULL }, OCTET STRING digest } *)
Definition DER_prefix (oid_last hlen : Z) : list Z :=
  [0x30; 17 + hlen; 0x30; 13; 0x06; 9; 2 * 40 + 16; 0x80 + 840 / 128; 840 mod 128; 1; 101; 3; 4; 2; oid_last; 0x05; 0; 0x04; hlen].
Definition digest_info (P : sha_par) (oid_last : Z) (m : list Z) : list Z := DER_prefix oid_last (Z.of_nat (outlen P)) ++ SHA2 P m.
Definition EMSA_PKCS1 (P : sha_par) (oid_last : Z) (k : nat) (m : list Z) : list Z :=
  let T := digest_info P oid_last m in [0; 1] ++ repeat 0xff (k - length T - 3) ++ [0] ++ T.
