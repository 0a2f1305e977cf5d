(** Key derivation, password derivation and padded CBC, from the standards. *)
From Verif Require Import Base.Word Base.Arr Spec.Bytes Spec.Sha2Spec Spec.AesSpec Spec.GcmSpec.

(** hash type argument of the API (digest length) and the function it selects *)
Definition sha_types : list (nat * sha_par) := [(32%nat, SHA256); (48%nat, SHA384); (64%nat, SHA512)].

(** number of hLen-byte blocks that cover olen bytes *)
Definition blocks_for (hlen olen : nat) : nat := ((olen + hlen - 1) / hlen)%nat.
(** IEEE 1363 / ISO 18033-2 KDF2: Hash(z||1||p) || Hash(z||2||p) || ..., truncated to olen bytes; counters are 4 bytes, big-endian *)
Definition KDF2 (P : sha_par) (z p : list Z) (olen : nat) : list Z :=
  firstn olen (flat_map (fun i => SHA2 P (z ++ i2osp (Z.of_nat i) 4 ++ p)) (seq 1 (blocks_for (outlen P) olen))).
(** ISO 18033-2 KDF1: the same with counters from 0 and no shared info *)
Definition KDF1 (P : sha_par) (z : list Z) (olen : nat) : list Z :=
  firstn olen (flat_map (fun i => SHA2 P (z ++ i2osp (Z.of_nat i) 4)) (seq 0 (blocks_for (outlen P) olen))).
(** RFC 8018, section 5.2, with a pseudorandom function applied to the previous output *)
Fixpoint pb_U (prf : list Z -> list Z) (s : list Z) (j : nat) : list Z := match j with O => prf s | S m => prf (pb_U prf s m) end.
Fixpoint pb_xor (prf : list Z -> list Z) (s : list Z) (c : nat) : list Z := match c with O => pb_U prf s 0 | S m => xorl (pb_xor prf s m) (pb_U prf s c) end.
(** block i (from 1) with c iterations *)
Definition pb_F (P : sha_par) (pass salt : list Z) (c i : nat) : list Z := pb_xor (HMAC P pass) (salt ++ i2osp (Z.of_nat i) 4) (c - 1).
Definition PBKDF2 (P : sha_par) (pass salt : list Z) (c dklen : nat) : list Z :=
  firstn dklen (flat_map (pb_F P pass salt c) (seq 1 (blocks_for (outlen P) dklen))).
(** RFC 5652, section 6.3, for 16-byte blocks *)
Definition pkcs7 (m : list Z) : list Z := let n := (16 - length m mod 16)%nat in m ++ repeat (Z.of_nat n) n.
Definition padded_form (m padded : list Z) : Prop := exists n, (1 <= n <= 16)%nat /\ padded = m ++ repeat (Z.of_nat n) n.
(** CBC with zero initialisation vector *)
Definition CBC0_enc (key m : list Z) : list Z := concat (cbc_enc (aes_enc key) (repeat 0 16) (chunks 16 m)).
Definition CBC0_dec (key c : list Z) : list Z := concat (cbc_dec (aes_dec key) (repeat 0 16) (chunks 16 c)).

(** RFC 7914 section 11, PBKDF2-HMAC-SHA-256 (P="passwd", S="salt", c=1), first 8 bytes *)
Example pbkdf2_vector : PBKDF2 SHA256 [112;97;115;115;119;100] [115;97;108;116] 1 8 = [0x55;0xac;0x04;0x6e;0x56;0xe3;0x08;0x9f].
Proof. vm_compute. reflexivity. Qed.
