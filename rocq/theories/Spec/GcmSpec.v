(** Galois/Counter Mode, NIST SP 800-38D, stated independently of the code.  A 128-bit block is a list of 16 bytes;
    bit 0 of a block is the most significant bit of its first byte, so a block is also the integer [os2ip] of its bytes
    and its bit x_i is bit 127-i of that integer. *)
From Verif Require Import Base.Word Base.Arr Spec.Bytes Spec.AesSpec.

(** section 6.3, algorithm 1: X . Y *)
Definition gcm_R : Z := 225 * 2 ^ 120.                       (* 11100001 || 0^120 *)
Definition gf_half (V : Z) : Z := if Z.odd V then Z.lxor (V / 2) gcm_R else V / 2.
Fixpoint gf_steps (n : nat) (X : Z) (i : Z) (Zi Vi : Z) : Z :=
  match n with O => Zi | S m => gf_steps m X (i + 1) (if Z.testbit X (127 - i) then Z.lxor Zi Vi else Zi) (gf_half Vi) end.
Definition gf_mul (X Y : Z) : Z := gf_steps 128 X 0 0 Y.

(** section 6.4: GHASH on a list of blocks *)
Definition ghash_spec (H : list Z) (blocks : list (list Z)) : list Z :=
  fold_left (fun y x => i2osp (gf_mul (os2ip (xorl y x)) (os2ip H)) 16) blocks (repeat 0 16).
(** cut into 16-byte pieces (the last one may be short) *)
Fixpoint chunks_fuel (f n : nat) (l : list Z) : list (list Z) :=
  match f with O => [] | S f' => match l with [] => [] | _ => firstn n l :: chunks_fuel f' n (skipn n l) end end.
Definition chunks (n : nat) (l : list Z) : list (list Z) := chunks_fuel (length l) n l.
Definition pad_block (l : list Z) : list Z := l ++ repeat 0 (16 - length l).
(** the blocks of l || 0^v *)
Definition padded_blocks (l : list Z) : list (list Z) := map pad_block (chunks 16 l).
Definition len64 (l : list Z) : list Z := i2osp (8 * Z.of_nat (length l)) 8.     (* [len(l)]_64 in bits *)

(** section 6.2 and 6.5 *)
Definition inc32 (cb : list Z) : list Z := firstn 12 cb ++ i2osp (os2ip (skipn 12 cb) + 1) 4.
Section GCM.
Variable E : list Z -> list Z.                                (* the block cipher with the key *)
Fixpoint gctr_blocks (cb : list Z) (xs : list (list Z)) : list Z :=
  match xs with [] => [] | x :: t => xorl x (E cb) ++ gctr_blocks (inc32 cb) t end.
Definition gctr (icb x : list Z) : list Z := gctr_blocks icb (chunks 16 x).
(** section 7.1 *)
Definition gcm_H : list Z := E (repeat 0 16).
Definition gcm_J0 (iv : list Z) : list Z :=
  if Nat.eqb (length iv) 12 then iv ++ [0; 0; 0; 1]
  else ghash_spec gcm_H (padded_blocks iv ++ [repeat 0 8 ++ len64 iv]).
Definition gcm_S (aad c : list Z) : list Z :=
  ghash_spec gcm_H (padded_blocks aad ++ padded_blocks c ++ [len64 aad ++ len64 c]).
Definition gcm_tag (iv aad c : list Z) : list Z := gctr (gcm_J0 iv) (gcm_S aad c).
(** GCM-AE: ciphertext and 128-bit tag *)
Definition gcm_ae (iv p aad : list Z) : list Z * list Z :=
  let c := gctr (inc32 (gcm_J0 iv)) p in (c, gcm_tag iv aad c).
(** GCM-AD: plaintext and the tag to compare with *)
Definition gcm_ad (iv c aad : list Z) : list Z * list Z := (gctr (inc32 (gcm_J0 iv)) c, gcm_tag iv aad c).
End GCM.

(** test case 2 of the original GCM submission: zero key, zero IV, one zero block *)
Example gcm_case2 : gcm_ae (aes_enc (repeat 0 16)) (repeat 0 12) (repeat 0 16) []
  = ([0x03; 0x88; 0xda; 0xce; 0x60; 0xb6; 0xa3; 0x92; 0xf3; 0x28; 0xc2; 0xb9; 0x71; 0xb2; 0xfe; 0x78],
     [0xab; 0x6e; 0x47; 0xd4; 0x2c; 0xec; 0x13; 0xbd; 0xf5; 0x3a; 0x67; 0xb2; 0x12; 0x57; 0xbd; 0xdf]).
Proof. vm_compute. reflexivity. Qed.
