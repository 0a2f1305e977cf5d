(** FIPS 202 (SHA-3, SHAKE), stated independently of the code.  A lane is an integer 0..2^64-1 (bit z of lane (x,y) is A[x,y,z]); a state
    is the list of its 25 lanes, lane (x,y) at position 5y+x (section 3.1.2); the 64 bits of a lane are 8 bytes, least
    significant first (appendix B.1). *)
From Verif Require Import Base.Word Base.Arr Spec.Bytes.

Definition lane (A : list Z) (x y : nat) : Z := nth (5 * y + x) A 0.
Definition build_state (f : nat -> nat -> Z) : list Z := map (fun p => f (p mod 5)%nat (p / 5)%nat) (seq 0 25).
Definition ROTL (n x : Z) : Z := (x * 2 ^ n) mod 2 ^ 64 + x / 2 ^ (64 - n).
Definition xor5 (a b c d e : Z) : Z := Z.lxor (Z.lxor (Z.lxor (Z.lxor a b) c) d) e.

(** 3.2.1 *)
Definition col (A : list Z) (x : nat) : Z := xor5 (lane A x 0) (lane A x 1) (lane A x 2) (lane A x 3) (lane A x 4).
Definition theta (A : list Z) : list Z :=
  build_state (fun x y => Z.lxor (lane A x y) (Z.lxor (col A ((x + 4) mod 5)) (ROTL 1 (col A ((x + 1) mod 5))))).
(** 3.2.2: walk (x,y) -> (y, 2x+3y) from (1,0), rotating by (t+1)(t+2)/2 *)
Fixpoint rho_walk (n : nat) (t : Z) (x y : nat) (offs : list Z) : list Z :=
  match n with O => offs | S m => rho_walk m (t + 1) y ((2 * x + 3 * y) mod 5)%nat (aset offs (5 * y + x) (((t + 1) * (t + 2) / 2) mod 64)) end.
Definition rho_offsets : list Z := rho_walk 24 0 1 0 (repeat 0 25).
Definition rho (A : list Z) : list Z := build_state (fun x y => ROTL (lane rho_offsets x y) (lane A x y)).
(** 3.2.3 *)
Definition pi (A : list Z) : list Z := build_state (fun x y => lane A ((x + 3 * y) mod 5) x).
(** 3.2.4 *)
Definition chi (A : list Z) : list Z :=
  build_state (fun x y => Z.lxor (lane A x y) (Z.land (2 ^ 64 - 1 - lane A ((x + 1) mod 5) y) (lane A ((x + 2) mod 5) y))).
(** 3.2.5: algorithm 5; R is a list of 8 bits *)
Definition rc_step (R : list bool) : list bool :=
  match R with
  | [r0; r1; r2; r3; r4; r5; r6; r7] => [r7; r0; r1; r2; xorb r3 r7; xorb r4 r7; xorb r5 r7; r6]
  | _ => R
  end.
Definition rc (t : nat) : bool := hd false (Nat.iter (t mod 255) rc_step [true; false; false; false; false; false; false; false]).
Definition round_constant (ir : nat) : Z :=
  fold_left (fun a j => a + Z.b2z (rc (j + 7 * ir)) * 2 ^ (2 ^ Z.of_nat j - 1)) (seq 0 7) 0.
Definition iota (ir : nat) (A : list Z) : list Z := aset A 0 (Z.lxor (lane A 0 0) (round_constant ir)).
(** 3.3, 3.4 *)
Definition keccak_f (A : list Z) : list Z := fold_left (fun A ir => iota ir (chi (pi (rho (theta A))))) (seq 0 24) A.

(** bytes to lanes (little-endian) and back; a state is 200 bytes *)
Definition le (l : list Z) : Z := fold_right (fun b a => b + 256 * a) 0 l.
Definition lanes_of (P : list Z) : list Z := map (fun k => le (firstn 8 (skipn (8 * k) P))) (seq 0 25).
Definition state_byte (A : list Z) (p : nat) : Z := nth (p / 8) A 0 / 2 ^ (8 * Z.of_nat (p mod 8)) mod 256.

(** section 4: the sponge with byte rate r; [d] holds the domain bits and the first padding bit (table 6 / appendix B.2) *)
Definition pad_sha3 (d : Z) (r : nat) (m : list Z) : list Z :=
  let q := (r - length m mod r)%nat in
  m ++ (if (q =? 1)%nat then [d + 128] else d :: repeat 0 (q - 2) ++ [128]).
Definition absorb_block (r : nat) (A : list Z) (blk : list Z) : list Z :=
  keccak_f (xorl A (lanes_of (blk ++ repeat 0 (200 - r)))).
Fixpoint cut3 (f n : nat) (l : list Z) : list (list Z) :=
  match f with O => [] | S f' => match l with [] => [] | _ => firstn n l :: cut3 f' n (skipn n l) end end.
Fixpoint squeeze_out (f r n : nat) (A : list Z) : list Z :=
  match f with O => [] | S f' => map (state_byte A) (seq 0 (Nat.min r n)) ++ (if (n <=? r)%nat then [] else squeeze_out f' r (n - r) (keccak_f A)) end.
Definition SPONGE (d : Z) (r : nat) (m : list Z) (n : nat) : list Z :=
  squeeze_out (S n) r n (fold_left (absorb_block r) (let p := pad_sha3 d r m in cut3 (length p) r p) (repeat 0 25)).
(** section 6: capacity twice the digest length; suffix 01 for hashes, 1111 for the extendable-output functions *)
Definition SHA3 (out : nat) (m : list Z) : list Z := SPONGE 0x06 (200 - 2 * out) m out.
Definition SHAKE (sec : nat) (m : list Z) (n : nat) : list Z := SPONGE 0x1f (200 - 2 * sec) m n.   (* sec = 16: SHAKE128, 32: SHAKE256 *)

Example sha3_256_abc : SHA3 32 [97; 98; 99] = i2osp 0x3a985da74fe225b2045c172d6bd390bd855f086e3e9d525b46bfe24511431532 32.
Proof. vm_compute. reflexivity. Qed.
Example shake128_empty : SHAKE 16 [] 16 = i2osp 0x7f9c2ba4e88f827d616045507605853e 16.
Proof. vm_compute. reflexivity. Qed.
