(** draft-irtf-cfrg-hash-to-curve-07, sections 5.2 (hash_to_field) and 5.3.1 (expand_message_xmd), written from the draft. *)
From Verif Require Import Base.Word Base.Arr Spec.Bytes Spec.Sha2Spec.
From Coq Require Import Ascii.
From Coq Require String.
Import String.StringSyntax.

(** ASCII text as bytes *)
Definition text (s : String.string) : list Z := map (fun a => Z.of_N (N_of_ascii a)) (String.list_ascii_of_string s).
Arguments text s%string_scope.
Definition strxor (a b : list Z) : list Z := map (fun p => Z.lxor (fst p) (snd p)) (combine a b).

Section Xmd.
Variable H : list Z -> list Z.       (* the hash *)
Variable b_in_bytes s_in_bytes : nat. (* its output and input block sizes *)

(** 5.3.3: long tags are hashed; then the length byte is appended *)
Definition DST_prime (dst : list Z) : list Z :=
  let d := if (length dst <=? 255)%nat then dst else H (text "H2C-OVERSIZE-DST-" ++ dst) in
  d ++ i2osp (Z.of_nat (length d)) 1.
Definition xmd_b0 (msg : list Z) (len : nat) (dst : list Z) : list Z :=
  H (repeat 0 s_in_bytes ++ msg ++ i2osp (Z.of_nat len) 2 ++ i2osp 0 1 ++ DST_prime dst).
(** b_(i+1) *)
Fixpoint xmd_b (b0 dp : list Z) (i : nat) : list Z :=
  match i with
  | O => H (b0 ++ i2osp 1 1 ++ dp)
  | S k => H (strxor b0 (xmd_b b0 dp k) ++ i2osp (Z.of_nat (S i)) 1 ++ dp)
  end.
(** ceil(len / b_in_bytes) *)
Definition ell (len : nat) : nat := Nat.div (len + b_in_bytes - 1) b_in_bytes.
Definition uniform_bytes (msg : list Z) (len : nat) (dst : list Z) : list Z :=
  firstn len (concat (map (xmd_b (xmd_b0 msg len dst) (DST_prime dst)) (seq 0 (ell len)))).
(** abort when ell > 255 *)
Definition XMD (msg : list Z) (len : nat) (dst : list Z) : option (list Z) :=
  if (ell len <=? 255)%nat then Some (uniform_bytes msg len dst) else None.

(** 5.2: coordinate j of element i is OS2IP of the L bytes at L * (j + i * m), reduced mod p *)
Definition coordinate (p : Z) (L m : nat) (u : list Z) (i j : nat) : Z := os2ip (firstn L (skipn (L * (j + i * m)) u)) mod p.
Definition HTF (p : Z) (L m : nat) (msg : list Z) (count : nat) (dst : list Z) : option (list (list Z)) :=
  match XMD msg (count * m * L) dst with
  | None => None
  | Some u => Some (map (fun i => map (coordinate p L m u i) (seq 0 m)) (seq 0 count))
  end.
End Xmd.

(** XMD over a SHA-2 function *)
Definition XMD_SHA2 (P : sha_par) : list Z -> nat -> list Z -> option (list Z) := XMD (SHA2 P) (outlen P) (Sha2Spec.B P).
Definition HTF_SHA2 (P : sha_par) := HTF (SHA2 P) (outlen P) (Sha2Spec.B P).

(** messages a build can hash: any length in release builds; a debug build panics when the W-bit length counter overflows *)
Definition hash_room (bd : build) (P : sha_par) (n : Z) : Prop := bd = Release \/ 8 * (n + 4 * W P) < 2 ^ W P.

(** RFC 9380 K.1, first vector *)
Example xmd_vector : XMD_SHA2 SHA256 (text "") 32 (text "QUUX-V01-CS02-with-expander-SHA256-128") = Some (i2osp 0x68a985b87eb6b46952128911f2a4412bbc302a9d759667f87f7a21d803f07235 32).
Proof. vm_compute. reflexivity. Qed.
