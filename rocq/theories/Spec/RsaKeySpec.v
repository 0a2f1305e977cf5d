(** What a well-formed RSA key pair is, as integers (PKCS#1 with two primes). *)
From Verif Require Export Spec.FfSpec Spec.Bytes.
From Coq Require Export Znumtheory.
Open Scope Z_scope.

(** The five private components and the public modulus are fully reduced FFs (n and 2n Bigs),
    p and q are odd primes, N = p.q, dp and dq invert e modulo p-1 and q-1, c inverts p modulo q. *)
Record rsa_keypair (c : cfg) (n : nat) (pb : rsa_pub) (pv : rsa_priv) : Prop := {
  kp_n : ff_wf c (2 * n) (k_n pb);
  kp_p : ff_wf c n (k_p pv); kp_q : ff_wf c n (k_q pv);
  kp_dp : ff_wf c n (k_dp pv); kp_dq : ff_wf c n (k_dq pv); kp_c : ff_wf c n (k_c pv);
  kp_e : 1 <= k_e pb < 2 ^ CHUNK c;
  kp_prime_p : prime (fval c (k_p pv)); kp_prime_q : prime (fval c (k_q pv));
  kp_odd_p : Z.odd (fval c (k_p pv)) = true; kp_odd_q : Z.odd (fval c (k_q pv)) = true;
  kp_pq : fval c (k_n pb) = fval c (k_p pv) * fval c (k_q pv);
  kp_edp : (k_e pb * fval c (k_dp pv)) mod (fval c (k_p pv) - 1) = 1;
  kp_edq : (k_e pb * fval c (k_dq pv)) mod (fval c (k_q pv) - 1) = 1;
  kp_crt : (fval c (k_c pv) * fval c (k_p pv)) mod fval c (k_q pv) = 1 }.

(** number of bytes of a message or ciphertext: 2n Bigs *)
Definition rsa_bytes (c : cfg) (n : nat) : nat := (2 * n * Z.to_nat (MODBYTES c))%nat.

(** Room for the lazy reductions of the private exponentiation: the factor fits one Big, or the limbs have
    enough spare bits for one unreduced addition per exponent bit, or the factor stays a hair (one part in
    2^(spare-1)+1) below the largest number n Bigs can hold. *)
Definition spare_half (c : cfg) : Z := 2 ^ (BASEBITS c * Z.of_nat (NLEN c) - 8 * MODBYTES c - 1).
Definition factor_room (c : cfg) (n : nat) (p : Z) : Prop :=
  n = 1%nat \/ 8 * (spare_half c + 8 * MODBYTES c * Z.of_nat n + 3) <= 10 * spare_half c
  \/ p * (spare_half c + 1) <= spare_half c * bigR c ^ Z.of_nat n.
