(** The Legendre and Jacobi symbols, by definition. *)
From Coq Require Import ZArith List Znumtheory.
Import ListNotations.
Open Scope Z_scope.

Definition product (l : list Z) : Z := fold_right Z.mul 1 l.
(** [s] is the Legendre symbol of [a] modulo the prime [p] *)
Definition is_legendre (p a s : Z) : Prop :=
  (a mod p = 0 /\ s = 0)
  \/ (a mod p <> 0 /\ (exists x, (x * x) mod p = a mod p) /\ s = 1)
  \/ (a mod p <> 0 /\ ~ (exists x, (x * x) mod p = a mod p) /\ s = -1).
(** [s] is the Jacobi symbol of [a] over the product of the odd primes listed *)
Inductive is_jacobi (a : Z) : list Z -> Z -> Prop :=
| jacobi_one : is_jacobi a [] 1
| jacobi_prime p ps s s' : prime p -> Z.odd p = true -> is_legendre p a s -> is_jacobi a ps s' -> is_jacobi a (p :: ps) (s * s').
