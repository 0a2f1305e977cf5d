(** The simplified SWU map of RFC 9380 section 6.6.2 over the quadratic extension F_p(i), i^2 = -1, p = 3 mod 4
    (elements are pairs of integers, equality is [eq2 p]). *)
From Verif Require Import Spec.TowerSpec Spec.SswuSpec.
From Coq Require Import ZArith.
Open Scope Z_scope.

Section S.
Variable p : Z.
Definition is_sq (a : Z) : Prop := exists s, (s * s) mod p = a mod p.
Definition square2 (v : Z2) : Prop := exists w, eq2 p (mul2 w w) v.
(** an element of the prime field that has no root in the prime field.  It is a square of F_p(i) all the same. *)
Definition real_nonres (v : Z2) : Prop := snd v mod p = 0 /\ ~ is_sq (fst v).
Definition zero2b (v : Z2) : bool := ((fst v mod p =? 0) && (snd v mod p =? 0))%bool.
(** inverse, 0 for 0: the conjugate over the norm *)
Definition inv0_2 (a : Z2) : Z2 := scale2 (norm2 a ^ (p - 2)) (conj2 a).
(** RFC 9380 section 4.1, m = 2: parity of the first coordinate that is not zero *)
Definition sgn0_2 (v : Z2) : Z := if fst v mod p =? 0 then sgn0 p (snd v) else sgn0 p (fst v).

Variables A B Zc : Z2.
Definition gx2 (x : Z2) : Z2 := add2 (add2 (mul2 (mul2 x x) x) (mul2 A x)) B.
Definition zu2 (u : Z2) : Z2 := mul2 Zc (mul2 u u).
Definition sswu2_x1 (u : Z2) : Z2 :=
  let tv1 := inv0_2 (add2 (mul2 (zu2 u) (zu2 u)) (zu2 u)) in
  if zero2b tv1 then mul2 B (inv0_2 (mul2 Zc A)) else mul2 (mul2 (neg2 B) (inv0_2 A)) (add2 one2 tv1).
Definition sswu2_x2 (u : Z2) : Z2 := mul2 (zu2 u) (sswu2_x1 u).
(** (x, y) is the point the RFC assigns to u *)
Definition sswu2 (u x y : Z2) : Prop :=
  (square2 (gx2 (sswu2_x1 u)) /\ eq2 p x (sswu2_x1 u) \/ ~ square2 (gx2 (sswu2_x1 u)) /\ eq2 p x (sswu2_x2 u))
  /\ eq2 p (mul2 y y) (gx2 x) /\ (eq2 p y zero2 \/ sgn0_2 y = sgn0_2 u).
(** the value whose root the RFC takes is a real non-residue *)
Definition sswu2_bad (u : Z2) : Prop :=
  square2 (gx2 (sswu2_x1 u)) /\ real_nonres (gx2 (sswu2_x1 u)) \/ ~ square2 (gx2 (sswu2_x1 u)) /\ real_nonres (gx2 (sswu2_x2 u)).
End S.
(** the curve E2' 3-isogenous to the twist of BLS12-381, RFC 9380 section 8.8.2 *)
Definition E3_A : Z2 := (0, 240).
Definition E3_B : Z2 := (1012, 1012).
Definition E3_Z : Z2 := (-2, -1).
