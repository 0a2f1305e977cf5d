(** The extension fields as quotient rings, over the integers; an object of the library denotes a class modulo p of such an element.
    level 2: Z[i],  i^2 = -1;  level 4: level2[w], w^2 = 1 + i;  level 12: level4[z], z^3 = w. *)
From Coq Require Import ZArith.
Open Scope Z_scope.

Definition Z2 : Type := Z * Z.                        (* (a, b) = a + b i *)
Definition add2 (x y : Z2) : Z2 := (fst x + fst y, snd x + snd y).
Definition neg2 (x : Z2) : Z2 := (- fst x, - snd x).
Definition sub2 (x y : Z2) : Z2 := (fst x - fst y, snd x - snd y).
Definition mul2 (x y : Z2) : Z2 := (fst x * fst y - snd x * snd y, fst x * snd y + snd x * fst y).
Definition conj2 (x : Z2) : Z2 := (fst x, - snd x).
Definition scale2 (k : Z) (x : Z2) : Z2 := (k * fst x, k * snd x).
Definition i2 : Z2 := (0, 1).
Definition xi : Z2 := (1, 1).                          (* 1 + i *)
Definition zero2 : Z2 := (0, 0).
Definition one2 : Z2 := (1, 0).
Definition norm2 (x : Z2) : Z := fst x * fst x + snd x * snd x.   (* x * conj x *)
Definition eq2 (p : Z) (x y : Z2) : Prop := fst x mod p = fst y mod p /\ snd x mod p = snd y mod p.

Definition Z4 : Type := Z2 * Z2.                      (* (a, b) = a + b w *)
Definition add4 (x y : Z4) : Z4 := (add2 (fst x) (fst y), add2 (snd x) (snd y)).
Definition neg4 (x : Z4) : Z4 := (neg2 (fst x), neg2 (snd x)).
Definition sub4 (x y : Z4) : Z4 := (sub2 (fst x) (fst y), sub2 (snd x) (snd y)).
Definition mul4 (x y : Z4) : Z4 :=
  (add2 (mul2 (fst x) (fst y)) (mul2 xi (mul2 (snd x) (snd y))), add2 (mul2 (fst x) (snd y)) (mul2 (snd x) (fst y))).
Definition conj4 (x : Z4) : Z4 := (fst x, neg2 (snd x)).
Definition w4 : Z4 := (zero2, one2).
Definition zero4 : Z4 := (zero2, zero2).
Definition one4 : Z4 := (one2, zero2).
Definition of2 (x : Z2) : Z4 := (x, zero2).
Definition norm4 (x : Z4) : Z2 := sub2 (mul2 (fst x) (fst x)) (mul2 xi (mul2 (snd x) (snd x))).   (* x * conj4 x *)
Definition eq4 (p : Z) (x y : Z4) : Prop := eq2 p (fst x) (fst y) /\ eq2 p (snd x) (snd y).

Definition Z12 : Type := Z4 * Z4 * Z4.                (* (a, b, c) = a + b z + c z^2 *)
Definition c0 (x : Z12) : Z4 := fst (fst x).
Definition c1 (x : Z12) : Z4 := snd (fst x).
Definition c2 (x : Z12) : Z4 := snd x.
Definition add12 (x y : Z12) : Z12 := (add4 (c0 x) (c0 y), add4 (c1 x) (c1 y), add4 (c2 x) (c2 y)).
Definition neg12 (x : Z12) : Z12 := (neg4 (c0 x), neg4 (c1 x), neg4 (c2 x)).
Definition mul12 (x y : Z12) : Z12 :=
  (add4 (mul4 (c0 x) (c0 y)) (mul4 w4 (add4 (mul4 (c1 x) (c2 y)) (mul4 (c2 x) (c1 y)))),
   add4 (add4 (mul4 (c0 x) (c1 y)) (mul4 (c1 x) (c0 y))) (mul4 w4 (mul4 (c2 x) (c2 y))),
   add4 (mul4 (c0 x) (c2 y)) (add4 (mul4 (c1 x) (c1 y)) (mul4 (c2 x) (c0 y)))).
Definition zero12 : Z12 := (zero4, zero4, zero4).
Definition one12 : Z12 := (one4, zero4, zero4).
Definition eq12 (p : Z) (x y : Z12) : Prop := eq4 p (c0 x) (c0 y) /\ eq4 p (c1 x) (c1 y) /\ eq4 p (c2 x) (c2 y).
(** the automorphism z -> -z (so w -> -w): the conjugation over the degree 6 subfield *)
Definition conj12 (v : Z12) : Z12 := (conj4 (c0 v), neg4 (conj4 (c1 v)), conj4 (c2 v)).
(** cubic adjugate and norm: v * adj12 v = norm12 v, an element of level 4 *)
Definition adj12 (v : Z12) : Z12 :=
  (sub4 (mul4 (c0 v) (c0 v)) (mul4 w4 (mul4 (c1 v) (c2 v))),
   sub4 (mul4 w4 (mul4 (c2 v) (c2 v))) (mul4 (c0 v) (c1 v)),
   sub4 (mul4 (c1 v) (c1 v)) (mul4 (c0 v) (c2 v))).
Definition norm12 (v : Z12) : Z4 :=
  add4 (mul4 (c0 v) (c0 (adj12 v))) (mul4 w4 (add4 (mul4 (c1 v) (c2 (adj12 v))) (mul4 (c2 v) (c1 (adj12 v))))).
Definition of4 (x : Z4) : Z12 := (x, zero4, zero4).
(** v^n *)
Fixpoint pow12 (v : Z12) (n : nat) : Z12 := match n with O => one12 | S k => mul12 v (pow12 v k) end.
