(** The chord-and-tangent law on E': y^2 = x^3 + b over F_p(i), and multiples of a point.  Written independently of the code. *)
From Verif Require Import Spec.TowerSpec Spec.G2Spec.
From Coq Require Import ZArith.
Open Scope Z_scope.
Section S.
Variable p : Z.
(** [e2_sum P Q R] says R = P + Q.  The slope l is determined by the points. *)
Inductive e2_sum : point2 -> point2 -> point2 -> Prop :=
| es_inf_l Q : e2_sum Inf2 Q Q
| es_inf_r P : e2_sum P Inf2 P
| es_opposite x y y' : eq2 p (add2 y y') zero2 -> e2_sum (Aff2 x y) (Aff2 x y') Inf2
| es_chord x1 y1 x2 y2 l : x1 <> x2 -> eq2 p (mul2 l (sub2 x2 x1)) (sub2 y2 y1) ->
    let x3 := sub2 (sub2 (mul2 l l) x1) x2 in
    e2_sum (Aff2 x1 y1) (Aff2 x2 y2) (Aff2 (red2 p x3) (red2 p (sub2 (mul2 l (sub2 x1 x3)) y1)))
| es_tangent x y l : ~ eq2 p (add2 y y) zero2 -> eq2 p (mul2 l (scale2 2 y)) (scale2 3 (mul2 x x)) ->
    let x3 := sub2 (sub2 (mul2 l l) x) x in
    e2_sum (Aff2 x y) (Aff2 x y) (Aff2 (red2 p x3) (red2 p (sub2 (mul2 l (sub2 x x3)) y))).
Inductive e2_times (A : point2) : nat -> point2 -> Prop :=
| et2_0 : e2_times A 0 Inf2
| et2_S n B C : e2_times A n B -> e2_sum B A C -> e2_times A (S n) C.
(** no point of order two *)
Definition no_order2_2 (b : Z2) : Prop := forall x, ~ eq2 p (add2 (mul2 (mul2 x x) x) b) zero2.
End S.
