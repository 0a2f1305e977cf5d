(** Textbook elliptic curves over the integers modulo p, independent of how the code represents points. *)
From Coq Require Import ZArith.
Open Scope Z_scope.

Definition cong (p x y : Z) : Prop := x mod p = y mod p.

(** ** Short Weierstrass curves y^2 = x^3 + a x + b: affine points and the point at infinity *)
Inductive point := Inf | Aff (x y : Z).
Definition residue (p x : Z) : Prop := 0 <= x < p.
Definition on_w (p a b : Z) (P : point) : Prop :=
  match P with Inf => True | Aff x y => residue p x /\ residue p y /\ cong p (y * y) (x * x * x + a * x + b) end.
(** The chord-and-tangent law: [w_sum p a P Q R] says R = P + Q.  The slope l is determined by the points. *)
Inductive w_sum (p a : Z) : point -> point -> point -> Prop :=
| ws_inf_l Q : w_sum p a Inf Q Q
| ws_inf_r P : w_sum p a P Inf P
| ws_opposite x y y' : cong p (y + y') 0 -> w_sum p a (Aff x y) (Aff x y') Inf
| ws_chord x1 y1 x2 y2 l : x1 <> x2 -> cong p (l * (x2 - x1)) (y2 - y1) ->
    w_sum p a (Aff x1 y1) (Aff x2 y2) (Aff ((l * l - x1 - x2) mod p) ((l * (x1 - (l * l - x1 - x2)) - y1) mod p))
| ws_tangent x y l : ~ cong p (y + y) 0 -> cong p (l * (2 * y)) (3 * x * x + a) ->
    w_sum p a (Aff x y) (Aff x y) (Aff ((l * l - x - x) mod p) ((l * (x - (l * l - x - x)) - y) mod p)).
Definition w_neg (p : Z) (P : point) : point := match P with Inf => Inf | Aff x y => Aff x ((- y) mod p) end.
(** no point of order two: the cubic has no root *)
Definition no_order2 (p a b : Z) : Prop := forall x, ~ cong p (x * x * x + a * x + b) 0.

(** ** Twisted Edwards curves a x^2 + y^2 = 1 + d x^2 y^2 *)
Definition epoint := (Z * Z)%type.
Definition on_e (p a d : Z) (P : epoint) : Prop :=
  let '(x, y) := P in residue p x /\ residue p y /\ cong p (a * x * x + y * y) (1 + d * x * x * y * y).
Definition e_sum (p a d : Z) (P Q R : epoint) : Prop :=
  let '(x1, y1) := P in let '(x2, y2) := Q in let '(x3, y3) := R in
  let t := d * x1 * x2 * y1 * y2 in
  cong p (x3 * (1 + t)) (x1 * y2 + y1 * x2) /\ ~ cong p (1 + t) 0 /\
  cong p (y3 * (1 - t)) (y1 * y2 - a * x1 * x2) /\ ~ cong p (1 - t) 0.
Definition e_neg (p : Z) (P : epoint) : epoint := let '(x, y) := P in ((- x) mod p, y).
Definition e_zero : epoint := (0, 1).
(** the addition law is complete when a is a square and d is not *)
Definition is_square (p x : Z) : Prop := exists s, cong p (s * s) x.
