(** The simplified SWU map for AB != 0, RFC 9380 section 6.6.2, over the integers modulo a prime p with p = 3 mod 4.
    inv0, is_square and sgn0 are those of RFC 9380 section 4, sqrt that of appendix I.1. *)
From Coq Require Import ZArith.
Open Scope Z_scope.
Section S.
Variable p : Z.
Definition inv0 (a : Z) : Z := (a ^ (p - 2)) mod p.
Definition is_square_b (a : Z) : bool := let t := (a ^ ((p - 1) / 2)) mod p in (t =? 0) || (t =? 1).
Definition sqrt_3mod4 (a : Z) : Z := (a ^ ((p + 1) / 4)) mod p.
Definition sgn0 (a : Z) : Z := (a mod p) mod 2.
Variables A B Zc : Z.
Definition gx (x : Z) : Z := (x ^ 3 + A * x + B) mod p.
Definition sswu_x1 (u : Z) : Z :=
  let tv1 := inv0 (Zc ^ 2 * u ^ 4 + Zc * u ^ 2) in
  if tv1 =? 0 then (B * inv0 (Zc * A)) mod p
  else ((- B * inv0 A) * (1 + tv1)) mod p.
Definition sswu (u : Z) : Z * Z :=
  let x1 := sswu_x1 u in
  let gx1 := gx x1 in
  let x2 := (Zc * u ^ 2 * x1) mod p in
  let gx2 := gx x2 in
  let '(x, y) := if is_square_b gx1 then (x1, sqrt_3mod4 gx1) else (x2, sqrt_3mod4 gx2) in
  (x, if sgn0 u =? sgn0 y then y else (- y) mod p).
End S.
(** the curve E' : y^2 = x^3 + A' x + B' 11-isogenous to BLS12-381, RFC 9380 section 8.8.1 *)
Definition E11_A : Z := 0x144698a3b8e9433d693a02c96d4982b0ea985383ee66a8d8e8981aefd881ac98936f8da0e0f97f5cf428082d584c1d.
Definition E11_B : Z := 0x12e2908d11688030018b12e8753eee3b2016c1f0f24f4070a0b9c14fcef35ef55a23215a316ceaa5d1cc48e98e172be0.
Definition E11_Z : Z := 11.
