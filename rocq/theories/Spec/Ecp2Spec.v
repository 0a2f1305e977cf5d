(** What an ECP2 object represents. *)
From Verif Require Import Base.Word Model.Big Model.Roms Model.Fp Model.Fp2 Model.Fp12 Model.Ecp2 Spec.BigSpec Spec.RomSpec Spec.FpSpec Spec.TowerSpec Spec.TowerRep Spec.G2Spec.

Section S.
Variable r : rom.
Notation p := (pmod r).
(** the coordinates are normalised FP2 objects, excess counters at most e, for X, Y, Z; the point is (X/Z, Y/Z), or X = Z = 0 at infinity *)
Definition e2_point (b : Z2) (e : Z) (P : ecp2) (A : point2) : Prop :=
  on_e2 p b A /\ exists X Y Z, el2 r e (x2 P) X /\ el2 r e (y2 P) Y /\ el2 r e (z2 P) Z /\
  match A with
  | Inf2 => eq2 p X zero2 /\ eq2 p Z zero2 /\ ~ eq2 p Y zero2
  | Aff2 x y => ~ eq2 p Z zero2 /\ eq2 p (mul2 x Z) X /\ eq2 p (mul2 y Z) Y
  end.
(** A component that is 0 is written as 0 (and not as p) when its stored form is reduced, which affine() ensures unless z = 1 *)
Definition comp_writable (P : ecp2) (f : fp) (v : Z) : Prop :=
  ~ el2 r (FEXCESS r) (z2 P) one2 \/ bval (r_cfg r) (fx f) < p \/ v <> 0.
Definition x_writable2 (P : ecp2) (x : Z2) : Prop := comp_writable P (f2a (x2 P)) (fst x) /\ comp_writable P (f2b (x2 P)) (snd x).
Definition y_writable2 (P : ecp2) (y : Z2) : Prop := comp_writable P (f2a (y2 P)) (fst y) /\ comp_writable P (f2b (y2 P)) (snd y).
End S.
