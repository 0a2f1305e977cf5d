(** What a projective point object of ecp.rs stands for, and what the ROM must satisfy. *)
From Verif Require Import Base.Word Model.Big Model.Roms Model.Fp Model.Ecp Spec.BigSpec Spec.RomSpec Spec.FpSpec Spec.CurveSpec Spec.Bytes.

Section EcpSpec.
Variable r : rom.
Notation p := (pmod r).
(** curve constants: y^2 = x^3 + A x + B, or A x^2 + y^2 = 1 + B x^2 y^2, or y^2 = x^3 + A x^2 + x *)
Definition cA : Z := r_CURVE_A r.
Definition cB : Z := bval (r_cfg r) (r_CURVE_B r).
(** the three coordinates are normalised field objects for the integers X, Y, Z *)
Definition coords (P : ecp) (X Y Z : Z) : Prop := fp_rep r 1 (ex P) X /\ fp_rep r 1 (ey P) Y /\ fp_rep r 1 (ez P) Z.
(** P represents the curve point A: X = x Z, Y = y Z, or X = Z = 0 at infinity *)
Definition w_point (P : ecp) (A : point) : Prop :=
  on_w p cA cB A /\ exists X Y Z, coords P X Y Z /\
  match A with
  | Inf => cong p X 0 /\ cong p Z 0 /\ ~ cong p Y 0
  | Aff x y => ~ cong p Z 0 /\ cong p (x * Z) X /\ cong p (y * Z) Y
  end.
Definition e_point (P : ecp) (A : epoint) : Prop :=
  on_e p cA cB A /\ exists X Y Z, coords P X Y Z /\ ~ cong p Z 0 /\ cong p (fst A * Z) X /\ cong p (snd A * Z) Y.
(** the same with the y coordinate stored un-normalised: its limbs may be those of a sum of g normalised values *)
Definition w_point_raw (g : Z) (P : ecp) (A : point) : Prop :=
  on_w p cA cB A /\ exists X Y Z, fp_rep r 1 (ex P) X /\ fp_rep r g (ey P) Y /\ fp_rep r 1 (ez P) Z /\
  match A with
  | Inf => cong p X 0 /\ cong p Z 0 /\ ~ cong p Y 0
  | Aff x y => ~ cong p Z 0 /\ cong p (x * Z) X /\ cong p (y * Z) Y
  end.
Definition e_point_raw (g : Z) (P : ecp) (A : epoint) : Prop :=
  on_e p cA cB A /\ exists X Y Z, fp_rep r 1 (ex P) X /\ fp_rep r g (ey P) Y /\ fp_rep r 1 (ez P) Z /\
  ~ cong p Z 0 /\ cong p (fst A * Z) X /\ cong p (snd A * Z) Y.
(** the integers in the limbs of the coordinates are below p *)
Definition limbs_reduced (P : ecp) : Prop := bval (r_cfg r) (fx (ex P)) < p /\ bval (r_cfg r) (fx (ey P)) < p.
End EcpSpec.

(** scalar multiples by repeated addition *)
Inductive w_times (p a : Z) (A : point) : nat -> point -> Prop :=
| wt_0 : w_times p a A 0 Inf
| wt_S n B C : w_times p a A n B -> w_sum p a B A C -> w_times p a A (S n) C.
Inductive e_times (p a d : Z) (A : epoint) : nat -> epoint -> Prop :=
| et_0 : e_times p a d A 0 e_zero
| et_S n B C : e_times p a d A n B -> on_e p a d C -> e_sum p a d B A C -> e_times p a d A (S n) C.

(** SEC1 point encodings with coordinates of MODBYTES bytes *)
Definition mbytes (r : rom) : nat := Z.to_nat (MODBYTES (r_cfg r)).
Definition enc_xy (r : rom) (x y : Z) : list Z := 4 :: i2osp x (mbytes r) ++ i2osp y (mbytes r).
Definition enc_x (r : rom) (x y : Z) : list Z := (2 + y mod 2) :: i2osp x (mbytes r).
(** which objects are written back faithfully: those whose z coordinate is not 1 (they are reduced on the way out), those with
    reduced limbs, and, on Montgomery-representation fields, those without a zero coordinate *)
Definition writable (r : rom) (P : ecp) (x y : Z) : Prop :=
  ~ fp_rep r 1 (ez P) 1 \/ limbs_reduced r P \/ special r = false /\ x <> 0 /\ y <> 0.
