(** The conditions under which the ECP2 theorems hold: the field is prime with p = 3 mod 4, the coefficients in the ROM agree with each other
    and with the twist's coefficient bt, and the twist has no point of order two. *)
From Verif Require Import Base.Word Model.Big Model.Roms Model.Fp Model.Fp2 Model.Fp12 Spec.BigSpec Spec.RomSpec Spec.FpSpec Spec.EcpSpec Spec.TowerSpec Spec.TowerRep Spec.G2Spec Spec.G2Sum.
From Coq Require Import Znumtheory.
Definition real2 (x : Z) : Z2 := (x, 0).
Definition g2_curve (r : rom) (tw : twist) (bt : Z2) : Prop :=
  fp_ok r /\ tower_ok r /\ prime (pmod r) /\ pmod r mod 4 = 3 /\
  0 < 3 * r_CURVE_B_I r <= 60 /\ r_CURVE_B_I r mod pmod r = cB r mod pmod r /\
  match tw with
  | MType => eq2 (pmod r) bt (mul2 (1, 1) (real2 (cB r)))     (* bt = b (1+i) *)
  | DType => eq2 (pmod r) (mul2 (1, 1) bt) (real2 (cB r))     (* bt = b / (1+i) *)
  end /\
  no_order2_2 (pmod r) bt.
