(** Specification: what the arithmetic relies on in the constants of a curve configuration (src/roms/rom_*.rs). *)
From Verif Require Import Base.Word Model.Big Model.Roms Spec.BigSpec.

Section RomSpec.
Variable r : rom.
Let c := r_cfg r.
Let p := bval c (r_MODULUS r).

(** every constant is a well-formed Big *)
Definition rom_wf : Prop := cfg_ok c /\ big_wf c (r_MODULUS r) /\ big_wf c (r_R2MODP r) /\ big_wf c (r_CURVE_B r) /\ big_wf c (r_ORDER r)
  /\ big_wf c (r_GX r) /\ big_wf c (r_GY r) /\ big_wf c (r_COF r).
(** MODBITS is the bit length of the (odd) modulus *)
Definition rom_modbits : Prop := Z.odd p = true /\ 2 ^ (r_MODBITS r - 1) <= p < 2 ^ r_MODBITS r /\ 8 * MODBYTES c - 8 < r_MODBITS r <= 8 * MODBYTES c.
(** the constants of the reduction method match the modulus *)
Definition rom_red : Prop :=
  match r_MODTYPE r with
  | NotSpecial => bval c (r_R2MODP r) = (bmax c * bmax c) mod p /\ (get (r_MODULUS r) 0 * r_MCONST r + 1) mod 2 ^ BASEBITS c = 0
                  /\ 0 < r_MCONST r < 2 ^ BASEBITS c
  | PseudoMersenne => p = 2 ^ r_MODBITS r - r_MCONST r /\ 0 < r_MCONST r < 2 ^ BASEBITS c
  | GeneralisedMersenne => p = 2 ^ r_MODBITS r - 2 ^ (r_MODBITS r / 2) - 1
  | MontgomeryFriendly => False
  end.
(** excess head room *)
Definition rom_sh : Prop := r_SH r = Z.min (BASEBITS c * Z.of_nat (NLEN c) - r_MODBITS r) (if CHUNK c =? 32 then 14 else 1000).
(** the generator satisfies the curve equation; Montgomery curves store only x *)
Definition rom_gen : Prop :=
  let x := bval c (r_GX r) in let y := bval c (r_GY r) in let a := r_CURVE_A r in let b := bval c (r_CURVE_B r) in
  match r_CURVETYPE r with
  | Weierstrass => (y * y) mod p = (x * x * x + a * x + b) mod p
  | Edwards => (a * (x * x) + y * y) mod p = (1 + b * (x * x) * (y * y)) mod p
  | Montgomery => True
  end.
Definition rom_small_b : Prop := r_CURVE_B_I r = 0 \/ r_CURVE_B_I r mod p = bval c (r_CURVE_B r) mod p.
Definition rom_lt : Prop := bval c (r_GX r) < p /\ bval c (r_GY r) < p /\ bval c (r_CURVE_B r) < p /\ bval c (r_R2MODP r) < p /\ 1 < bval c (r_ORDER r).
(** MOD8 as documented *)
Definition rom_mod8 : Prop := r_MOD8 r = p mod 8.
(** what the code actually asks of MOD8: fp.rs tests it only for equality with 5 *)
Definition rom_mod8_weak : Prop := (r_MOD8 r = 5 <-> p mod 8 = 5) /\ (p mod 8 = 5 \/ p mod 4 = 3).
Definition rom_ok : Prop := rom_wf /\ rom_modbits /\ rom_red /\ rom_sh /\ rom_gen /\ rom_small_b /\ rom_lt /\ rom_mod8_weak.
End RomSpec.
