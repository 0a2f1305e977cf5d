(** Specification vocabulary for field elements (fp.rs). *)
From Verif Require Import Base.Word Model.Big Model.Roms Model.Fp Spec.BigSpec Spec.RomSpec.

Section FpSpec.
Variable r : rom.
Notation c := (r_cfg r).
(** the field prime *)
Definition pmod : Z := bval c (r_MODULUS r).
(** the factor carried by the stored form: R = 2^(BASEBITS*NLEN) for Montgomery form, 1 otherwise *)
Definition fK : Z := if special r then 1 else bmax c.
(** the object [f] stores the residue class of the integer [v] modulo p *)
Definition den (f : fp) (v : Z) : Prop := bval c (fx f) mod pmod = (v * fK) mod pmod.

(** limbs after g-1 unnormalised additions/subtractions; grade 1 = all limbs are digits *)
Definition graded (g : Z) (w : list Z) : Prop := within (- ((g - 1) * (2 ^ BASEBITS c - 1))) (g * (2 ^ BASEBITS c - 1)) w.
(** largest grade a word can hold *)
Definition maxg : Z := 2 ^ (CHUNK c - 1 - BASEBITS c).

(** [f] is a legal object: right length, grade g, excess counter within bounds and honest *)
Definition legal (g : Z) (f : fp) : Prop :=
  length (fx f) = NLEN c /\ graded g (fx f) /\ 1 <= fxes f <= FEXCESS r /\ 0 <= bval c (fx f) < fxes f * pmod.
Definition fp_rep (g : Z) (f : fp) (v : Z) : Prop := legal g f /\ den f v.

(** largest product of excesses the reduction tolerates: the advertised bound, except for goldilocks *)
Definition MX : Z :=
  match r_MODTYPE r with
  | GeneralisedMersenne => Z.min (FEXCESS r) ((2 ^ (CHUNK c - 1) - 2 * 2 ^ BASEBITS c) / 2 ^ (224 mod BASEBITS c) / 2 - 4)
  | _ => FEXCESS r
  end.

(** word-size conditions beyond [rom_ok]; met by every shipped ROM but nums384 on 32-bit targets (Prop/FpProps.v) *)
Definition fp_okb : bool :=
  let B := BASEBITS c in let C := CHUNK c in let T := TBITS r in let hb := C / 2 in
  (1 <=? T) && (5 <=? r_SH r) && (r_SH r <=? 28) && (T + r_SH r <=? B) && (r_MODBITS r =? B * (Z.of_nat (NLEN c) - 1) + T)
  && (2 * hb =? C) && (r_SH r + 2 <=? hb) && (hb - T <=? B) && (200 <=? r_MODBITS r) && (hb <? B) && (C <=? 64)
  && match r_MODTYPE r with
     | NotSpecial => true
     | PseudoMersenne => (r_MCONST r * r_MCONST r * 2 ^ r_SH r + 2 ^ B + 2 ^ 8 <=? 2 ^ (C - 1))
     | GeneralisedMersenne => (r_MODBITS r =? 448) && (64 <=? MX) && (2 * MX + 16 <=? FEXCESS r) && (8 <=? 224 mod B) && (224 + r_SH r <? B * (Z.of_nat (NLEN c) - 1))
     | MontgomeryFriendly => false
     end.
Definition fp_ok : Prop := rom_ok r /\ fp_okb = true.
End FpSpec.
