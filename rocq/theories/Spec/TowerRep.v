(** What an FP2/FP4/FP12 object denotes, and the conditions on the curve constants under which the tower code is correct. *)
From Verif Require Import Base.Word Model.Big Model.Roms Model.Fp Model.Fp2 Model.Fp4 Model.Fp12 Spec.BigSpec Spec.RomSpec Spec.FpSpec Spec.TowerSpec.

(** room for the lazy reductions of the extension fields *)
Definition tower_ok (r : rom) : Prop := special r = false /\ 16383 <= FEXCESS r /\ 4 * Z.min 524288 (FEXCESS r) * pmod r <= bmax (r_cfg r).

(** normalised object with excess counters at most e, holding the class of v modulo p *)
Definition el1 (r : rom) (e : Z) (f : fp) (v : Z) : Prop := fp_rep r 1 f v /\ fxes f <= e.
Definition el2 (r : rom) (e : Z) (x : fp2) (v : Z2) : Prop := el1 r e (f2a x) (fst v) /\ el1 r e (f2b x) (snd v).
Definition el4 (r : rom) (e : Z) (x : fp4) (v : Z4) : Prop := el2 r e (f4a x) (fst v) /\ el2 r e (f4b x) (snd v).
Definition el12 (r : rom) (e : Z) (x : fp12) (v : Z12) : Prop := el4 r e (f12a x) (c0 v) /\ el4 r e (f12b x) (c1 v) /\ el4 r e (f12c x) (c2 v).

(** what a sparsity tag promises about the element *)
Definition typed (tw : twist) (t : Z) (v : Z12) : Prop :=
  (t = T_DENSE) \/
  (t = T_SPARSE /\ match tw with DType => snd (c2 v) = zero2 | MType => fst (c1 v) = zero2 end) \/
  (t = T_SPARSER /\ match tw with DType => snd (c1 v) = zero2 /\ c2 v = zero4 | MType => c1 v = zero4 /\ fst (c2 v) = zero2 end) \/
  (t = T_ONE /\ v = one12) \/
  (t = T_ZERO /\ v = zero12).
