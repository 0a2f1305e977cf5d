(** Points of the sextic twist E': y^2 = x^3 + b over F_p(i), i^2 = -1, and the ZCash encoding of the G2 points of BLS12-381.
    Written independently of the code. *)
From Verif Require Import Spec.Bytes Spec.TowerSpec Spec.BlsSpec Model.HashToCurve.
From Coq Require Import ZArith List Bool.
Import ListNotations.
Open Scope Z_scope.

Inductive point2 := Inf2 | Aff2 (x y : Z2).
Section E.
Variable p : Z.
Definition res2 (v : Z2) : Prop := 0 <= fst v < p /\ 0 <= snd v < p.
Definition red2 (v : Z2) : Z2 := (fst v mod p, snd v mod p).
Definition on_e2 (b : Z2) (A : point2) : Prop :=
  match A with
  | Inf2 => True
  | Aff2 x y => res2 x /\ res2 y /\ eq2 p (mul2 y y) (add2 (mul2 (mul2 x x) x) b)
  end.
Definition e2_neg (A : point2) : point2 := match A with Inf2 => Inf2 | Aff2 x y => Aff2 x (red2 (neg2 y)) end.
(** y comes after -y, the imaginary part being the more significant one *)
Definition larger2 (y : Z2) : bool :=
  let n := red2 (neg2 y) in (snd n <? snd y) || ((snd n =? snd y) && (fst n <? fst y)).
Variable N : nat.
(** 2N bytes: the imaginary part of x, with the flags in its top three bits, then the real part *)
Definition compress2 (A : point2) : list Z :=
  match A with
  | Inf2 => i2osp (bit_compressed N + bit_infinity N) N ++ repeat 0 N
  | Aff2 x y => i2osp (bit_compressed N + (if larger2 y then bit_y N else 0) + snd x) N ++ i2osp (fst x) N
  end.
(** 4N bytes *)
Definition plain2 (A : point2) : list Z :=
  match A with
  | Inf2 => i2osp (bit_infinity N) N ++ repeat 0 (3 * N)
  | Aff2 x y => i2osp (snd x) N ++ i2osp (fst x) N ++ i2osp (snd y) N ++ i2osp (fst y) N
  end.
End E.
(** the error reported for a byte string that encodes no point of the curve, from its length and its three flag bits *)
Definition g2_error (N : nat) (b : list Z) : amcl_error :=
  match b with
  | [] => InvalidG2Size
  | h :: _ =>
      if 128 <=? h then (if (length b =? 2 * N)%nat then InvalidPoint else InvalidG2Size)
      else if negb (length b =? 4 * N)%nat then InvalidG2Size
      else if (32 <=? h) && (h <? 64) then InvalidYFlag else InvalidPoint
  end.
