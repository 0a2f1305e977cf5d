(** BLS12-381 object encodings (draft-irtf-cfrg-bls-signature-02 and the ZCash point format), written independently of the code. *)
From Verif Require Import Base.Word Spec.Bytes Spec.Sha2Spec Spec.XmdSpec Spec.CurveSpec Spec.BigSpec Spec.FpSpec Model.Roms Model.Fp Model.Ecp Model.HashToCurve.
From Coq Require String.
Import String.StringSyntax.

(** *** Keys: section 2.3 of the draft.  r is the group order, L = 48 *)
Definition KeyGen (n : Z) (ikm key_info : list Z) : Z :=
  let prk := HKDF_Extract SHA256 (text "BLS-SIG-KEYGEN-SALT-") (ikm ++ i2osp 0 1) in
  os2ip (HKDF_Expand SHA256 prk (key_info ++ i2osp 48 2) 48) mod n.

(** *** ZCash format.  The three most significant bits of the encoding, read as one integer, are: compressed, infinity, and
    "y is the larger of y and -y".  N is the number of bytes of a field element. *)
Section G1.
Variable p : Z.
Variable N : nat.
Definition bit_compressed : Z := 2 ^ (8 * Z.of_nat N - 1).
Definition bit_infinity : Z := 2 ^ (8 * Z.of_nat N - 2).
Definition bit_y : Z := 2 ^ (8 * Z.of_nat N - 3).
Definition larger (y : Z) : bool := (- y) mod p <? y.
Definition compress1 (A : point) : list Z :=
  match A with
  | Inf => i2osp (bit_compressed + bit_infinity) N
  | Aff x y => i2osp (bit_compressed + (if larger y then bit_y else 0) + x) N
  end.
Definition plain1 (A : point) : list Z :=
  match A with
  | Inf => i2osp bit_infinity N ++ repeat 0 N
  | Aff x y => i2osp x N ++ i2osp y N
  end.
End G1.
(** the error reported for a byte string that encodes no point of the curve, from its length and its three flag bits *)
Definition g1_error (N : nat) (b : list Z) : amcl_error :=
  match b with
  | [] => InvalidG1Size
  | h :: _ =>
      if 128 <=? h then (if (length b =? N)%nat then InvalidPoint else InvalidG1Size)
      else if negb (length b =? 2 * N)%nat then InvalidG1Size
      else if (32 <=? h) && (h <? 64) then InvalidYFlag else InvalidPoint
  end.
(** BLS12-381 G1 has no point with y = 0, but it has points with x = 0: such an object is written faithfully if its z coordinate is
    not 1 or the stored x is reduced *)
Definition x_writable (r : rom) (P : ecp) (x : Z) : Prop :=
  ~ fp_rep r 1 (ez P) 1 \/ bval (r_cfg r) (fx (ex P)) < pmod r \/ x <> 0.
