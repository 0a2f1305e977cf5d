(** What hashing an identity to a curve point means: the digest is cut or left-padded to MODBYTES bytes and read as a big-endian
    integer; from its residue x0 on, the first x that is the abscissa of a curve point whose cofactor multiple is not the point at
    infinity is taken; of the two points with that abscissa, the one with even ordinate; the result is its cofactor multiple. *)
From Verif Require Import Base.Word Model.Big Model.Roms Model.Fp Model.Ecp Spec.Bytes Spec.BigSpec Spec.RomSpec Spec.FpSpec Spec.CurveSpec Spec.EcpSpec Spec.Sha2Spec.
Definition id_string (P : sha_par) (mb : nat) (id : list Z) : list Z :=
  let d := SHA2 P id in if (mb <? outlen P)%nat then firstn mb d else repeat 0 (mb - outlen P) ++ d.
(** the cofactor the library multiplies by *)
Definition cofactor (r : rom) : Z :=
  if (r_COF_I r =? 1) || (r_COF_I r =? 4) || (r_COF_I r =? 8) then r_COF_I r else bval (r_cfg r) (r_COF r).
(** the candidate at abscissa x *)
Definition candidate (r : rom) (x : Z) (Q : point) : Prop :=
  exists y, on_w (pmod r) (cA r) (cB r) (Aff x y) /\ y mod 2 = 0 /\ w_times (pmod r) (cA r) (Aff x y) (Z.to_nat (cofactor r)) Q.
(** the first usable candidate is n steps after x0, before the integers reach p *)
Definition first_point (r : rom) (x0 : Z) (n : nat) (Q : point) : Prop :=
  x0 + Z.of_nat n < pmod r /\ candidate r (x0 + Z.of_nat n) Q /\ Q <> Inf /\
  forall m, (m < n)%nat -> forall Q', candidate r (x0 + Z.of_nat m) Q' -> Q' = Inf.
Definition maps_to (r : rom) (h : list Z) (n : nat) (Q : point) : Prop := first_point r (os2ip (firstn (mbytes r) h) mod pmod r) n Q.
