(** The calls the BLS schemes make on G1 (src/bls381/core.rs, basic.rs): [ECP::generator], [pair::g1mul], [ECP::add], [ECP::neg], serialize_g1
    (135-161), deserialize_g1 (184-195), subgroup_check_g1, [ECP::frombytes]; hash_to_curve_g1 (Model/Iso.v, 64-bit limbs only) is left as a parameter. *)
From Verif Require Import Base.Word Model.Big Model.Roms Model.Fp Model.Ecp Model.Bls Model.BlsScheme Model.G1Mul.
Definition g1_grp (r : rom) (bnx cru : list Z) (bd : build) (hash : list Z -> list Z -> option ecp) : grp :=
  mkgrp ecp (ecp_generator r) (g1mul r bnx cru) (ecp_add r) (ecp_neg r) (serialize_g1 r bd) (deserialize_g1 r) (subgroup_check_g1 r bnx cru) hash (ecp_frombytes r).
