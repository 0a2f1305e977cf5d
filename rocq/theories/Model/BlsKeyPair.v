(** Model of src/bls381/core.rs:485-498 key_pair_generate_g1 and 637-650 key_pair_generate_g2 (the two copies differ only in the group of the
    public key, [K]); basic.rs, message_augmentation.rs and proof_of_possession.rs call them unchanged.  [expect] on an error is a panic. *)
From Verif Require Import Base.Word Base.Arr Model.Big Model.Roms Model.Sha2 Model.HashToCurve Model.Rand Model.Bls Model.BlsScheme.
Definition bls_key_pair_generate (r : rom) (bd : build) (K : grp) (rng : rnd) : option (list Z * list Z * rnd) :=
  ikm <- getbytes bd SECRET_KEY_BYTES rng ;;
  sk <- key_generate r bd (fst ikm) [] ;;
  pk <- secret_key_to_public_key r K sk ;;
  match pk with Ok pk => Some ((sk, pk), snd ikm) | Err _ => None end.
