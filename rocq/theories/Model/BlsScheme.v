(** Model of the BLS signature schemes: src/bls381/core.rs:479-785, basic.rs, message_augmentation.rs and proof_of_possession.rs.
    The code exists twice, once with signatures in G1 (public keys in G2) and once the other way round; the two copies are modelled once,
    with [variant] selecting the places where their order of evaluation differs.
    The two groups and the pairing are parameters: a [grp] collects the library calls made on one group, [pairs] is
    initmp / another* / miller / fexp / isunity.  [None] is a panic.  Secret keys are those of Model/Bls.v.
    key_pair_generate is in BlsKeyPair.v. *)
From Verif Require Import Base.Word Model.Big Model.Roms Model.HashToCurve Model.Bls.
From Coq Require String.
Import String.StringSyntax.

(** the calls on one group: generator, pair::g*mul, add, neg, serialize_g*, deserialize_g*, subgroup_check_g*, hash_to_curve_g*, frombytes *)
Record grp := mkgrp { obj : Type; g_gen : option obj; g_mul : obj -> list Z -> option obj; g_add : obj -> obj -> option obj; g_neg : obj -> option obj;
  g_ser : obj -> option (list Z); g_deser : list Z -> option (result obj); g_check : obj -> option bool; g_hash : list Z -> list Z -> option obj; g_from : list Z -> option obj }.

(** signatures in G1 or in G2 *)
Inductive variant := SigG1 | SigG2.

Section Scheme.
Variable r : rom.
Variable v : variant.
(** the group of signatures and the group of public keys *)
Variables S K : grp.
(** the pairs handed to [pair::another], in order; the answer of [isunity] *)
Variable pairs : list (obj K * obj S) -> option bool.

(** core.rs:499-505 secret_key_to_public_key_g1; 662-669 _g2 *)
Definition secret_key_to_public_key (sk : list Z) : option (result (list Z)) :=
  rbind (secret_key_from_bytes r sk) (fun s =>
  g <- g_gen K ;; pk <- g_mul K g s ;; b <- g_ser K pk ;; Some (Ok b)).
(** core.rs:510-520 core_sign_g1; 674-685 core_sign_g2 *)
Definition core_sign (sk msg dst : list Z) : option (result (list Z)) :=
  rbind (secret_key_from_bytes r sk) (fun s =>
  h <- g_hash S msg dst ;; sg <- g_mul S h s ;; b <- g_ser S sg ;; Some (Ok b)).

(** the two subgroup checks, lazily, in the order of each copy (core.rs:537, 702): does either fail? *)
Definition either_bad (sg : obj S) (pk : obj K) : option bool :=
  match v with
  | SigG1 => a <- g_check S sg ;; if (a : bool) then b <- g_check K pk ;; Some (negb b) else Some true
  | SigG2 => a <- g_check K pk ;; if (a : bool) then b <- g_check S sg ;; Some (negb b) else Some true
  end.
(** the last step of verification (core.rs:542-556, 707-721): e(sig, -g) e(H(msg), pk) is one *)
Definition pair_check (sg : obj S) (pk : obj K) (msg dst : list Z) : option bool :=
  h <- g_hash S msg dst ;; g <- g_gen K ;; g <- g_neg K g ;; pairs [(g, sg); (pk, h)].
(** core.rs:525-557 core_verify_g1; 690-722 core_verify_g2 *)
Definition core_verify (pk msg sg dst : list Z) : option bool :=
  a <- g_deser K pk ;; b <- g_deser S sg ;;
  match a, b with
  | Ok pk, Ok sg => bad <- either_bad sg pk ;; if (bad : bool) then Some false else pair_check sg pk msg dst
  | _, _ => Some false
  end.

(** core.rs:562-573 aggregate_g1; 727-738 aggregate_g2 *)
Fixpoint agg_loop (acc : obj S) (l : list (list Z)) : option (result (obj S)) :=
  match l with
  | [] => Some (Ok acc)
  | b :: l => rbind (g_deser S b) (fun p => acc <- g_add S acc p ;; agg_loop acc l)
  end.
Definition aggregate (points : list (list Z)) : option (result (list Z)) :=
  match points with
  | [] => Some (Err AggregateEmptyPoints)
  | b :: l => rbind (g_deser S b) (fun p => rbind (agg_loop p l) (fun a => b <- g_ser S a ;; Some (Ok b)))
  end.

(** the loop over the public keys (core.rs:606-621, 762-778): [None] inside means "return false" *)
Fixpoint keys_loop (pks msgs : list (list Z)) (dst : list Z) : option (option (list (obj K * obj S))) :=
  match pks with
  | [] => Some (Some [])
  | pk :: pks =>
      a <- g_deser K pk ;;
      match a with
      | Err _ => Some None
      | Ok pk =>
          c <- g_check K pk ;;
          if negb c then Some None else
          match msgs with
          | [] => None                     (* msgs[i] out of bounds *)
          | m :: msgs => h <- g_hash S m dst ;; rest <- keys_loop pks msgs dst ;; Some (match rest with Some l => Some ((pk, h) :: l) | None => None end)
          end
      end
  end.
(** core.rs:578-627 core_aggregate_verify_g1; 743-785 core_aggregate_verify_g2 *)
Definition core_aggregate_verify (pks msgs : list (list Z)) (sg dst : list Z) : option bool :=
  let lists_bad := (length pks =? 0)%nat || negb (length pks =? length msgs)%nat in
  if (match v with SigG1 => lists_bad | SigG2 => false end) then Some false else
  b <- g_deser S sg ;;
  match b with
  | Err _ => Some false
  | Ok sg =>
      if (match v with SigG1 => false | SigG2 => lists_bad end) then Some false else
      c <- g_check S sg ;;
      if negb c then Some false else
      g <- g_gen K ;; g <- g_neg K g ;;
      l <- keys_loop pks msgs dst ;;
      match l with None => Some false | Some l => pairs ((g, sg) :: l) end
  end.

(** ** basic.rs *)
(** basic.rs:9-11 DST_G1, DST_G2 *)
Definition text (s : String.string) : list Z := map (fun a => Z.of_N (Ascii.N_of_ascii a)) (String.list_ascii_of_string s).
Arguments text s%string_scope.
Definition BASIC_DST : list Z := match v with SigG1 => text "BLS_SIG_BLS12381G1_XMD:SHA-256_SSWU_RO_NUL_" | SigG2 => text "BLS_SIG_BLS12381G2_XMD:SHA-256_SSWU_RO_NUL_" end.
(** basic.rs:49-58, 107-116 sign, verify *)
Definition basic_sign (sk msg : list Z) := core_sign sk msg BASIC_DST.
Definition basic_verify (pk msg sg : list Z) := core_verify pk msg sg BASIC_DST.
(** basic.rs:71-82, 131-144 aggregate_verify: any two equal messages at different positions *)
Fixpoint list_eqb (a b : list Z) : bool :=
  match a, b with [], [] => true | x :: a, y :: b => (x =? y) && list_eqb a b | _, _ => false end.
Definition repeated (msgs : list (list Z)) : bool :=
  existsb (fun i => existsb (fun j => negb (i =? j)%nat && list_eqb (nth i msgs []) (nth j msgs [])) (seq 0 (length msgs))) (seq 0 (length msgs)).
Definition basic_aggregate_verify (pks msgs : list (list Z)) (sg : list Z) : option bool :=
  if repeated msgs then Some false else core_aggregate_verify pks msgs sg BASIC_DST.

(** ** message_augmentation.rs *)
(** 9-12 *)
Definition AUG_DST : list Z := match v with SigG1 => text "BLS_SIG_BLS12381G1_XMD:SHA-256_SSWU_RO_AUG_" | SigG2 => text "BLS_SIG_BLS12381G2_XMD:SHA-256_SSWU_RO_AUG_" end.
(** 51-60, 128-137 sign *)
Definition aug_sign (sk msg pk : list Z) := core_sign sk (pk ++ msg) AUG_DST.
(** 65-71, 142-148 verify *)
Definition aug_verify (pk msg sg : list Z) := core_verify pk (pk ++ msg) sg AUG_DST.
(** 83-100, 160-177 aggregate_verify: public_keys[i] for every message *)
Fixpoint augment (pks msgs : list (list Z)) : option (list (list Z)) :=
  match msgs, pks with
  | [], _ => Some []
  | m :: msgs, pk :: pks => l <- augment pks msgs ;; Some ((pk ++ m) :: l)
  | _ :: _, [] => None
  end.
Definition aug_aggregate_verify (pks msgs : list (list Z)) (sg : list Z) : option bool :=
  l <- augment pks msgs ;; core_aggregate_verify pks l sg AUG_DST.

(** ** proof_of_possession.rs *)
(** 16-22 *)
Definition POP_DST : list Z := match v with SigG1 => text "BLS_SIG_BLS12381G1_XMD:SHA-256_SSWU_RO_POP_" | SigG2 => text "BLS_SIG_BLS12381G2_XMD:SHA-256_SSWU_RO_POP_" end.
Definition POP_PROOF_DST : list Z := match v with SigG1 => text "BLS_POP_BLS12381G1_XMD:SHA-256_SSWU_RO_POP_" | SigG2 => text "BLS_POP_BLS12381G2_XMD:SHA-256_SSWU_RO_POP_" end.
(** 64-73, 193-202 sign, verify; 85-87, 214-216 aggregate_verify *)
Definition pop_sign (sk msg : list Z) := core_sign sk msg POP_DST.
Definition pop_verify_sig (pk msg sg : list Z) := core_verify pk msg sg POP_DST.
Definition pop_aggregate_verify (pks msgs : list (list Z)) (sg : list Z) := core_aggregate_verify pks msgs sg POP_DST.
(** 92-102, 221-231 pop_prove *)
Definition pop_prove (sk : list Z) : option (result (list Z)) :=
  rbind (secret_key_from_bytes r sk) (fun s =>
  g <- g_gen K ;; pk <- g_mul K g s ;; pkb <- g_ser K pk ;;
  h <- g_hash S pkb POP_PROOF_DST ;; pr <- g_mul S h s ;; b <- g_ser S pr ;; Some (Ok b)).
(** 107-136, 236-265 pop_verify: here the proof is decoded first *)
Definition pop_verify (pk proof : list Z) : option bool :=
  b <- g_deser S proof ;; a <- g_deser K pk ;;
  match a, b with
  | Ok pko, Ok sg => bad <- either_bad sg pko ;; if (bad : bool) then Some false else pair_check sg pko pk POP_PROOF_DST
  | _, _ => Some false
  end.
(** 141-178, 270-307 fast_aggregate_verify: the first public key goes through frombytes, the others through deserialize *)
Fixpoint fast_loop (acc : obj K) (l : list (list Z)) : option (option (obj K)) :=
  match l with
  | [] => Some (Some acc)
  | b :: l =>
      a <- g_deser K b ;;
      match a with Err _ => Some None | Ok p => acc <- g_add K acc p ;; fast_loop acc l end
  end.
Definition fast_aggregate_verify (pks : list (list Z)) (msg sg : list Z) : option bool :=
  match pks with
  | [] => Some false
  | pk0 :: pks =>
      b <- g_deser S sg ;;
      match b with
      | Err _ => Some false
      | Ok sg =>
          h <- g_hash S msg POP_DST ;; g <- g_gen K ;; g <- g_neg K g ;;
          acc <- g_from K pk0 ;;
          agg <- fast_loop acc pks ;;
          match agg with None => Some false | Some pk => pairs [(g, sg); (pk, h)] end
      end
  end.
End Scheme.
