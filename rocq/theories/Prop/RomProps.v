(** C51: consistency of the shipped constants. *)
From Verif Require Import Base.Word Model.Big Model.Roms Spec.BigSpec Spec.RomSpec Spec.FpSpec Spec.CurveSpec Spec.EcpSpec Proof.RomCheck Proof.Weier Proof.FpBase Proof.EcpW Proof.EcpProto Proof.EcGroupInst Proof.Primes Proof.PrimeBlsN Proof.MpinInst Proof.SlopesMpin.
From Coq Require Import Znumtheory.

(** Every shipped configuration but fp512bn/32 bit is consistent *)
Theorem C51_roms : Forall (fun r => rom_ok r \/ r = rom_fp512bn_32) all_roms.
Proof.
  unfold all_roms. repeat (apply Forall_cons; [first [left; apply checkb_ok; vm_compute; reflexivity|right; reflexivity]|]). apply Forall_nil.
Qed.
Print Assumptions C51_roms.
(** the limb configurations (also of the RSA sizes) meet the conditions the limb theorems need *)
Theorem C51_cfgs : Forall cfg_ok all_cfgs.
Proof. unfold all_cfgs. repeat (apply Forall_cons; [vm_compute; reflexivity|]). apply Forall_nil. Qed.
Print Assumptions C51_cfgs.
(** fp512bn on 32-bit targets: MODBYTES=32 gives Bigs of 10 limbs, its constants have 18 *)
Theorem C51_fp512bn_32_refuted : In rom_fp512bn_32 all_roms /\ length (r_MODULUS rom_fp512bn_32) <> NLEN (r_cfg rom_fp512bn_32) /\ ~ rom_ok rom_fp512bn_32.
Proof.
  split; [unfold all_roms; cbn; tauto|]. split; [vm_compute; discriminate|].
  intros [[_ [[H _] _]] _]. vm_compute in H. discriminate.
Qed.
Print Assumptions C51_fp512bn_32_refuted.
(** MOD8 is documented as the modulus mod 8; six ROMs store another value *)
Theorem C51_mod8_refuted : Forall (fun r => In r all_roms /\ ~ rom_mod8 r) [rom_anssi_32; rom_anssi_64; rom_nums512e_32; rom_nums512e_64; rom_nums512w_32; rom_nums512w_64].
Proof.
  repeat (apply Forall_cons; [split; [unfold all_roms; cbn; tauto|unfold rom_mod8; vm_compute; discriminate]|]). apply Forall_nil.
Qed.
Print Assumptions C51_mod8_refuted.
Example C51_witness : length all_roms = 52%nat /\ In rom_bls381_64 all_roms /\ rom_ok rom_bls381_64.
Proof. split; [reflexivity|]. split; [unfold all_roms; cbn; tauto|]. apply checkb_ok. vm_compute. reflexivity. Qed.

(** the modulus is prime, and the order is prime *)
Definition mod_prime (r : rom) : Prop := prime (bval (r_cfg r) (r_MODULUS r)).
Definition order_prime (r : rom) : Prop := prime (bval (r_cfg r) (r_ORDER r)).
Lemma mod_prime_is r q : (bval (r_cfg r) (r_MODULUS r) =? q) = true -> prime q -> mod_prime r.
Proof. intros H P. unfold mod_prime. apply Z.eqb_eq in H. rewrite H. exact P. Qed.
Lemma order_prime_is r q : (bval (r_cfg r) (r_ORDER r) =? q) = true -> prime q -> order_prime r.
Proof. intros H P. unfold order_prime. apply Z.eqb_eq in H. rewrite H. exact P. Qed.
(** Missing: the other curves. *)
Theorem C51_primes_partial :
  Forall (fun r => In r all_roms /\ mod_prime r) [rom_c25519_32; rom_c25519_64; rom_ed25519_32; rom_ed25519_64; rom_secp256k1_32; rom_secp256k1_64; rom_bls381_32; rom_bls381_64; rom_bn254_32; rom_bn254_64] /\
  Forall (fun r => In r all_roms /\ order_prime r) [rom_secp256k1_32; rom_secp256k1_64; rom_bls381_32; rom_bls381_64].
Proof.
  assert (I : forall r, In r [rom_c25519_32; rom_c25519_64; rom_ed25519_32; rom_ed25519_64; rom_secp256k1_32; rom_secp256k1_64; rom_bls381_32; rom_bls381_64; rom_bn254_32; rom_bn254_64] -> In r all_roms) by (unfold all_roms; cbn [In]; tauto).
  split.
  - repeat (apply Forall_cons; [split; [apply I; cbn [In]; tauto|first
      [apply (mod_prime_is _ ed25519_p); [vm_compute; reflexivity|exact prime_ed25519_p]|apply (mod_prime_is _ secp256k1_p); [vm_compute; reflexivity|exact prime_secp256k1_p]
      |apply (mod_prime_is _ bls381_p); [vm_compute; reflexivity|exact prime_bls381_p]
      |apply (mod_prime_is _ bn254_p); [vm_compute; reflexivity|exact prime_bn254_p]]]|]). apply Forall_nil.
  - repeat (apply Forall_cons; [split; [apply I; cbn [In]; tauto|first
      [apply (order_prime_is _ secp256k1_n); [vm_compute; reflexivity|exact prime_secp256k1_n]
      |apply (order_prime_is _ bls381_order); [vm_compute; reflexivity|exact prime_bls381_order]]]|]). apply Forall_nil.
Qed.
Print Assumptions C51_primes_partial.

(** the generator has exactly the order: order times the generator is the point at infinity and no smaller positive multiple is *)
Definition gen_order (r : rom) : Prop :=
  let p := bval (r_cfg r) (r_MODULUS r) in let n := bval (r_cfg r) (r_ORDER r) in let G := Aff (bval (r_cfg r) (r_GX r)) (bval (r_cfg r) (r_GY r)) in
  w_times p (r_CURVE_A r) G (Z.to_nat n) Inf /\ forall k, 0 < k < n -> ~ w_times p (r_CURVE_A r) G (Z.to_nat k) Inf.
Lemma ec_gen_order r : cA r = r_CURVE_A r -> ec_group r -> gen_order r.
Proof.
  intros EA HE. unfold gen_order. cbv zeta. rewrite <- EA. split; [exact (eg_ng r HE)|]. intros k K T. apply (times_iff r HE _ k Inf (eg_g r HE) (Z.lt_le_incl _ _ (proj1 K))) in T.
  apply (zt_nz r HE k); [rewrite Z.mod_small by (split; [apply Z.lt_le_incl; apply K|apply K]); intros X; rewrite X in K; destruct K as [K _]; discriminate K|].
  symmetry in T. match type of T with EcpBridge.sp _ ?X = _ => destruct X eqn:EX end; [exact EX|discriminate T].
Qed.
(** Missing: the other Weierstrass curves and the Edwards and Montgomery curves (for bls381 see C51_bls381_point_order). *)
Theorem C51_point_order_partial : Forall (fun r => In r all_roms /\ gen_order r) [rom_secp256k1_32; rom_secp256k1_64].
Proof.
  apply Forall_cons; [|apply Forall_cons; [|apply Forall_nil]]; (split; [unfold all_roms; cbn [In]; tauto|apply ec_gen_order; [vm_compute; reflexivity|]]); [exact secp256k1_32_group|exact secp256k1_64_group].
Qed.
Print Assumptions C51_point_order_partial.
