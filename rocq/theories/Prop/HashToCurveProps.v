(** C47: expand_message_xmd and hash_to_field. *)
From Verif Require Import Base.Word Base.Arr Model.Big Model.Roms Model.Sha2 Model.Fp Model.Fp2 Model.HashToCurve Spec.Bytes Spec.Sha2Spec Spec.XmdSpec
  Spec.BigSpec Spec.RomSpec Spec.FpSpec Spec.TowerRep Proof.Sha2Block Proof.H2cProof Proof.BlsRoms Proof.Primes.
From Coq Require Import Lia.
From Coq Require String.
Import String.StringSyntax.

(** the hash algorithms that can be selected; the shipped ROMs select SHA-256 *)
Definition h2c_variants : list (sha * sha_par) := [(sha256, SHA256); (sha384, SHA384); (sha512, SHA512)].
Lemma h2c_matches C P : In (C, P) h2c_variants -> matches C P.
Proof. intros [H|[H|[H|[]]]]; inversion H; subst; [apply m256|apply m384|apply m512]. Qed.

(** For every message, tag and requested length (below the range of usize), the result is the draft's expand_message_xmd;
    a request for more than 255 hash blocks is the error. *)
Theorem C47_expand_message_xmd C P bd msg len dst : In (C, P) h2c_variants -> bytes msg -> bytes dst -> Z.of_nat len + Z.of_nat (outlen P) < 2 ^ 64 ->
  hash_room bd P (Z.of_nat (Sha2Spec.B P) + Z.of_nat (length msg) + 259) -> hash_room bd P (17 + Z.of_nat (length dst)) ->
  expand_message_xmd C bd msg (Z.of_nat len) dst = Some (match XMD_SHA2 P msg len dst with Some u => Ok u | None => Err HashToFieldError end).
Proof. intros V Hm Hd R R1 R2. apply (expand_ok C P (h2c_matches C P V) bd (length msg) (length dst) R1 R2); auto. Qed.
Print Assumptions C47_expand_message_xmd.

(** exactly [len] bytes come out *)
Theorem C47_output_length P msg len dst u : In P [SHA256; SHA384; SHA512] -> XMD_SHA2 P msg len dst = Some u -> length u = len /\ bytes u.
Proof. intros V. assert (M : exists C, matches C P) by (destruct V as [<-|[<-|[<-|[]]]]; [exists sha256; apply m256|exists sha384; apply m384|exists sha512; apply m512]). destruct M as [C M]. apply (uniform_len C P M). Qed.
Print Assumptions C47_output_length.

(** hash_to_field for the base field, bls381: element i is OS2IP of bytes 64 i .. 64 i + 63, mod p *)
Theorem C47_hash_to_field_fp r bd msg count dst : In r bls_roms -> bytes msg -> bytes dst -> Z.of_nat count < 2 ^ 58 ->
  hash_room bd SHA256 (Z.of_nat (Sha2Spec.B SHA256) + Z.of_nat (length msg) + 259) -> hash_room bd SHA256 (17 + Z.of_nat (length dst)) ->
  match HTF_SHA2 SHA256 bls381_p 64 1 msg count dst with
  | None => hash_to_field_fp sha256 bd r msg (Z.of_nat count) dst = Some (Err HashToFieldError)
  | Some vs => exists us, hash_to_field_fp sha256 bd r msg (Z.of_nat count) dst = Some (Ok us) /\ Forall2 (fun f v => exists x, v = [x] /\ el1 r 2 f x) us vs
  end.
Proof.
  intros V Hm Hd R R1 R2. rewrite <- (bls_p r V). apply (htf1_ok sha256 SHA256 m256 bd (length msg) (length dst) R1 R2 r (bls_fp_ok r V) (bls_ns r V)); auto; [rewrite (bls_mb r V); lia|]. change (outlen SHA256) with 32%nat. lia.
Qed.
Print Assumptions C47_hash_to_field_fp.

(** and for the quadratic extension: coordinates at 64 (j + 2 i) *)
Theorem C47_hash_to_field_fp2 r bd msg count dst : In r bls_roms -> bytes msg -> bytes dst -> Z.of_nat count < 2 ^ 57 ->
  hash_room bd SHA256 (Z.of_nat (Sha2Spec.B SHA256) + Z.of_nat (length msg) + 259) -> hash_room bd SHA256 (17 + Z.of_nat (length dst)) ->
  match HTF_SHA2 SHA256 bls381_p 64 2 msg count dst with
  | None => hash_to_field_fp2 sha256 bd r msg (Z.of_nat count) dst = Some (Err HashToFieldError)
  | Some vs => exists us, hash_to_field_fp2 sha256 bd r msg (Z.of_nat count) dst = Some (Ok us) /\ Forall2 (fun f v => exists x y, v = [x; y] /\ el2 r 2 f (x, y)) us vs
  end.
Proof.
  intros V Hm Hd R R1 R2. rewrite <- (bls_p r V). apply (htf2_ok sha256 SHA256 m256 bd (length msg) (length dst) R1 R2 r (bls_fp_ok r V) (bls_ns r V)); auto; [rewrite (bls_mb r V); lia|]. change (outlen SHA256) with 32%nat. lia.
Qed.
Print Assumptions C47_hash_to_field_fp2.

(** counts so large that the byte length overflows usize never yield elements (they panic or return the error) *)
Theorem C47_huge_count r bd msg count dst : 2 ^ 58 <= count -> forall us, hash_to_field_fp sha256 bd r msg count dst <> Some (Ok us).
Proof.
  intros H us. unfold hash_to_field_fp. destruct (usz bd (count * 1)); [|discriminate]. cbn [bind]. destruct (usz bd (z * H2C_L)); [|discriminate]. cbn [bind].
  destruct (expand_message_xmd sha256 bd msg z0 dst) as [[b|e]|]; cbn [rbind]; [|discriminate|discriminate]. unfold capacity. destruct (Z.ltb_spec count (2 ^ 58)); [lia|]. discriminate.
Qed.
Print Assumptions C47_huge_count.

(** the number of elements: 127 base-field elements are served, 128 are refused *)
Theorem C47_capacity bd r msg dst : In r bls_roms -> bytes msg -> bytes dst ->
  hash_room bd SHA256 (Z.of_nat (Sha2Spec.B SHA256) + Z.of_nat (length msg) + 259) -> hash_room bd SHA256 (17 + Z.of_nat (length dst)) ->
  forall count, (Z.of_nat count < 2 ^ 58) -> (hash_to_field_fp sha256 bd r msg (Z.of_nat count) dst = Some (Err HashToFieldError) <-> (127 < count)%nat).
Proof.
  intros V Hm Hd R1 R2 count R. pose proof (C47_hash_to_field_fp r bd msg count dst V Hm Hd R R1 R2) as T. unfold HTF_SHA2, HTF, XMD in T. change (outlen SHA256) with 32%nat in T.
  destruct (Nat.leb_spec (ell 32 (count * 1 * 64)) 255) as [L|L].
  - destruct T as [us [E _]]. split.
    + intros E'. rewrite E in E'. discriminate.
    + intros G. exfalso. assert (256 <= ell 32 (count * 1 * 64))%nat by (unfold ell; apply Nat.div_le_lower_bound; lia). lia.
  - split; [|intros _; exact T]. intros _. destruct (Nat.le_gt_cases count 127) as [G|G]; [|exact G]. exfalso.
    assert (ell 32 (count * 1 * 64) < 256)%nat by (unfold ell; apply Nat.div_lt_upper_bound; lia). lia.
Qed.
Print Assumptions C47_capacity.

(** a concrete run of the model: two bls381 G1 field elements in a debug build *)
Example C47_witness : exists us, hash_to_field_fp sha256 Debug rom_bls381_64 (text "abc") 2 (text "QUUX-V01-CS02-with-BLS12381G1_XMD:SHA-256_SSWU_RO_") = Some (Ok us) /\ length us = 2%nat
  /\ (exists x, fp_redc rom_bls381_64 (nth 0 us (fp_new rom_bls381_64)) = Some x /\ bval (r_cfg rom_bls381_64) x = 0x0d921c33f2bad966478a03ca35d05719bdf92d347557ea166e5bba579eea9b83e9afa5c088573c2281410369fbd32951).
Proof. eexists. split; [vm_compute; reflexivity|]. split; [reflexivity|]. eexists. split; [vm_compute; reflexivity|vm_compute; reflexivity]. Qed.
Example C47_room : hash_room Debug SHA256 (Z.of_nat (Sha2Spec.B SHA256) + Z.of_nat (length (text "abc")) + 259).
Proof. right. vm_compute. reflexivity. Qed.
