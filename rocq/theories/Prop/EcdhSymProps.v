(** C34-C36: hash-based key derivation, MAC and padded AES-CBC of the ECDH module.
    Output slices: the caller passes a slice, the model returns the slice as the call leaves it; [None] is a panic. *)
From Verif Require Import Base.Word Base.Arr Model.Aes Model.Sha2 Model.Ecdh Spec.Bytes Spec.Sha2Spec Spec.AesSpec Spec.GcmSpec Spec.KdfSpec
  Proof.Sha2Block Proof.Sha2Stream Proof.Sha2Mac Proof.EcdhSym Proof.EcdhPbkdf Proof.EcdhCbc Proof.GcmBase.

(** as in Sha2Props: any length in release builds, below the counter limit in debug builds *)
Definition length_ok (bd : build) (P : sha_par) (n : nat) : Prop := bd = Release \/ 8 * (Z.of_nat n + 4 * W P) < 2 ^ W P.
Lemma length_room sha bd P n : In (sha, P) sha_types -> length_ok bd P n -> room P bd n.
Proof.
  intros V H. destruct (hash_C sha P V) as [C [_ M]]. pose proof (Wwb C P M) as E. unfold room, fits. destruct H as [->|H]; [exact I|]. destruct bd; [|exact I]. lia.
Qed.
Lemma length_small bd P sha n : In (sha, P) sha_types -> (n <= 1000)%nat -> length_ok bd P n.
Proof. intros [E|[E|[E|[]]]] H; inversion E; subst; right; apply Z.le_lt_trans with (8 * (1000 + 4 * 64)); try (change (W SHA256) with 32); try (change (W SHA384) with 64); try (change (W SHA512) with 64); try lia. Qed.

(** literals are byte strings *)
Ltac lit_bytes := repeat (apply Forall_cons; [unfold is_byte; lia|]); apply Forall_nil.

(** ** C34 *)
Theorem C34_kdf2 sha P bd z p olen k : In (sha, P) sha_types -> bytes z -> bytes (match p with Some x => x | None => [] end) ->
  length_ok bd P (length z + 4 + length (match p with Some x => x | None => [] end)) -> (olen <= length k)%nat ->
  kdf2 bd sha z p olen k = Some (KDF2 P z (match p with Some x => x | None => [] end) olen ++ skipn olen k).
Proof.
  intros V Hz Hp F L. unfold kdf2. pose proof (sha_rng sha P V). destruct (Nat.eqb_spec sha 0); [lia|].
  rewrite (kdf_ok sha P V) by (try assumption; apply (length_room sha); assumption). unfold KDF2. rewrite (sha_out sha P V). do 3 f_equal.
  rewrite !flat_map_concat_map. f_equal. apply map_ext_in. intros c Hc. apply in_seq in Hc. destruct c; [lia|reflexivity].
Qed.
(** what kdf1 computes: the first block hashes z alone, block i > 0 hashes z and the counter i *)
Theorem C34_kdf1 sha P bd z olen k : In (sha, P) sha_types -> bytes z -> length_ok bd P (length z + 4) -> (olen <= length k)%nat ->
  kdf1 bd sha z olen k = Some (firstn olen (flat_map (fun i => SHA2 P (z ++ match i with O => [] | _ => i2osp (Z.of_nat i) 4 end)) (seq 0 (blocks_for (outlen P) olen))) ++ skipn olen k).
Proof.
  intros V Hz F L. unfold kdf1. pose proof (sha_rng sha P V). destruct (Nat.eqb_spec sha 0); [lia|].
  rewrite (kdf_ok sha P V) by (try assumption; try constructor; cbn [opt_bytes length]; rewrite ?Nat.add_0_r; apply (length_room sha); assumption). rewrite (sha_out sha P V). do 3 f_equal.
  rewrite !flat_map_concat_map. f_equal. apply map_ext_in. intros c Hc. cbn [opt_bytes]. rewrite app_nil_r. reflexivity.
Qed.
(** so it is not the standard KDF1 *)
Theorem C34_kdf1_is_iso_kdf1_refuted : ~ (forall z olen k, bytes z -> (olen <= length k)%nat -> kdf1 Release 32 z olen k = Some (KDF1 SHA256 z olen ++ skipn olen k)).
Proof.
  intros H. specialize (H [1] 1%nat [0] ltac:(lit_bytes) ltac:(cbn; lia)).
  assert (E : (match kdf1 Release 32 [1] 1 [0] with Some [x] => x | _ => 0 end =? match KDF1 SHA256 [1] 1 with [x] => x | _ => 0 end) = false) by (vm_compute; reflexivity).
  rewrite H in E. clear H. revert E. generalize (KDF1 SHA256 [1] 1). intros l. destruct l as [|x [|y l]]; cbn; [discriminate| |discriminate]. rewrite Z.eqb_refl. discriminate.
Qed.
(** hmac: RFC 2104; a tag shorter than the digest is its prefix, a longer one has zeros in front; tags under 4 bytes are refused *)
Theorem C34_hmac sha P bd m k olen tag : In (sha, P) sha_types -> bytes m -> bytes k -> length_ok bd P (length k + 4) -> length_ok bd P (B P + 4 + length m) ->
  (4 <= olen <= length tag)%nat ->
  hmac bd sha m k olen tag =
  Some (true, (if (olen <=? sha)%nat then firstn olen (HMAC P k m) else repeat 0 (olen - sha) ++ HMAC P k m) ++ skipn olen tag).
Proof.
  intros V Hm Hk F1 F2 L. rewrite (hmac_fit sha P V); try assumption; try (apply (length_room sha); assumption); [|lia|].
  2:{ apply (length_room sha); [exact V|]. apply (length_small bd P sha); [exact V|]. pose proof (B_rng sha P V). pose proof (sha_rng sha P V). lia. }
  rewrite put0 by (rewrite fit_length; destruct (Nat.eqb_spec olen 0); lia). cbn [bind]. rewrite fit_length. destruct (Nat.eqb_spec olen 0); [lia|].
  unfold fit_to. destruct (Nat.eqb_spec olen 0); [lia|]. rewrite (HM_len sha P V). reflexivity.
Qed.
Theorem C34_hmac_refuses_short_tags sha bd m k olen tag : (olen < 4)%nat -> hmac bd sha m k olen tag = Some (false, tag).
Proof. intros H. unfold hmac. destruct (Nat.ltb_spec olen 4); [reflexivity|lia]. Qed.
Example C34_case : length_ok Debug SHA256 5 /\ kdf2 Release 32 [7] (Some [9]) 2 [0; 0; 5] = Some (KDF2 SHA256 [7] [9] 2 ++ [5]).
Proof. split; [right; vm_compute; reflexivity|]. apply (C34_kdf2 32 SHA256 Release [7] (Some [9]) 2 [0; 0; 5]); [left; reflexivity|lit_bytes|lit_bytes|left; reflexivity|cbn; lia]. Qed.

(** ** C35 *)
(** RFC 8018 holds for one iteration, or with SHA-512; and when the curve's field size EFS equals the digest size, or the output fits in both.
    Salts up to 32 bytes, outputs up to 64. *)
Theorem C35_pbkdf2 sha P bd efs pass salt rep olen k : In (sha, P) sha_types -> bytes pass -> bytes salt -> length_ok bd P (length pass + 4) -> (length salt <= 32)%nat ->
  (rep <= 1 \/ sha = 64)%nat -> (efs = sha /\ olen <= 64 \/ olen <= sha /\ olen <= efs)%nat -> (olen <= length k)%nat ->
  pbkdf2 bd efs sha pass salt rep olen k = Some (PBKDF2 P pass salt rep olen ++ skipn olen k).
Proof.
  intros V Hp Hs F SL R E L. pose proof (sha_rng sha P V) as SR. pose proof (blocks_bounds sha P V olen) as [B1 B2].
  rewrite (pbkdf2_ok sha P bd pass salt rep olen efs V Hp Hs); [|apply (length_room sha); assumption| |exact SL|lia].
  2:{ apply (length_room sha); [exact V|]. apply (length_small bd P sha); [exact V|]. pose proof (B_rng sha P V). lia. }
  rewrite (Nat.min_l olen 64) by lia. unfold PBKDF2. rewrite (sha_out sha P V). destruct E as [[E _]|[E1 E2]].
  - rewrite (Nat.min_r (_ * efs)) by lia. do 3 f_equal. rewrite !flat_map_concat_map. f_equal. apply map_ext_in. intros i _.
    rewrite (coded_G_efs sha P pass salt rep efs V i E). apply (coded_standard sha P pass salt rep V SL i R).
  - destruct olen as [|o].
    + rewrite Nat.min_0_r. reflexivity.
    + assert (BF : blocks_for sha (S o) = 1%nat) by (unfold blocks_for; symmetry; apply (Nat.div_unique _ sha 1 o); lia). rewrite BF. cbn [seq flat_map]. rewrite !app_nil_r.
      rewrite (Nat.min_r (1 * efs)) by lia. do 2 f_equal. unfold coded_G. rewrite (coded_standard sha P pass salt rep V SL 1 R).
      assert (LF : length (pb_F P pass salt rep 1) = sha) by (rewrite <- (coded_standard sha P pass salt rep V SL 1 R); apply (cX_len sha P pass V)).
      rewrite firstn_map', (firstn_seq' efs 0 (S o)) by lia. rewrite map_at_all by (rewrite app_length; lia). rewrite firstn_app, LF. replace (S o - sha)%nat with 0%nat by lia. cbn [firstn]. rewrite app_nil_r. reflexivity.
Qed.
(** exactly what is computed in all cases (salt up to 32 bytes): each HMAC input after the first is the previous value with zeros up to 64 bytes, block i goes to
    offset i * EFS, and nothing is written past byte 64 *)
Theorem C35_as_coded sha P bd efs pass salt rep olen k : In (sha, P) sha_types -> bytes pass -> bytes salt -> length_ok bd P (length pass + 4) -> (length salt <= 32)%nat ->
  (Nat.min olen 64 <= length k)%nat ->
  pbkdf2 bd efs sha pass salt rep olen k =
  Some (firstn (Nat.min olen 64) (flat_map (coded_G P efs pass salt rep) (seq 1 (blocks_for sha olen))) ++ skipn (Nat.min (blocks_for sha olen * efs) (Nat.min olen 64)) k).
Proof.
  intros V Hp Hs F SL L. apply (pbkdf2_ok sha P bd pass salt rep olen efs V Hp Hs); [apply (length_room sha); assumption| |exact SL|exact L].
  apply (length_room sha); [exact V|]. apply (length_small bd P sha); [exact V|]. pose proof (B_rng sha P V). lia.
Qed.
(** two iterations with SHA-256 (any of the 32-byte curves) do not give RFC 8018 *)
Theorem C35_two_iterations_refuted : pbkdf2 Release 32 32 [1] [2] 2 4 [0; 0; 0; 0] <> Some (PBKDF2 SHA256 [1] [2] 2 4).
Proof.
  assert (G : forall l, hd 0 l =? hd 0 l = true) by (intros; apply Z.eqb_refl).
  assert (E : match pbkdf2 Release 32 32 [1] [2] 2 4 [0; 0; 0; 0] with Some l => hd 0 l | None => 0 end =? hd 0 (PBKDF2 SHA256 [1] [2] 2 4) = false) by (vm_compute; reflexivity).
  intros H. rewrite H, G in E. discriminate E.
Qed.
(** a salt of more than 32 bytes panics *)
Theorem C35_long_salt_refuted bd efs sha pass salt rep olen k : (32 < length salt)%nat -> (0 < olen)%nat -> (0 < sha)%nat -> pbkdf2 bd efs sha pass salt rep olen k = None.
Proof.
  intros SL OL SR. unfold pbkdf2. destruct (Nat.eqb_spec sha 0); [reflexivity|]. assert (C : (0 < cthreshold sha olen)%nat).
  { unfold cthreshold. pose proof (Nat.div_mod olen sha ltac:(lia)). destruct (Nat.eqb_spec (olen mod sha) 0); [|lia]. destruct (olen / sha)%nat; lia. }
  destruct (cthreshold sha olen) as [|d]; [lia|]. cbn [seq pbkdf_blocks]. destruct (Nat.le_gt_cases (length salt) 36).
  - rewrite put0 by (rewrite repeat_length; lia). cbn [bind]. rewrite put_none; [reflexivity|].
    change (repeat 0 4) with (i2osp (Z.of_nat 0) 4). rewrite inttobytes_next, i2osp_length, app_length, skipn_length, repeat_length. lia.
  - rewrite put_none by (rewrite repeat_length; lia). reflexivity.
Qed.
(** at most 64 bytes are produced: the rest of the caller's buffer keeps its contents *)
Theorem C35_long_output_refuted sha P bd pass salt rep olen k : In (sha, P) sha_types -> bytes pass -> bytes salt -> length_ok bd P (length pass + 4) -> (length salt <= 32)%nat ->
  (64 < olen <= length k)%nat -> exists dk, pbkdf2 bd sha sha pass salt rep olen k = Some (dk ++ skipn 64 k) /\ length dk = 64%nat.
Proof.
  intros V Hp Hs F SL L. rewrite (C35_as_coded sha P) by (try assumption; lia). pose proof (blocks_bounds sha P V olen) as [B1 _].
  rewrite (Nat.min_r olen 64) by lia. rewrite (Nat.min_r _ 64) by lia. eexists. split; [reflexivity|]. rewrite firstn_length.
  assert (LG : forall i n, length (flat_map (coded_G P sha pass salt rep) (seq i n)) = (n * sha)%nat).
  { intros i n. revert i. induction n as [|n IH]; intros i; [reflexivity|]. cbn [seq flat_map]. rewrite app_length, IH. unfold coded_G. rewrite map_length, seq_length. reflexivity. }
  rewrite LG. lia.
Qed.
(** on a curve with a field smaller than the digest only EFS bytes of each block come out *)
Theorem C35_small_field_refuted sha P bd efs pass salt rep olen k : In (sha, P) sha_types -> bytes pass -> bytes salt -> length_ok bd P (length pass + 4) -> (length salt <= 32)%nat ->
  (0 < efs < olen)%nat -> (olen <= sha)%nat -> (olen <= length k)%nat -> exists dk, pbkdf2 bd efs sha pass salt rep olen k = Some (dk ++ skipn efs k) /\ length dk = efs.
Proof.
  intros V Hp Hs F SL E O L. pose proof (sha_rng sha P V). rewrite (C35_as_coded sha P) by (try assumption; lia).
  assert (BF : blocks_for sha olen = 1%nat) by (unfold blocks_for; symmetry; apply (Nat.div_unique _ sha 1 (olen - 1)); lia). rewrite BF. rewrite (Nat.min_l olen 64) by lia. rewrite (Nat.min_l (1 * efs)) by lia.
  replace (1 * efs)%nat with efs by lia. eexists. split; [reflexivity|]. cbn [seq flat_map]. rewrite app_nil_r, firstn_length. unfold coded_G. rewrite map_length, seq_length. lia.
Qed.
Example C35_case : pbkdf2 Release 32 32 [112;97;115;115;119;100] [115;97;108;116] 1 8 (repeat 0 9) = Some ([0x55;0xac;0x04;0x6e;0x56;0xe3;0x08;0x9f] ++ [0]).
Proof.
  rewrite (C35_pbkdf2 32 SHA256); [rewrite pbkdf2_vector; reflexivity|left; reflexivity|lit_bytes|lit_bytes|left; reflexivity|cbn; lia|left; lia|left; lia|cbn; lia].
Qed.

(** ** C36: keys of 16-19, 24-27 or 32-35 bytes are used (their first 16, 24 or 32 bytes) *)
Definition usable (k : list Z) : Prop := In (length k / 4)%nat [4%nat; 6%nat; 8%nat] /\ bytes k.
Definition used_part (k : list Z) : list Z := firstn (4 * (length k / 4)) k.
Theorem C36_encrypt bd k m : usable k -> bytes m -> cbc_iv0_encrypt bd k m = Some (CBC0_enc (used_part k) (pkcs7 m)).
Proof. intros [H B] Hm. apply cbc_encrypt_ok; assumption. Qed.
(** decryption never panics, and answers m exactly when the ciphertext is a positive number of blocks that decrypts to m followed by n bytes of value n, 1 <= n <= 16 *)
Theorem C36_decrypt bd k c : usable k -> bytes c -> exists r, cbc_iv0_decrypt bd k c = Some r /\
  forall m, r = Some m <-> (c <> [] /\ (length c mod 16 = 0)%nat /\ padded_form m (CBC0_dec (used_part k) c)).
Proof. intros [H B] Hc. apply cbc_decrypt_ok; assumption. Qed.
Theorem C36_round_trip bd bd' k m : usable k -> bytes m -> exists c, cbc_iv0_encrypt bd k m = Some c /\ cbc_iv0_decrypt bd' k c = Some (Some m)
  /\ length c = (16 * (length m / 16 + 1))%nat.
Proof.
  intros U Hm. rewrite C36_encrypt by assumption. eexists. split; [reflexivity|]. destruct U as [H B]. destruct (eff_key_ok k H B) as [KL KB].
  destruct (pkcs7_length m) as [PM PL]. destruct (CBC0_inverse (used_part k) KL KB (pkcs7 m) PM (pkcs7_bytes m Hm)) as [L [CB INV]].
  destruct (cbc_decrypt_ok bd' k H B _ CB) as [r [E R]]. split.
  - rewrite E. f_equal. apply R. split; [intros Q; rewrite Q in L; cbn [length] in L; lia|]. split; [rewrite L; exact PM|]. change (eff_key k) with (used_part k). rewrite INV. apply pkcs7_padded.
  - rewrite L. unfold pkcs7. rewrite app_length, repeat_length. pose proof (Nat.mod_upper_bound (length m) 16 ltac:(lia)). pose proof (Nat.div_mod (length m) 16 ltac:(lia)). lia.
Qed.
(** everything else is rejected *)
Theorem C36_rejects bd k c : usable k -> bytes c -> (c = [] \/ (length c mod 16 <> 0)%nat \/ (forall m, ~ padded_form m (CBC0_dec (used_part k) c))) -> cbc_iv0_decrypt bd k c = Some None.
Proof.
  intros U Hc H. destruct (C36_decrypt bd k c U Hc) as [r [E R]]. rewrite E. destruct r as [m|]; [|reflexivity]. exfalso. destruct (proj1 (R m) eq_refl) as [A [A2 A3]].
  destruct H as [H|[H|H]]; [contradiction|contradiction|]. exact (H m A3).
Qed.
(** a key of any other length is not refused: the ciphertext does not depend on the key at all *)
Theorem C36_bad_key_length_refuted bd k k' m : ~ In (length k / 4)%nat [4%nat; 6%nat; 8%nat] -> ~ In (length k' / 4)%nat [4%nat; 6%nat; 8%nat] ->
  cbc_iv0_encrypt bd k m = cbc_iv0_encrypt bd k' m /\ cbc_iv0_encrypt bd k m <> None.
Proof.
  assert (G : forall q, ~ In (length q / 4)%nat [4%nat; 6%nat; 8%nat] -> aes_init aes_new CBC (length q) q None = Some (false, aes_new)).
  { intros q H. unfold aes_init. destruct (Nat.eqb_spec (length q / 4) 4); [exfalso; apply H; cbn; auto|]. destruct (Nat.eqb_spec (length q / 4) 6); [exfalso; apply H; cbn; auto|].
    destruct (Nat.eqb_spec (length q / 4) 8); [exfalso; apply H; cbn; auto|]. reflexivity. }
  intros H H'. unfold cbc_iv0_encrypt. rewrite (G k H), (G k' H'). cbn [bind snd]. split; [reflexivity|].
  assert (Q : forall f x, (length x < f)%nat -> cbc_enc_loop f bd aes_new x <> None).
  { induction f as [|f IH]; intros x L; [lia|]. cbn [cbc_enc_loop].
    assert (AE : forall y, aes_encrypt bd aes_new y = Some (0, ecb_encrypt aes_new y, aes_new)) by reflexivity.
    destruct (Nat.leb_spec 16 (length x)); rewrite AE; cbn [bind]; [|discriminate].
    destruct (cbc_enc_loop f bd aes_new (skipn 16 x)) eqn:EQ; [discriminate|]. exfalso. apply (IH (skipn 16 x)); [rewrite skipn_length; lia|exact EQ]. }
  apply Q. lia.
Qed.
Example C36_case : usable (repeat 7 16) /\ exists c, cbc_iv0_encrypt Debug (repeat 7 16) [1; 2; 3] = Some c /\ cbc_iv0_decrypt Debug (repeat 7 16) c = Some (Some [1; 2; 3]) /\ length c = 16%nat.
Proof.
  assert (U : usable (repeat 7 16)) by (split; [left; reflexivity|lit_bytes]). split; [exact U|]. apply (C36_round_trip Debug Debug (repeat 7 16) [1; 2; 3] U). lit_bytes.
Qed.

Print Assumptions C34_kdf2.
Print Assumptions C34_kdf1.
Print Assumptions C34_kdf1_is_iso_kdf1_refuted.
Print Assumptions C34_hmac.
Print Assumptions C34_hmac_refuses_short_tags.
Print Assumptions C35_pbkdf2.
Print Assumptions C35_as_coded.
Print Assumptions C35_two_iterations_refuted.
Print Assumptions C35_long_salt_refuted.
Print Assumptions C35_long_output_refuted.
Print Assumptions C35_small_field_refuted.
Print Assumptions C36_encrypt.
Print Assumptions C36_decrypt.
Print Assumptions C36_round_trip.
Print Assumptions C36_rejects.
Print Assumptions C36_bad_key_length_refuted.
