(** C32: SHA-3 and SHAKE. *)
From Verif Require Import Base.Word Base.Arr Model.Sha3 Spec.Bytes Spec.Sha3Spec Proof.Sha3Block Proof.Sha3Stream.

(** new(o) or init(o); process(b) for each byte of m; hash(&mut digest) with a buffer of blen bytes: the bytes written *)
Definition run_hash (bd : build) (o : nat) (m : list Z) (blen : nat) : option (list Z) :=
  t <- new bd (Z.of_nat o) ;; t <- process_all bd t m ;; r <- hash bd t blen ;; Some (fst r).
(** the same with shake(&mut digest, olen) *)
Definition run_shake (bd : build) (o : nat) (m : list Z) (blen olen : nat) : option (list Z) :=
  t <- new bd (Z.of_nat o) ;; t <- process_all bd t m ;; r <- shake bd t blen olen ;; Some (fst r).

(** HASH224 = 28, HASH256 = 32, HASH384 = 48, HASH512 = 64; every digest length below 100 works *)
Theorem C32_hash_is_sha3 bd o m blen : (1 <= o < 100)%nat -> bytes m -> Z.of_nat (length m) + 200 < 2 ^ 64 -> (o <= blen)%nat ->
  run_hash bd o m blen = Some (SHA3 o m).
Proof.
  intros Ho Hm HL Hb. unfold run_hash, new. destruct (init_ok bd o ltac:(lia)) as [t [-> I]]. cbn [bind].
  assert (Hr : (1 <= 200 - 2 * o <= 200)%nat) by lia.
  destruct (process_all_ok _ Hr _ bd m [] t I Hm) as [t2 [-> I2]]; [unfold fits3; cbn [length]; lia|]. cbn [bind app] in *.
  destruct (sponge_ok _ Hr _ bd 0x06 m t2 o blen I2) as [t3 [s3 [E3 [R3 [L3 S3]]]]]; [lia|unfold fits3; lia|lia|].
  unfold hash. change 0x86 with (0x06 + 128). rewrite E3. cbn [bind]. rewrite L3, Nat2Z.id. rewrite S3. reflexivity.
Qed.
(** SHAKE128 = 16, SHAKE256 = 32; any output length *)
Theorem C32_shake bd o m blen olen : (o < 100)%nat -> bytes m -> Z.of_nat (length m) + 200 < 2 ^ 64 -> (0 < olen <= blen)%nat ->
  run_shake bd o m blen olen = Some (SHAKE o m olen).
Proof.
  intros Ho Hm HL Hb. unfold run_shake, new. destruct (init_ok bd o ltac:(lia)) as [t [-> I]]. cbn [bind].
  assert (Hr : (1 <= 200 - 2 * o <= 200)%nat) by lia.
  destruct (process_all_ok _ Hr _ bd m [] t I Hm) as [t2 [-> I2]]; [unfold fits3; cbn [length]; lia|]. cbn [bind app] in *.
  destruct (sponge_ok _ Hr _ bd 0x1f m t2 olen blen I2) as [t3 [s3 [E3 [R3 [L3 S3]]]]]; [lia|unfold fits3; lia|exact Hb|].
  unfold shake. change 0x9f with (0x1f + 128). rewrite E3. cbn [bind]. rewrite S3. reflexivity.
Qed.
(** exactly the requested number of bytes is written *)
Theorem C32_output_length d r m n : (1 <= r <= 200)%nat -> length (SPONGE d r m n) = n.
Proof.
  intros Hr. unfold SPONGE. generalize (fold_left (absorb_block r) (let p := pad_sha3 d r m in cut3 (length p) r p) (repeat 0 25)).
  assert (G : forall f n A, (n < f)%nat -> length (squeeze_out f r n A) = n).
  { intros f. induction f as [|f IH]; intros k A H; [lia|]. cbn [squeeze_out]. rewrite app_length, map_length, seq_length. destruct (Nat.leb_spec k r); [cbn [length]; lia|rewrite IH by lia; lia]. }
  intros A. apply G. lia.
Qed.
(** the permutation itself, on every state *)
Theorem C32_permutation s : length s = 25%nat -> Forall u64 s -> tr (transform s) = keccak_f (tr s).
Proof. intros L F. apply transform_ok. split; assumption. Qed.

(** no digest length of the standards is special-cased, but some lengths are outside the domain:
    hash of length 0 writes a byte (or panics on an empty buffer); 100 and more make every byte panic *)
Theorem C32_zero_length_refuted : (exists b, run_shake Release 16 [] 4 0 = Some [b]) /\ run_shake Release 16 [] 0 0 = None /\ SHAKE 16 [] 0 = [].
Proof. vm_compute. split; [eexists; reflexivity|]. split; reflexivity. Qed.
Theorem C32_long_digest_refuted bd b : (t <- new bd 100 ;; process bd t b) = None.
Proof. destruct bd; reflexivity. Qed.
(** unlike the SHA-2 objects, hash() does not reset: a second digest is not that of the empty message *)
Theorem C32_no_reset_refuted : match (t <- new Release 32 ;; r <- hash Release t 32 ;; hash Release (snd r) 32) with Some (d, _) => d <> SHA3 32 [] | None => False end.
Proof. vm_compute. discriminate. Qed.

Example C32_vector : run_hash Debug 32 [97; 98; 99] 100 = Some (i2osp 0x3a985da74fe225b2045c172d6bd390bd855f086e3e9d525b46bfe24511431532 32).
Proof. rewrite C32_hash_is_sha3; [rewrite sha3_256_abc; reflexivity|lia|repeat constructor; unfold is_byte; lia|vm_compute; reflexivity|lia]. Qed.
Print Assumptions C32_hash_is_sha3.
Print Assumptions C32_shake.
Print Assumptions C32_output_length.
Print Assumptions C32_permutation.
Print Assumptions C32_zero_length_refuted.
Print Assumptions C32_long_digest_refuted.
Print Assumptions C32_no_reset_refuted.
