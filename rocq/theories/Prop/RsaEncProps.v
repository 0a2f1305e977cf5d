(** C39, C40: RSA message encodings.  [rfs] is the modulus length in bytes (RFS = 256, 384 or 512 in the shipped roms). *)
From Verif Require Import Base.Word Base.Arr Model.Sha2 Model.Rand Model.Ecdh Model.Rsa Spec.Bytes Spec.Sha2Spec Spec.KdfSpec Spec.RsaSpec
  Proof.Sha2Block Proof.Sha2Stream Proof.Sha2Mac Proof.GcmBase Proof.RandProof Proof.EcdhSym Proof.RsaEnc.

Definition length_ok (bd : build) (P : sha_par) (n : nat) : Prop := bd = Release \/ 8 * (Z.of_nat n + 4 * W P) < 2 ^ W P.
Lemma length_room sha bd P n : In (sha, P) sha_types -> length_ok bd P n -> room P bd n.
Proof.
  intros V H. destruct (hash_C sha P V) as [C [_ M]]. pose proof (Wwb C P M) as E. unfold room, fits. destruct H as [->|H]; [exact I|]. destruct bd; [|exact I]. lia.
Qed.
(** a usable generator: every generator obtained from new, seed, clean and getbyte is one (C33_never_panics) *)
Definition usable_rng (r : rnd) : Prop := (pool_ptr r < 32)%nat /\ length (pool r) = 32%nat /\ bytes (pool r).
Definition label (p : option (list Z)) : list Z := match p with Some x => x | None => [] end.
(** the mask generation of the code: MGF1 of the seed padded with zeros to 64 bytes *)
Definition padded_mask (P : sha_par) (s : list Z) (n : nat) : list Z := MGF1 P (s ++ repeat 0 (64 - length s)) n.
Definition sizes_ok (sha rfs : nat) : Prop := (2 * sha + 2 <= rfs)%nat.

(** encoding: a message that fits is encoded with the next sha bytes of the generator as seed; a longer one is refused and nothing is touched *)
Theorem C39_encode sha P bd rfs m rng p f : In (sha, P) sha_types -> sizes_ok sha rfs -> length_ok bd P (rfs + 70) -> bytes m -> bytes (label p) -> length_ok bd P (length (label p) + 4) ->
  usable_rng rng -> (rfs <= length f)%nat -> (length m <= OAEP_capacity P rfs)%nat ->
  exists seed rng', getbytes bd sha rng = Some (seed, rng') /\ bytes seed /\ length seed = outlen P /\
    oaep_encode bd rfs sha m rng p f = Some (true, OAEP (padded_mask P) P rfs (label p) seed m ++ repeat 0 (length f - rfs), rng').
Proof.
  intros V S F Hm Hp Fp U L C. destruct (getbytes_sane bd sha rng U) as [sd [rng' [G [Bs [Ls _]]]]]. exists sd, rng'. split; [exact G|]. split; [exact Bs|]. split; [rewrite (sha_out sha P V); exact Ls|].
  apply (oaep_encode_ok sha P bd V rfs S); try assumption; apply (length_room sha); assumption.
Qed.
Theorem C39_encode_refuses_long sha P bd rfs m rng p f : In (sha, P) sha_types -> sizes_ok sha rfs -> (OAEP_capacity P rfs < length m)%nat ->
  oaep_encode bd rfs sha m rng p f = Some (false, f, rng).
Proof. intros V S C. apply (oaep_encode_long sha P bd V rfs S); assumption. Qed.
(** decoding: it never panics on a full-length input, and it answers a non-empty m exactly when the first rfs bytes are an encoding of m, under
    the same label, for some seed.  So a wrong leading byte, label, seed mask, or separator all give length 0. *)
Theorem C39_decode sha P bd rfs p f : In (sha, P) sha_types -> sizes_ok sha rfs -> length_ok bd P (rfs + 70) -> bytes f -> (rfs <= length f)%nat -> bytes (label p) -> length_ok bd P (length (label p) + 4) ->
  exists n f', oaep_decode bd rfs sha p f = Some (n, f') /\ length f' = length f /\ (n <= OAEP_capacity P rfs)%nat /\
    forall m, m <> [] -> (n = length m /\ firstn n f' = m <-> OAEP_encodes (padded_mask P) P rfs (label p) (firstn rfs f) m).
Proof.
  intros V S F BF L Hp Fp. apply (oaep_decode_ok sha P bd V rfs S); try assumption; apply (length_room sha); assumption.
Qed.
Theorem C39_round_trip sha P bd bd' rfs m rng p f : In (sha, P) sha_types -> sizes_ok sha rfs -> length_ok bd P (rfs + 70) -> length_ok bd' P (rfs + 70) ->
  bytes m -> bytes (label p) -> length_ok bd P (length (label p) + 4) -> length_ok bd' P (length (label p) + 4) ->
  usable_rng rng -> (rfs <= length f)%nat -> (length m <= OAEP_capacity P rfs)%nat -> m <> [] ->
  exists e rng' f', oaep_encode bd rfs sha m rng p f = Some (true, e, rng') /\ length e = length f /\ oaep_decode bd' rfs sha p e = Some (length m, f') /\ firstn (length m) f' = m.
Proof.
  intros V S F F' Hm Hp Fp Fp' U L C NE. destruct (C39_encode sha P bd rfs m rng p f V S F Hm Hp Fp U L C) as [seed [rng' [_ [Bs [Ls E]]]]].
  set (em := OAEP (padded_mask P) P rfs (label p) seed m) in *. unfold sizes_ok in S. pose proof (DB_length sha P V rfs S (label p) m C) as LD. pose proof (sha_out sha P V) as SO. pose proof (sha_rng sha P V) as SR.
  assert (BD : bytes (OAEP_DB P rfs (label p) m)) by (eapply DB_bytes; eassumption).
  assert (LE : length em = rfs).
  { unfold em, OAEP. cbn [length]. rewrite app_length, !xorl_length, !LD, !SO. unfold padded_mask. rewrite !(MGF1_length sha P V). lia. }
  assert (BE : bytes em).
  { unfold em, OAEP. constructor; [unfold is_byte; lia|]. assert (BX : bytes (xorl (OAEP_DB P rfs (label p) m) (padded_mask P seed (rfs - outlen P - 1)))) by (apply xorl_bytes; [exact BD|apply MGF1_bytes]).
    apply Forall_app. split; [|exact BX]. apply xorl_bytes; [exact Bs|apply MGF1_bytes]. }
  set (e := em ++ repeat 0 (length f - rfs)) in *. assert (Le : length e = length f) by (unfold e; rewrite app_length, LE, repeat_length; lia).
  assert (Be : bytes e) by (apply Forall_app; split; [exact BE|apply zeros_bytes]).
  destruct (C39_decode sha P bd' rfs p e V S F' Be ltac:(lia) Hp Fp') as [n [f' [D [_ [_ R]]]]]. exists e, rng', f'. split; [exact E|]. split; [exact Le|].
  assert (Q : OAEP_encodes (padded_mask P) P rfs (label p) (firstn rfs e) m).
  { split; [exact C|]. exists seed. split; [exact Bs|]. split; [exact Ls|]. unfold e. apply firstn_n. exact LE. }
  apply (R m NE) in Q. destruct Q as [Qn Qf]. subst n. split; [exact D|exact Qf].
Qed.
(** with SHA-512 the encoding is the one of RFC 8017 *)
Theorem C39_sha512_is_rfc8017 rfs lab seed m : length seed = 64%nat -> OAEP (padded_mask SHA512) SHA512 rfs lab seed m = RFC8017_OAEP SHA512 rfs lab seed m.
Proof. intros L. unfold RFC8017_OAEP, OAEP, padded_mask. rewrite L. cbn [Nat.sub repeat]. rewrite app_nil_r. reflexivity. Qed.
(** with SHA-256 it is not: other implementations cannot decode it *)
Lemma OAEP_masks (G1 G2 : list Z -> nat -> list Z) sha P k lab s m : In (sha, P) sha_types -> sizes_ok sha k -> (length m <= OAEP_capacity P k)%nat ->
  (forall z n, length (G1 z n) = n) -> (forall z n, length (G2 z n) = n) ->
  OAEP G1 P k lab s m = OAEP G2 P k lab s m -> G1 s (k - outlen P - 1)%nat = G2 s (k - outlen P - 1)%nat.
Proof.
  intros V S C L1 L2 H. unfold OAEP in H. pose proof (DB_length sha P V k S lab m C) as LD. pose proof (sha_out sha P V) as SO. revert H LD.
  generalize (OAEP_DB P k lab m) as D. generalize (fun z n => MGF1_length sha P V z n). generalize (MGF1 P) as M. intros M LM D H LD. apply (f_equal (@tl Z)) in H. cbn [tl] in H.
  set (x := G1 s _) in *. set (y := G2 s _) in *. assert (Lx : length x = length D) by (unfold x; rewrite L1, LD; lia). assert (Ly : length y = length D) by (unfold y; rewrite L2, LD; lia).
  apply (f_equal (skipn (Nat.min (length s) (outlen P)))) in H. rewrite !skipn_n in H by (rewrite xorl_length, LM; reflexivity).
  rewrite (xorl_comm D x), (xorl_comm D y) in H. apply (f_equal (fun z => xorl z D)) in H. rewrite !xorl_invol in H by lia. exact H.
Qed.
Lemma MGF1_hd z : hd 0 (MGF1 SHA256 z 223) = hd 0 (SHA2 SHA256 (z ++ [0; 0; 0; 0])).
Proof.
  unfold MGF1. replace (blocks_for (outlen SHA256) 223) with 7%nat by (vm_compute; reflexivity). cbn [seq flat_map]. replace (i2osp (Z.of_nat 0) 4) with [0; 0; 0; 0] by (vm_compute; reflexivity).
  pose proof (SHA_len 32 SHA256 (or_introl eq_refl) (z ++ [0; 0; 0; 0])) as L. revert L. generalize (SHA2 SHA256 (z ++ [0; 0; 0; 0])). intros [|a l] L; [discriminate L|]. reflexivity.
Qed.
Lemma rfc_eq P : RFC8017_OAEP P = OAEP (MGF1 P) P.
Proof. reflexivity. Qed.
Lemma padded_mask_eq P s n : padded_mask P s n = MGF1 P (s ++ repeat 0 (64 - length s)) n.
Proof. reflexivity. Qed.
Lemma sha256_pad_matters : (hd 0 (SHA2 SHA256 ((repeat 7 32 ++ repeat 0 (64 - length (repeat 7 32))) ++ [0; 0; 0; 0])) =? hd 0 (SHA2 SHA256 (repeat 7 32 ++ [0; 0; 0; 0]))) = false.
Proof. vm_compute. reflexivity. Qed.
Lemma masks_differ s : (hd 0 (SHA2 SHA256 ((s ++ repeat 0 (64 - length s)) ++ [0; 0; 0; 0])) =? hd 0 (SHA2 SHA256 (s ++ [0; 0; 0; 0]))) = false ->
  padded_mask SHA256 s 223 <> MGF1 SHA256 s 223.
Proof. intros E H. rewrite padded_mask_eq in H. apply (f_equal (hd 0)) in H. rewrite !MGF1_hd in H. rewrite H, Z.eqb_refl in E. discriminate E. Qed.
Lemma differ s m : (hd 0 (SHA2 SHA256 ((s ++ repeat 0 (64 - length s)) ++ [0; 0; 0; 0])) =? hd 0 (SHA2 SHA256 (s ++ [0; 0; 0; 0]))) = false ->
  (length m <= OAEP_capacity SHA256 256)%nat -> OAEP (padded_mask SHA256) SHA256 256 [] s m <> RFC8017_OAEP SHA256 256 [] s m.
Proof.
  intros E L H. rewrite rfc_eq in H. apply (OAEP_masks _ _ 32) in H.
  - replace (256 - outlen SHA256 - 1)%nat with 223%nat in H by (vm_compute; reflexivity). exact (masks_differ s E H).
  - left. reflexivity.
  - unfold sizes_ok. lia.
  - exact L.
  - intros z n. apply (MGF1_length 32 SHA256 (or_introl eq_refl)).
  - intros z n. apply (MGF1_length 32 SHA256 (or_introl eq_refl)).
Qed.
Lemma cap256 : (length [1] <= OAEP_capacity SHA256 256)%nat.
Proof. unfold OAEP_capacity. replace (outlen SHA256) with 32%nat by (vm_compute; reflexivity). cbn [length]. lia. Qed.
Theorem C39_sha256_is_rfc8017_refuted : OAEP (padded_mask SHA256) SHA256 256 [] (repeat 7 32) [1] <> RFC8017_OAEP SHA256 256 [] (repeat 7 32) [1].
Proof. exact (differ (repeat 7 32) [1] sha256_pad_matters cap256). Qed.
(** an encoding under one label is accepted under another one only if the two labels have the same digest *)
Theorem C39_label_is_checked sha P rfs lab lab' seed m em m' : In (sha, P) sha_types -> sizes_ok sha rfs -> bytes seed -> bytes m -> length seed = outlen P -> (length m <= OAEP_capacity P rfs)%nat ->
  em = OAEP (padded_mask P) P rfs lab seed m -> OAEP_encodes (padded_mask P) P rfs lab' em m' -> SHA2 P lab = SHA2 P lab' /\ m' = m.
Proof.
  intros V S Bs Bm Ls C E Q. unfold sizes_ok in S. pose proof (sha_out sha P V) as SO. pose proof (sha_rng sha P V) as SR. pose proof (DB_length sha P V rfs S lab m C) as LD.
  assert (LE : length em = rfs).
  { rewrite E. unfold OAEP. cbn [length]. rewrite app_length, !xorl_length, !LD, !SO. unfold padded_mask. rewrite !(MGF1_length sha P V). lia. }
  assert (BE : bytes em).
  { rewrite E. unfold OAEP. constructor; [unfold is_byte; lia|]. assert (BX : bytes (xorl (OAEP_DB P rfs lab m) (padded_mask P seed (rfs - outlen P - 1)))) by (apply xorl_bytes; [eapply DB_bytes; eassumption|apply MGF1_bytes]).
    apply Forall_app. split; [|exact BX]. apply xorl_bytes; [exact Bs|apply MGF1_bytes]. }
  pose proof Q as [C' _]. apply (encodes_iff sha P V rfs S lab' em m' LE BE C') in Q. destruct Q as [_ Q].
  assert (Q2 : OAEP_encodes (coded_mask P) P rfs lab em m) by (split; [exact C|]; exists seed; split; [exact Bs|]; split; [exact Ls|exact E]).
  apply (encodes_iff sha P V rfs S lab em m LE BE C) in Q2. destruct Q2 as [_ Q2].
  assert (Ld : length (ddb sha P rfs em) = (rfs - 1 - sha)%nat) by (rewrite Q2, LD; lia).
  apply (db_form sha P V rfs S lab' _ m' Ld C') in Q. apply (db_form sha P V rfs S lab _ m Ld C) in Q2. destruct Q as [H1 [n1 R1]]. destruct Q2 as [H2 [n2 R2]].
  split; [congruence|]. rewrite R1 in R2. clear - R2. revert n2 R2. induction n1 as [|n1 IH]; intros [|n2] R2; cbn [repeat app] in R2; [congruence|discriminate|discriminate|]. injection R2 as R2. exact (IH _ R2).
Qed.
Example C39_case : sizes_ok 64 256 /\ length_ok Debug SHA512 (256 + 70) /\ OAEP_capacity SHA512 256 = 126%nat /\ usable_rng rnd_new.
Proof.
  split; [unfold sizes_ok; lia|]. split; [right; vm_compute; reflexivity|]. split; [reflexivity|]. split; [cbn; lia|]. split; [reflexivity|]. apply zeros_bytes.
Qed.

(** ** C40 *)
Definition oid_last (sha : nat) : Z := if Nat.eqb sha 32 then 1 else if Nat.eqb sha 48 then 2 else 3.
Theorem C40_pkcs15 sha P bd flen m w : In (sha, P) sha_types -> bytes m -> length_ok bd P (length m + 4) -> (19 + sha + 10 <= flen <= length w)%nat ->
  pkcs15 bd flen sha m w = Some (true, EMSA_PKCS1 P (oid_last sha) flen m ++ repeat 0 (length w - flen)) /\ length (EMSA_PKCS1 P (oid_last sha) flen m) = flen.
Proof.
  intros V Hm F L. split; [apply (pkcs15_ok sha P bd V); try assumption; apply (length_room sha); assumption|].
  unfold EMSA_PKCS1, digest_info. rewrite !app_length, repeat_length, (SHA_len sha P V). replace (length (DER_prefix (oid_last sha) (Z.of_nat (outlen P)))) with 19%nat by reflexivity. cbn [length]. lia.
Qed.
(** it fails only when the modulus is too short, and then touches nothing *)
Theorem C40_too_short bd flen sha m w : (flen < 19 + sha + 10)%nat -> pkcs15 bd flen sha m w = Some (false, w).
Proof. intros H. unfold pkcs15. destruct (Nat.ltb_spec flen (19 + sha + 10)); [reflexivity|lia]. Qed.
(** two messages have the same encoding only if they have the same digest *)
Theorem C40_binds_digest P o flen m m' : EMSA_PKCS1 P o flen m = EMSA_PKCS1 P o flen m' -> length (SHA2 P m) = length (SHA2 P m') -> SHA2 P m = SHA2 P m'.
Proof.
  unfold EMSA_PKCS1, digest_info. rewrite !app_length. intros H L. rewrite L in H. apply app_inv_head in H. apply app_inv_head in H. apply app_inv_head in H. apply app_inv_head in H. exact H.
Qed.
Example C40_case : exists w, pkcs15 Debug 256 32 [1; 2; 3] (repeat 9 256) = Some (true, w) /\ firstn 3 w = [0; 1; 255] /\ length w = 256%nat.
Proof.
  destruct (C40_pkcs15 32 SHA256 Debug 256 [1; 2; 3] (repeat 9 256)) as [E L]; [left; reflexivity|repeat (apply Forall_cons; [unfold is_byte; lia|]); apply Forall_nil|right; vm_compute; reflexivity|rewrite repeat_length; lia|].
  eexists. split; [exact E|]. split.
  - unfold EMSA_PKCS1, digest_info. rewrite app_length, (SHA_len 32 SHA256 (or_introl eq_refl)). replace (length (DER_prefix (oid_last 32) (Z.of_nat (outlen SHA256)))) with 19%nat by reflexivity.
    replace (256 - (19 + 32) - 3)%nat with (S 201) by reflexivity. cbn [repeat app firstn]. reflexivity.
  - rewrite app_length, L, !repeat_length. reflexivity.
Qed.
(** roms: RFS and FF_BITS/8 of the shipped moduli (MODBYTES * FFLEN): 2048 = 128 * 2, 3072 = 48 * 8, 4096 = 64 * 8 bits *)
Example C40_shipped_sizes : forall sha flen, In sha [32; 48; 64]%nat -> In flen [256; 384; 512]%nat -> (19 + sha + 10 <= flen)%nat /\ sizes_ok sha flen.
Proof. intros sha flen H1 H2. cbn [In] in H1, H2. unfold sizes_ok. repeat (destruct H1 as [<-|H1]; [repeat (destruct H2 as [<-|H2]; [lia|]); contradiction|]). contradiction. Qed.

Print Assumptions C39_encode.
Print Assumptions C39_encode_refuses_long.
Print Assumptions C39_decode.
Print Assumptions C39_round_trip.
Print Assumptions C39_sha512_is_rfc8017.
Print Assumptions C39_sha256_is_rfc8017_refuted.
Print Assumptions C39_label_is_checked.
Print Assumptions C40_pkcs15.
Print Assumptions C40_too_short.
Print Assumptions C40_binds_digest.
