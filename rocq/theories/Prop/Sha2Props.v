(** C30, C31: SHA-2 objects, HMAC, HKDF. *)
From Verif Require Import Base.Word Base.Arr Model.Sha2 Spec.Bytes Spec.Sha2Spec Proof.Sha2Block Proof.Sha2Stream Proof.Sha2Mac.

(** the three shipped hash objects and the standard functions they implement *)
Definition variants : list (sha * sha_par) := [(sha256, SHA256); (sha384, SHA384); (sha512, SHA512)].
Lemma variant_matches C P : In (C, P) variants -> matches C P.
Proof. intros [H|[H|[H|[]]]]; inversion H; subst; [apply m256|apply m384|apply m512]. Qed.
(** Release builds take any length; a debug build panics when the low length counter (W bits) overflows, so there
    the message with its padding (at most two blocks of 2W bytes) must stay below that. *)
Definition length_ok (bd : build) (P : sha_par) (n : nat) : Prop := bd = Release \/ 8 * (Z.of_nat n + 4 * W P) < 2 ^ W P.
Lemma length_fits bd C P n : In (C, P) variants -> length_ok bd P n -> fits P bd (Z.of_nat n + 32 * Z.of_nat (wbytes P)).
Proof.
  intros V H. pose proof (Wwb C P (variant_matches C P V)) as E. destruct H as [->|H]; [exact I|]. destruct bd; [|exact I]. unfold fits. lia.
Qed.

(** new(); process_array(m); hash() *)
Theorem C30_digest_of_message C P bd m : In (C, P) variants -> bytes m -> length_ok bd P (length m) ->
  (s <- process_array C bd (h_new C) m ;; r <- hash C bd s ;; Some (fst r)) = Some (SHA2 P m).
Proof.
  intros V Hm F. pose proof (variant_matches C P V) as HM. pose proof (length_fits bd C P _ V F) as F'.
  destruct (process_array_ok C P HM bd m [] (h_new C) (new_ok C P HM) Hm) as [s [E I]]; [eapply fits_le; [|exact F']; cbn [length]; lia|]. rewrite E. cbn [bind].
  destruct (hash_ok C P HM bd _ s I F') as [s' [E' _]]. rewrite E'. reflexivity.
Qed.
(** every sequence of method calls on one object, in any order and any chunking; each digest is that of the bytes fed since the last
    digest or init *)
Fixpoint short (bd : build) (P : sha_par) (cur : list Z) (ops : list hop) : Prop :=
  match ops with [] => True | o :: t => length_ok bd P (length cur) /\ length_ok bd P (length (absorbed cur o)) /\ short bd P (absorbed cur o) t end.
Theorem C30_any_call_history C P bd ops : In (C, P) variants -> Forall hop_ok ops -> short bd P [] ops ->
  exists s, run_ops C bd (h_new C) ops = Some (digests P [] ops, s).
Proof.
  intros V H F. pose proof (variant_matches C P V) as HM. apply (run_ops_ok C P HM); [apply (new_ok C P HM)|exact H|].
  revert F. generalize (@nil Z) as cur. clear H. induction ops as [|o ops IH]; intros cur F; [exact I|]. cbn [short short_messages] in *.
  destruct F as [F1 [F2 F3]]. split; [apply (length_fits bd C P _ V F1)|]. split; [apply (length_fits bd C P _ V F2)|]. apply IH. exact F3.
Qed.
(** in particular how the bytes are cut into calls does not matter *)
Theorem C30_chunking_is_irrelevant C P bd pieces : In (C, P) variants -> Forall bytes pieces -> length_ok bd P (length (concat pieces)) ->
  exists s, run_ops C bd (h_new C) (map Bytes pieces ++ [Digest]) = Some ([SHA2 P (concat pieces)], s).
Proof.
  intros V H F. assert (G : forall ps cur, digests P cur (map Bytes ps ++ [Digest]) = [SHA2 P (cur ++ concat ps)]).
  { induction ps as [|p ps IH]; intros cur; cbn [map app digests concat absorbed]; [rewrite app_nil_r; reflexivity|]. rewrite IH, <- app_assoc. reflexivity. }
  rewrite <- (app_nil_l (concat pieces)), <- G. apply C30_any_call_history; [exact V| |].
  - apply Forall_app. split; [|repeat constructor]. clear G F. induction H; cbn [map]; constructor; assumption.
  - assert (Q : forall ps cur, length_ok bd P (length (cur ++ concat ps)) -> short bd P cur (map Bytes ps ++ [Digest])).
    { assert (LE : forall a b, (a <= b)%nat -> length_ok bd P b -> length_ok bd P a) by (intros a b L [Q|Q]; [left; exact Q|right; lia]).
      induction ps as [|p ps IH]; intros cur Q; cbn [map app short absorbed concat] in *.
      - rewrite app_nil_r in Q. split; [exact Q|]. split; [|exact I]. apply (LE _ (length cur)); [cbn; lia|exact Q].
      - rewrite !app_length in Q. split; [eapply LE; [|exact Q]; lia|]. split; [eapply LE; [|exact Q]; rewrite app_length; lia|]. apply IH. eapply LE; [|exact Q]. rewrite !app_length. lia. }
    apply Q. exact F.
Qed.
(** the digest has the advertised length and consists of bytes *)
Theorem C30_digest_shape C P m : In (C, P) variants -> length (SHA2 P m) = sOut C /\ bytes (SHA2 P m).
Proof. intros V. pose proof (variant_matches C P V) as HM. split; [rewrite (SHA2_length C P HM); symmetry; apply (mO _ _ HM)|apply SHA2_bytes]. Qed.
(** a debug build of HASH256 panics on the byte number 2^29 (512 MiB), although FIPS 180-4 allows 2^61 - 1 bytes *)
Theorem C30_debug_half_gigabyte_refuted m : bytes m -> Z.of_nat (length m) = 2 ^ 29 - 1 ->
  exists s, process_array sha256 Debug (h_new sha256) m = Some s /\ forall b, process sha256 Debug s b = None.
Proof.
  intros Hm L. destruct (process_array_ok sha256 SHA256 m256 Debug m [] (h_new sha256) (new_ok sha256 SHA256 m256) Hm) as [s [E I]].
  { unfold fits. rewrite L. cbn [length]. vm_compute. reflexivity. }
  exists s. split; [exact E|]. intros b. apply (debug_limit sha256 SHA256 m256 m s b I). rewrite L. vm_compute. reflexivity.
Qed.
Example C30_half_gigabyte_exists : exists m, bytes m /\ Z.of_nat (length m) = 2 ^ 29 - 1.
Proof. exists (repeat 0 (Z.to_nat (2 ^ 29 - 1))). split; [apply zeros_bytes|]. rewrite repeat_length. apply Z2Nat.id. vm_compute. discriminate. Qed.
(** calls on one object: two bytes one at a time, an integer, a digest, a message abandoned by init, then "abc" *)
Example C30_calls : (r <- run_ops sha256 Debug (h_new sha256) [Byte 97; Num (-2); Digest; Bytes [1; 2]; Reset; Byte 97; Bytes [98; 99]; Digest] ;; Some (nth 1 (fst r) []))
  = Some (i2osp 0xba7816bf8f01cfea414140de5dae2223b00361a396177a9cb410ff61f20015ad 32).
Proof. vm_compute. reflexivity. Qed.
Example C30_calls_ok : Forall hop_ok [Byte 97; Num (-2); Digest; Bytes [1; 2]; Reset; Byte 97; Bytes [98; 99]; Digest] /\ short Debug SHA256 [] [Byte 97; Num (-2); Digest; Bytes [1; 2]; Reset; Byte 97; Bytes [98; 99]; Digest].
Proof.
  split; [repeat constructor; unfold hop_ok, is_byte; try lia; repeat constructor; unfold is_byte; lia|].
  cbn [short]. unfold length_ok. cbn [length absorbed app i2osp]. repeat split; right; vm_compute; reflexivity.
Qed.
Print Assumptions C30_digest_of_message.
Print Assumptions C30_any_call_history.
Print Assumptions C30_chunking_is_irrelevant.
Print Assumptions C30_digest_shape.
Print Assumptions C30_debug_half_gigabyte_refuted.

(** ** C31 *)
(** a call that hashes at most n bytes after its pad block *)
Definition mac_ok (bd : build) (P : sha_par) (key : list Z) (n : nat) : Prop :=
  length_ok bd P (length key) /\ length_ok bd P (16 * wbytes P + n) /\ length_ok bd P (16 * wbytes P + outlen P).
Theorem C31_hmac C P bd key text : In (C, P) variants -> bytes key -> bytes text -> mac_ok bd P key (length text) ->
  hmac C bd key text = Some (HMAC P key text).
Proof.
  intros V Hk Ht [F1 [F2 F3]]. pose proof (variant_matches C P V) as HM. apply (hmac_ok C P HM); try assumption.
  - apply (length_fits bd C P _ V F1).
  - eapply fits_le; [|apply (length_fits bd C P _ V F2)]. lia.
  - eapply fits_le; [|apply (length_fits bd C P _ V F3)]. lia.
Qed.
Theorem C31_hkdf_extract C P bd salt ikm : In (C, P) variants -> bytes salt -> bytes ikm -> mac_ok bd P salt (length ikm) ->
  hkdf_extract C bd salt ikm = Some (HKDF_Extract P salt ikm).
Proof. intros. unfold hkdf_extract, HKDF_Extract. apply C31_hmac; assumption. Qed.
Theorem C31_hkdf_extend C P bd prk info l : In (C, P) variants -> bytes prk -> bytes info -> 0 <= l < 256 -> mac_ok bd P prk (outlen P + length info + 1) ->
  hkdf_extend C bd prk info l = Some (HKDF_Expand P prk info (Z.to_nat l)).
Proof.
  intros V Hk Ht Hl [F1 [F2 F3]]. pose proof (variant_matches C P V) as HM. apply (hkdf_extend_ok C P HM); try assumption. split.
  - apply (length_fits bd C P _ V F1).
  - eapply fits_le; [|apply (length_fits bd C P _ V F2)]. lia.
Qed.
(** and the output has exactly the requested length *)
Theorem C31_hkdf_extend_length C P bd prk info l : In (C, P) variants -> bytes prk -> bytes info -> 0 <= l < 256 -> mac_ok bd P prk (outlen P + length info + 1) ->
  exists okm, hkdf_extend C bd prk info l = Some okm /\ Z.of_nat (length okm) = l /\ bytes okm.
Proof.
  intros V Hk Ht Hl F. exists (HKDF_Expand P prk info (Z.to_nat l)). split; [apply C31_hkdf_extend; assumption|]. pose proof (variant_matches C P V) as HM.
  unfold HKDF_Expand. split.
  - rewrite firstn_length, (T_all_len C P HM) by lia. pose proof (mO2 _ _ HM) as O2. set (o := outlen P) in *. set (L := Z.to_nat l).
    assert (L <= (L + o - 1) / o * o)%nat; [|lia].
    pose proof (Nat.div_mod (L + o - 1) o ltac:(lia)). pose proof (Nat.mod_upper_bound (L + o - 1) o ltac:(lia)). rewrite Nat.mul_comm. lia.
  - apply Forall_forall. intros x Hx. assert (G : Forall is_byte (flat_map (T P prk info) (seq 1 ((Z.to_nat l + outlen P - 1) / outlen P)))).
    { generalize (seq 1 ((Z.to_nat l + outlen P - 1) / outlen P)). intros is. induction is as [|i is IH]; [constructor|]. cbn [flat_map]. apply Forall_app. split; [apply T_bytes|exact IH]. }
    rewrite Forall_forall in G. apply G. rewrite <- (firstn_skipn (Z.to_nat l)). apply in_or_app. auto.
Qed.
(** the repository's own vector (hash256.rs test_hmac_simple) and a key longer than a block *)
Example C31_hmac_vector : hmac sha256 Debug [0x0b] [0x0a] = Some (i2osp 0xb1746117c186405d121d52866f48270fdeb2177d67f6922f0a031e0101658624 32).
Proof. vm_compute. reflexivity. Qed.
Example C31_hyps : mac_ok Debug SHA256 (repeat 170 131) (outlen SHA256 + 10 + 1) /\ bytes (repeat 170 131).
Proof. split; [unfold mac_ok, length_ok; rewrite repeat_length; repeat split; right; vm_compute; reflexivity|]. apply Forall_forall. intros x Hx. apply repeat_spec in Hx. subst. unfold is_byte. lia. Qed.
Print Assumptions C31_hmac.
Print Assumptions C31_hkdf_extract.
Print Assumptions C31_hkdf_extend.
Print Assumptions C31_hkdf_extend_length.
