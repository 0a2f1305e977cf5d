(** ECIES. *)
From Verif Require Import Base.Word Base.Arr Model.Big Model.Roms Model.Fp Model.Ecp Model.Aes Model.Sha2 Model.Rand Model.Ecdh Model.EccProto
  Spec.BigSpec Spec.RomSpec Spec.FpSpec Spec.CurveSpec Spec.EcpSpec Spec.Bytes Spec.Sha2Spec Spec.AesSpec Spec.GcmSpec Spec.KdfSpec Spec.ProtoSpec
  Proof.BigBytes Proof.EcpCodec3 Proof.RandProof Proof.Sha2Block Proof.Sha2Stream Proof.Sha2Mac Proof.EcdhSym Proof.EcdhPbkdf Proof.EcdhCbc Proof.GcmBase Proof.EcpProto.

Lemma ncomp_ok t1 t2 n : length t1 = n -> (n <= length t2)%nat -> exists b, ncomp t1 t2 n = Some b /\ (b = true <-> t1 = firstn n t2).
Proof.
  intros L1 L2. unfold ncomp. destruct (Nat.leb_spec n (length t1)); [|lia]. destruct (Nat.leb_spec n (length t2)); [|lia]. cbn [andb]. eexists. split; [reflexivity|]. rewrite Z.eqb_eq.
  assert (G : forall l a, fold_left (fun r i => Z.lor r (Z.lxor (at_ t1 i) (at_ t2 i))) l a = 0 <-> a = 0 /\ forall i, In i l -> at_ t1 i = at_ t2 i).
  { induction l as [|i l IH]; intros a; cbn [fold_left]; [split; [intros X; split; [exact X|intros ? []]|tauto]|]. rewrite IH, Z.lor_eq_0_iff, Z.lxor_eq_0_iff. cbn [In]. split.
    - intros [[A1 A2] A3]. split; [exact A1|]. intros j [<-|J]; auto.
    - intros [A1 A2]. auto. }
  rewrite G. split.
  - intros [_ H1]. apply (nth_ext _ _ 0 0); [rewrite firstn_length; lia|]. intros i Hi. specialize (H1 i). unfold at_ in H1. rewrite H1 by (apply in_seq; lia).
    rewrite <- (firstn_skipn n t2) at 1. apply app_nth1. rewrite firstn_length. lia.
  - intros E. split; [reflexivity|]. intros i Hi. apply in_seq in Hi. unfold at_. rewrite E. rewrite <- (firstn_skipn n t2) at 2. symmetry. apply app_nth1. rewrite firstn_length. lia.
Qed.
Lemma len8 m : 0 <= m -> inttobytes m (repeat 0 8) = i2osp m 8.
Proof.
  intros H. unfold inttobytes. rewrite repeat_length. rewrite (int_loop_ok 8 m 0); [apply app_nil_r|lia|reflexivity|reflexivity].
Qed.

Section Ecies.
Variable r : rom.
Variable bd : build.
Notation c := (r_cfg r).
Notation MB := (mbytes r).
Variables (aesk sha : nat) (Q : sha_par).
Hypothesis HA : In aesk [16; 24; 32]%nat.
Hypothesis VT : In (sha, Q) sha_types.

Definition small n : Prop := room Q bd n.
Lemma small_ok n : (n <= 1000)%nat -> small n.
Proof.
  intros H. unfold small, room, fits. destruct bd; [|exact I].
  destruct VT as [X|[X|[X|[]]]]; inversion X; subst; [change (wbytes SHA256) with 4%nat; change (W SHA256) with 32|change (wbytes SHA384) with 8%nat; change (W SHA384) with 64|change (wbytes SHA512) with 8%nat; change (W SHA512) with 64]; lia.
Qed.
Lemma KDF2_len z p1 : length (KDF2 Q z p1 (2 * aesk)) = (2 * aesk)%nat /\ bytes (KDF2 Q z p1 (2 * aesk)).
Proof.
  assert (FM : forall l, length (flat_map (fun i => SHA2 Q (z ++ i2osp (Z.of_nat i) 4 ++ p1)) l) = (length l * sha)%nat /\ bytes (flat_map (fun i => SHA2 Q (z ++ i2osp (Z.of_nat i) 4 ++ p1)) l)).
  { induction l as [|i l [IH1 IH2]]; cbn [flat_map length]; [split; [reflexivity|constructor]|]. split; [rewrite app_length, IH1, (SHA_len sha Q VT); lia|]. apply Forall_app. split; [apply SHA2_bytes|exact IH2]. }
  unfold KDF2. rewrite (sha_out sha Q VT). destruct (FM (seq 1 (blocks_for sha (2 * aesk)))) as [L Bs]. rewrite seq_length in L. split; [|apply bytes_firstn; exact Bs]. rewrite firstn_length, L.
  pose proof (blocks_bounds sha Q VT (2 * aesk)) as [B1 B2]. lia.
Qed.
Lemma keys_ok p1 v z : bytes v -> (2 * MB + 1 <= length v)%nat -> bytes z -> bytes p1 -> room Q bd (2 * MB + 1 + length z + 4 + length p1) ->
  ecies_keys r bd aesk sha p1 v z = Some (KDF2 Q (firstn (2 * MB + 1) v ++ z) p1 (2 * aesk)).
Proof.
  intros Bv Lv Bz Bp F. unfold ecies_keys. change (Z.to_nat (MODBYTES c)) with MB. destruct (Nat.ltb_spec (length v) (2 * MB + 1)); [lia|]. unfold kdf2. pose proof (sha_rng sha Q VT). destruct (Nat.eqb_spec sha 0); [lia|].
  rewrite (kdf_ok sha Q VT bd _ (Some p1)); cbn [opt_bytes]; [| |exact Bp| |rewrite repeat_length; lia].
  - rewrite skipn_all2, app_nil_r by (rewrite repeat_length; lia). unfold KDF2. rewrite (sha_out sha Q VT). do 2 f_equal.
    rewrite !flat_map_concat_map. f_equal. apply map_ext_in. intros i Hi. apply in_seq in Hi. destruct i; [lia|reflexivity].
  - apply Forall_app. split; [apply bytes_firstn; exact Bv|exact Bz].
  - rewrite app_length, firstn_length_le by lia. exact F.
Qed.
Lemma aesk_ok k : length k = aesk -> In (length k / 4)%nat [4%nat; 6%nat; 8%nat] /\ eff_key k = k.
Proof.
  intros L. destruct HA as [E|[E|[E|[]]]]; rewrite <- E in L; (split; [rewrite L; cbn; auto|unfold eff_key; rewrite L; apply firstn_all2; cbn; lia]).
Qed.
Lemma k12 z p1 : let K := KDF2 Q z p1 (2 * aesk) in length (firstn aesk K) = aesk /\ bytes (firstn aesk K) /\ length (skipn aesk K) = aesk /\ bytes (skipn aesk K).
Proof.
  intros K. destruct (KDF2_len z p1) as [L Bs]. fold K in L, Bs. split; [rewrite firstn_length; lia|]. split; [apply bytes_firstn; exact Bs|]. split; [rewrite skipn_length; lia|].
  unfold bytes in *. rewrite Forall_forall in *. intros x Hx. apply Bs. rewrite <- (firstn_skipn aesk K). apply in_or_app. auto.
Qed.
Lemma maced_ok cc p2 : ecies_maced cc p2 = cc ++ p2 ++ i2osp (Z.of_nat (length p2)) 8.
Proof. unfold ecies_maced. rewrite len8 by lia. reflexivity. Qed.
Lemma tag_len k2 cc p2 : length (ecies_tag Q k2 cc p2) = sha.
Proof. apply (HM_len sha Q VT). Qed.
Lemma hmac_k k2 cc p2 olen tag : length k2 = aesk -> bytes k2 -> bytes cc -> bytes p2 -> room Q bd (B Q + 4 + (length cc + length p2 + 8)) -> (4 <= olen)%nat -> (olen <= length tag)%nat ->
  hmac bd sha (ecies_maced cc p2) k2 olen tag = Some (true, fit_to olen (ecies_tag Q k2 cc p2) ++ skipn olen tag).
Proof.
  intros Lk Bk Bc Bp F Ho L. rewrite maced_ok. pose proof (B_rng sha Q VT) as BR. pose proof (sha_rng sha Q VT) as SR.
  rewrite (hmac_fit sha Q VT); [| |exact Bk|exact Ho|apply small_ok; destruct HA as [E|[E|[E|[]]]]; lia| |apply small_ok; lia].
  - fold (ecies_tag Q k2 cc p2). rewrite put0 by (rewrite fit_length; destruct (Nat.eqb_spec olen 0); lia). cbn [bind]. rewrite fit_length. destruct (Nat.eqb_spec olen 0); [lia|]. reflexivity.
  - apply Forall_app. split; [exact Bc|]. apply Forall_app. split; [exact Bp|]. apply i2osp_bytes.
  - rewrite !app_length, i2osp_length. rewrite Nat.add_assoc in F. eapply room_le; [|exact F]. lia.
Qed.
Lemma fit_le olen h : (0 < olen <= length h)%nat -> fit_to olen h = firstn olen h.
Proof. intros H. unfold fit_to. destruct (Nat.eqb_spec olen 0); [lia|]. destruct (Nat.leb_spec olen (length h)); [reflexivity|lia]. Qed.

(** decryption, once the shared secret z is known *)
Theorem dec_ok p1 p2 v cc t u z : bytes p1 -> bytes p2 -> bytes v -> (2 * MB + 1 <= length v)%nat -> bytes cc -> (4 <= length t <= 32)%nat -> bytes z -> length z = MB ->
  room Q bd (3 * MB + 5 + length p1) -> room Q bd (B Q + 4 + (length cc + length p2 + 8)) -> ecpsvdp_dh r u v (repeat 0 MB) = Some (0, z) ->
  let v0 := firstn (2 * MB + 1) v in
  exists res, ecies_decrypt r bd aesk sha p1 p2 v cc t u = Some res /\
    forall m, res = Some m <-> cc <> [] /\ (length cc mod 16 = 0)%nat /\ padded_form m (CBC0_dec (ecies_k1 Q aesk v0 z p1) cc) /\ t = firstn (length t) (ecies_tag Q (ecies_k2 Q aesk v0 z p1) cc p2).
Proof.
  intros Bp1 Bp2 Bv Lv Bc Lt Bz Lz F1 F2 DH v0. unfold ecies_decrypt. rewrite put0 by (rewrite repeat_length; lia). cbn [bind]. change (Z.to_nat (MODBYTES c)) with MB. rewrite DH. cbn [bind fst snd]. change (negb (0 =? 0)) with false. cbv iota.
  rewrite (keys_ok p1 v z Bv Lv Bz Bp1) by (eapply room_le; [|exact F1]; lia). cbn [bind]. fold v0. destruct (k12 (v0 ++ z) p1) as [K1 [K2 [K3 K4]]]. fold (ecies_k1 Q aesk v0 z p1) in *. fold (ecies_k2 Q aesk v0 z p1) in *.
  destruct (aesk_ok _ K1) as [A1 A2]. destruct (cbc_decrypt_ok bd _ A1 K2 cc Bc) as [res [R1 R2]]. rewrite A2 in R2. rewrite R1. cbn [bind].
  destruct res as [m|].
  - rewrite (hmac_k _ cc p2 (length t) _ K3 K4 Bc Bp2 F2) by (try rewrite app_length, skipn_length, repeat_length; lia). cbn [bind snd].
    pose proof (sha_rng sha Q VT) as SR. pose proof (tag_len (ecies_k2 Q aesk v0 z p1) cc p2) as TL. rewrite fit_le by lia.
    destruct (ncomp_ok t (firstn (length t) (ecies_tag Q (ecies_k2 Q aesk v0 z p1) cc p2) ++ skipn (length t) (t ++ skipn (length t) (repeat 0 32))) (length t) eq_refl) as [b [N1 N2]].
    { rewrite app_length, firstn_length. lia. }
    rewrite N1. cbn [bind]. rewrite firstn_app, firstn_length, firstn_firstn, Nat.min_id in N2. rewrite (Nat.min_l (length t)), Nat.sub_diag in N2 by lia. cbn [firstn] in N2. rewrite app_nil_r in N2.
    eexists. split; [reflexivity|]. intros m'. specialize (R2 m'). destruct b.
    + rewrite R2. pose proof (proj1 N2 eq_refl). tauto.
    + split; [discriminate|]. intros [_ [_ [_ X]]]. apply N2 in X. discriminate X.
  - exists None. split; [reflexivity|]. intros m. specialize (R2 m). split; [discriminate|]. intros [X1 [X2 [X3 _]]]. apply R2. auto.
Qed.
(** a failed key agreement *)
Theorem dec_fail p1 p2 v cc t u res z : (length t <= 32)%nat -> ecpsvdp_dh r u v (repeat 0 MB) = Some (res, z) -> res <> 0 -> ecies_decrypt r bd aesk sha p1 p2 v cc t u = Some None.
Proof.
  intros Lt DH N. unfold ecies_decrypt. rewrite put0 by (rewrite repeat_length; lia). cbn [bind]. change (Z.to_nat (MODBYTES c)) with MB. rewrite DH. cbn [bind fst snd]. destruct (Z.eqb_spec res 0); [contradiction|]. reflexivity.
Qed.
(** a tag of fewer than 4 bytes is never looked at *)
Theorem dec_short p1 p2 v cc t u z m : bytes p1 -> bytes v -> (2 * MB + 1 <= length v)%nat -> bytes cc -> (length t < 4)%nat -> bytes z -> length z = MB ->
  room Q bd (3 * MB + 5 + length p1) -> ecpsvdp_dh r u v (repeat 0 MB) = Some (0, z) ->
  let v0 := firstn (2 * MB + 1) v in
  cc <> [] -> (length cc mod 16 = 0)%nat -> padded_form m (CBC0_dec (ecies_k1 Q aesk v0 z p1) cc) -> ecies_decrypt r bd aesk sha p1 p2 v cc t u = Some (Some m).
Proof.
  intros Bp1 Bv Lv Bc Lt Bz Lz F1 DH v0 C1 C2 C3. unfold ecies_decrypt. rewrite put0 by (rewrite repeat_length; lia). cbn [bind]. change (Z.to_nat (MODBYTES c)) with MB. rewrite DH. cbn [bind fst snd]. change (negb (0 =? 0)) with false. cbv iota.
  rewrite (keys_ok p1 v z Bv Lv Bz Bp1) by (eapply room_le; [|exact F1]; lia). cbn [bind]. fold v0. destruct (k12 (v0 ++ z) p1) as [K1 [K2 [K3 K4]]]. fold (ecies_k1 Q aesk v0 z p1) in *. fold (ecies_k2 Q aesk v0 z p1) in *.
  destruct (aesk_ok _ K1) as [A1 A2]. destruct (cbc_decrypt_ok bd _ A1 K2 cc Bc) as [res [R1 R2]]. rewrite A2 in R2. rewrite R1. cbn [bind]. rewrite (proj2 (R2 m)) by auto.
  unfold hmac. destruct (Nat.ltb_spec (length t) 4); [|lia]. cbn [bind snd].
  destruct (ncomp_ok t (t ++ skipn (length t) (repeat 0 32)) (length t) eq_refl) as [b [N1 N2]]; [rewrite app_length; lia|]. rewrite N1. cbn [bind]. rewrite (proj2 N2); [reflexivity|]. rewrite firstn_app_exact. reflexivity.
Qed.
(** the ciphertext of a message *)
Lemma enc_bytes x y : bytes (enc_xy r x y).
Proof. unfold enc_xy. apply Forall_cons; [unfold is_byte; lia|]. apply Forall_app; split; apply i2osp_bytes. Qed.
Lemma box_ok p1 v0 z m : bytes m -> let cc := CBC0_enc (ecies_k1 Q aesk v0 z p1) (pkcs7 m) in
  bytes cc /\ cc <> [] /\ (length cc mod 16 = 0)%nat /\ (length cc <= length m + 16)%nat /\ padded_form m (CBC0_dec (ecies_k1 Q aesk v0 z p1) cc).
Proof.
  intros Bm cc. destruct (k12 (v0 ++ z) p1) as [K1 [K2 [K3 K4]]]. fold (ecies_k1 Q aesk v0 z p1) in *. destruct (aesk_ok _ K1) as [A1 A2].
  destruct (eff_key_ok _ A1 K2) as [E1 E2]. rewrite A2 in E1, E2. destruct (pkcs7_length m) as [PM PL]. destruct (CBC0_inverse _ E1 E2 (pkcs7 m) PM (pkcs7_bytes m Bm)) as [L [CB INV]]. fold cc in L, CB, INV.
  assert (LC : (length cc <= length m + 16)%nat). { rewrite L. unfold pkcs7. rewrite app_length, repeat_length. pose proof (Nat.mod_upper_bound (length m) 16 ltac:(lia)). lia. }
  split; [exact CB|]. split; [intros X; rewrite X in L; cbn [length] in L; lia|]. split; [rewrite L; exact PM|]. split; [exact LC|]. rewrite INV. apply pkcs7_padded.
Qed.
(** encryption, once the ephemeral key and the shared secret are known *)
Theorem enc_ok p1 p2 rng rng' w m v t u v' z : bytes p1 -> bytes p2 -> bytes m -> bytes v' -> (2 * MB + 1 <= length v')%nat -> (4 <= length t <= sha)%nat -> bytes z -> length z = MB ->
  room Q bd (3 * MB + 5 + length p1) -> room Q bd (B Q + 4 + (length m + 16 + length p2 + 8)) ->
  key_pair_generate r bd (Some rng) (repeat 0 MB) v = Some (0, u, v', rng') -> ecpsvdp_dh r u w (repeat 0 MB) = Some (0, z) ->
  let v0 := firstn (2 * MB + 1) v' in let cc := CBC0_enc (ecies_k1 Q aesk v0 z p1) (pkcs7 m) in
  ecies_encrypt r bd aesk sha p1 p2 rng w m v t = Some (Some cc, v', firstn (length t) (ecies_tag Q (ecies_k2 Q aesk v0 z p1) cc p2), rng') /\
  bytes cc /\ cc <> [] /\ (length cc mod 16 = 0)%nat /\ (length cc <= length m + 16)%nat /\ padded_form m (CBC0_dec (ecies_k1 Q aesk v0 z p1) cc).
Proof.
  intros Bp1 Bp2 Bm Bv Lv Lt Bz Lz F1 F2 KG DH v0 cc. destruct (k12 (v0 ++ z) p1) as [K1 [K2 [K3 K4]]]. fold (ecies_k1 Q aesk v0 z p1) in *. fold (ecies_k2 Q aesk v0 z p1) in *. destruct (aesk_ok _ K1) as [A1 A2].
  destruct (eff_key_ok _ A1 K2) as [E1 E2]. rewrite A2 in E1, E2. destruct (pkcs7_length m) as [PM PL]. destruct (CBC0_inverse _ E1 E2 (pkcs7 m) PM (pkcs7_bytes m Bm)) as [L [CB INV]]. fold cc in L, CB, INV.
  assert (LC : (length cc <= length m + 16)%nat). { rewrite L. unfold pkcs7. rewrite app_length, repeat_length. pose proof (Nat.mod_upper_bound (length m) 16 ltac:(lia)). lia. }
  split; [|split; [exact CB|]; split; [intros X; rewrite X in L; cbn [length] in L; lia|]; split; [rewrite L; exact PM|]; split; [exact LC|]; rewrite INV; apply pkcs7_padded].
  unfold ecies_encrypt. change (Z.to_nat (MODBYTES c)) with MB. rewrite KG. cbn [bind]. rewrite DH. cbn [bind fst snd]. change (negb (0 =? 0)) with false. cbv iota.
  rewrite (keys_ok p1 v' z Bv Lv Bz Bp1) by (eapply room_le; [|exact F1]; lia). cbn [bind]. fold v0. fold (ecies_k1 Q aesk v0 z p1) (ecies_k2 Q aesk v0 z p1).
  rewrite (cbc_encrypt_ok bd _ A1 K2 m Bm). cbn [bind]. rewrite A2. fold cc.
  rewrite (hmac_k _ cc p2 (length t) t K3 K4 CB Bp2) by (try (eapply room_le; [|exact F2]); lia). cbn [bind snd]. pose proof (tag_len (ecies_k2 Q aesk v0 z p1) cc p2) as TL. rewrite fit_le by lia.
  rewrite skipn_all, app_nil_r. reflexivity.
Qed.
End Ecies.
