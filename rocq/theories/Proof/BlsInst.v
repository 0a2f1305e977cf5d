(** bls381: the facts the G1 and key theorems need of the two ROMs, and the secret-key functions. *)
From Verif Require Import Base.Word Base.Arr Model.Big Model.Roms Model.Sha2 Model.Fp Model.Fp2 Model.Ecp Model.HashToCurve Model.Bls
  Spec.Bytes Spec.BigSpec Spec.RomSpec Spec.FpSpec Spec.Sha2Spec Spec.XmdSpec Spec.CurveSpec Spec.EcpSpec Spec.BlsSpec
  Proof.BigVal Proof.BigBytes Proof.BigMod Proof.FpBase Proof.FpSqrt Proof.EcpW Proof.FpCheck Proof.EcpCheck Proof.EcpCodec Proof.EcpCodec3 Proof.CurveFacts Proof.Primes Proof.RomCheck
  Proof.Sha2Stream Proof.Sha2Mac Proof.Sha2Block Proof.H2cProof Proof.BlsRoms Proof.BlsG1.
From Coq Require Import Lia Znumtheory.
From Coq Require String.
Import String.StringSyntax.

Definition bls381_n : Z := 0x73eda753299d7d483339d80809a1d80553bda402fffe5bfeffffffff00000001.
Lemma bls_w r : In r bls_roms -> w_ok r.
Proof. intros [<-|[<-|[]]]; apply w_okb_ok; vm_compute; reflexivity. Qed.
Lemma bls_prime r : In r bls_roms -> prime (pmod r).
Proof. intros H. rewrite (bls_p r H). exact prime_bls381_p. Qed.
Lemma bls_codec r : In r bls_roms -> codec r.
Proof.
  intros H. split; [exact (bls_prime r H)|]. split; [|rewrite (bls_p r H); unfold mbytes; rewrite (bls_mb r H); vm_compute; discriminate].
  apply sqrt_okb_ok; [exact (bls_fp_ok r H)|]. destruct H as [<-|[<-|[]]]; vm_compute; reflexivity.
Qed.
Lemma bls_AB r : In r bls_roms -> cA r = 0 /\ cB r = 4.
Proof. intros [<-|[<-|[]]]; split; vm_compute; reflexivity. Qed.
Lemma bls_no2 r : In r bls_roms -> no_order2 (pmod r) (cA r) (cB r).
Proof. intros H. rewrite (bls_p r H). destruct (bls_AB r H) as [-> ->]. exact no2_bls381. Qed.
Lemma bls_N r : In r bls_roms -> mbytes r = 48%nat. Proof. intros H. unfold mbytes. rewrite (bls_mb r H). reflexivity. Qed.
Lemma bls_bits r : In r bls_roms -> pmod r <= 2 ^ (8 * Z.of_nat (mbytes r) - 3).
Proof. intros H. rewrite (bls_p r H), (bls_N r H). vm_compute. discriminate. Qed.
Lemma bls_order r : In r bls_roms -> big_wf (r_cfg r) (r_ORDER r) /\ bval (r_cfg r) (r_ORDER r) = bls381_n.
Proof.
  assert (G : forall r, checkb r = true -> fp_okb r = true -> (bval (r_cfg r) (r_ORDER r) =? bls381_n) = true -> forallb (fun d => (0 <=? d) && (d <? 2 ^ BASEBITS (r_cfg r))) (r_ORDER r) && (length (r_ORDER r) =? NLEN (r_cfg r))%nat = true -> big_wf (r_cfg r) (r_ORDER r) /\ bval (r_cfg r) (r_ORDER r) = bls381_n).
  { intros x _ _ H1 H2. apply Z.eqb_eq in H1. split; [|exact H1]. apply andb_true_iff in H2. destruct H2 as [H2 H3]. apply Nat.eqb_eq in H3. split; [exact H3|]. rewrite forallb_forall in H2. apply Forall_forall. intros d Hd. specialize (H2 d Hd). apply andb_true_iff in H2. rewrite Z.leb_le, Z.ltb_lt in H2. exact H2. }
  intros [<-|[<-|[]]]; apply G; vm_compute; reflexivity.
Qed.

Section Keys.
Variable r : rom.
Hypothesis HR : In r bls_roms.
Notation c := (r_cfg r).
Let Hf : fp_ok r := bls_fp_ok r HR.
Let Hok : cfg_ok c := ff_ok r (fp_ok_facts r Hf).
Lemma order_comp w : big_wf c w -> (0 <=? comp w (r_ORDER r)) = (bls381_n <=? bval c w).
Proof.
  destruct (bls_order r HR) as [[L2 W2] E]. intros [L W]. rewrite (comp_spec c); [|pose proof (cf_B _ (cfg_ok_facts _ Hok)); lia|apply canon_nrm; exact W|apply canon_nrm; exact W2|congruence].
  change (val (BASEBITS c) (r_ORDER r)) with (bval c (r_ORDER r)). rewrite E. change (val (BASEBITS c) w) with (bval c w). destruct (Z.compare_spec (bval c w) bls381_n) as [Q|Q|Q]; destruct (Z.leb_spec bls381_n (bval c w)); try lia; reflexivity.
Qed.
Lemma sk_from b : bytes b -> length b = 32%nat ->
  exists w, big_wf c w /\ bval c w = os2ip b /\ secret_key_from_bytes r b = Some (if os2ip b <? bls381_n then Ok w else Err InvalidSecretKeyRange).
Proof.
  intros Hb L. unfold secret_key_from_bytes. rewrite L. change (negb (32 =? SECRET_KEY_BYTES)%nat) with false. cbv iota. assert (M : Bls.mb r = 48%nat) by (exact (bls_N r HR)). rewrite M.
  destruct (frb r Hf (repeat 0 (48 - SECRET_KEY_BYTES) ++ b)) as [w [E1 [E2 E3]]].
  - apply Forall_app. split; [apply Forall_forall; intros x Hx; apply repeat_spec in Hx; subst; unfold is_byte; lia|exact Hb].
  - rewrite app_length, repeat_length, L. unfold SECRET_KEY_BYTES. change (Z.to_nat (MODBYTES c)) with (mbytes r) . rewrite (bls_N r HR). reflexivity.
  - assert (E4 : bval c w = os2ip b). { unfold bval. rewrite E3, os2ip_app. change (os2ip (repeat 0 (48 - SECRET_KEY_BYTES))) with 0. lia. }
    exists w. split; [exact E2|]. split; [exact E4|]. rewrite E1. cbn [bind]. rewrite (order_comp w E2), E4. destruct (Z.leb_spec bls381_n (os2ip b)); destruct (Z.ltb_spec (os2ip b) bls381_n); try lia; reflexivity.
Qed.
Lemma bls_N1 : (1 <= mbytes r)%nat. Proof. rewrite (bls_N r HR). lia. Qed.
Lemma i2osp_skip v k m : skipn k (i2osp v (k + m)) = i2osp v m.
Proof.
  induction k as [|k IH]; [reflexivity|]. cbn [Nat.add]. rewrite (i2osp_head r bls_N1). cbn [skipn]. exact IH.
Qed.
Lemma sk_to w : big_wf c w -> secret_key_to_bytes r w = Some (i2osp (bval c w) 32).
Proof.
  intros W. unfold secret_key_to_bytes. change (Bls.mb r) with (mbytes r). rewrite (tob r (bls_w r HR) bls_N1 w W). cbn [bind]. rewrite (bls_N r HR). apply (f_equal Some). exact (i2osp_skip _ 16 32).
Qed.
Definition key_room (bd : build) (a b : nat) : Prop := hash_room bd SHA256 (65 + Z.of_nat a) /\ hash_room bd SHA256 (99 + Z.of_nat b).
Lemma keygen bd ikm info : bytes ikm -> bytes info -> key_room bd (length ikm) (length info) -> key_generate r bd ikm info = Some (i2osp (KeyGen bls381_n ikm info) 32).
Proof.
  intros H1 H2 [R1 R2]. unfold key_generate, KeyGen, hkdf_extract, HKDF_Extract. change (text "BLS-SIG-KEYGEN-SALT-") with KEY_SALT. change (i2osp 0 1) with [0]. change (i2osp 48 2) with [0; KEY_GENERATION_L].
  assert (BS : bytes KEY_SALT) by (apply Forall_forall; intros x Hx; cbn in Hx; unfold is_byte; repeat (destruct Hx as [<-|Hx]; [lia|]); contradiction).
  assert (B1 : bytes (ikm ++ [0])) by (apply Forall_app; split; [exact H1|repeat constructor; unfold is_byte; lia]).
  assert (B2 : bytes (info ++ [0; KEY_GENERATION_L])) by (apply Forall_app; split; [exact H2|unfold KEY_GENERATION_L; repeat constructor; unfold is_byte; lia]).
  assert (RF : forall z n, hash_room bd SHA256 n -> z <= n -> fits SHA256 bd (z + 32 * Z.of_nat (wbytes SHA256))).
  { intros z n R L. destruct R as [->|R]; [exact I|]. destruct bd; [|exact I]. unfold fits. change (W SHA256) with 32 in *. change (Z.of_nat (wbytes SHA256)) with 4. lia. }
  assert (W4 : Z.of_nat (wbytes SHA256) = 4) by reflexivity. assert (O32 : Z.of_nat (outlen SHA256) = 32) by reflexivity.
  rewrite (hmac_ok sha256 SHA256 m256 bd KEY_SALT (ikm ++ [0]) BS B1).
  2:{ apply (RF _ _ R1). change (Z.of_nat (length KEY_SALT)) with 20. lia. }
  2:{ apply (RF _ _ R1). rewrite app_length, W4. cbn [length]. lia. }
  2:{ apply (RF _ _ R2). rewrite W4, O32. lia. }
  cbn [bind]. set (prk := HMAC SHA256 KEY_SALT (ikm ++ [0])). pose proof (HMAC_bytes SHA256 KEY_SALT (ikm ++ [0])) as BP. fold prk in BP. pose proof (HMAC_length sha256 SHA256 m256 KEY_SALT (ikm ++ [0])) as LP. fold prk in LP.
  rewrite (hkdf_extend_ok sha256 SHA256 m256 bd prk (info ++ [0; KEY_GENERATION_L]) KEY_GENERATION_L BP B2); [|unfold KEY_GENERATION_L; lia|].
  2:{ split; apply (RF _ _ R2); rewrite ?LP, ?app_length, ?W4, ?O32; cbn [length]; lia. }
  cbn [bind]. change (Z.to_nat KEY_GENERATION_L) with 48%nat. set (okm := HKDF_Expand SHA256 prk (info ++ [0; KEY_GENERATION_L]) 48).
  assert (BO : bytes okm). { unfold okm, HKDF_Expand. apply Forall_forall. intros x Hx. assert (G : Forall is_byte (flat_map (T SHA256 prk (info ++ [0; KEY_GENERATION_L])) (seq 1 ((48 + outlen SHA256 - 1) / outlen SHA256)))).
    { generalize (seq 1 ((48 + outlen SHA256 - 1) / outlen SHA256)). intros is. induction is as [|i is IH]; [constructor|]. cbn [flat_map]. apply Forall_app. split; [apply T_bytes|exact IH]. }
    rewrite Forall_forall in G. apply G. rewrite <- (firstn_skipn 48). apply in_or_app. left. exact Hx. }
  assert (LO : length okm = 48%nat). { unfold okm, HKDF_Expand. rewrite firstn_length, (T_all_len sha256 SHA256 m256) by lia. reflexivity. }
  destruct (frb r Hf okm BO) as [w [E1 [E2 E3]]]. { rewrite LO. symmetry. exact (bls_N r HR). } rewrite E1. cbn [bind].
  destruct (bls_order r HR) as [WO VO]. destruct (rmod_spec c Hok w (r_ORDER r) E2 WO) as [s [S1 [S2 S3]]].
  { change (val (BASEBITS c) (r_ORDER r)) with (bval c (r_ORDER r)). rewrite VO. reflexivity. }
  rewrite S1. cbn [bind]. rewrite (sk_to s S2). f_equal. f_equal. unfold bval. rewrite S3, E3. change (val (BASEBITS c) (r_ORDER r)) with (bval c (r_ORDER r)). rewrite VO. reflexivity.
Qed.
End Keys.
