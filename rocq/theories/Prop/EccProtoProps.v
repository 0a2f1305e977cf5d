(** C37, C38, C52, C53: ECIES, ECDSA, Diffie-Hellman with its key pairs, and random integers.
    [None] is a panic or an endless loop; an output slice is returned as the call leaves it.  A generator state is [sane] when its pool holds 32 bytes and its pointer is below 32: RandProps shows that of every state the API reaches.
    [ec_group r] (Proof/EcpProto.v) collects what the protocols need of a curve ROM: a prime field without sparse reduction, no point with x = 0 or y = 0, a generator of odd prime order n.
    [pub r k x y] (Proof/EcDh.v): (x, y) is the affine point kG, or (0, 1) when k = 0. *)
From Verif Require Import Base.Word Base.Arr Model.Big Model.Roms Model.Fp Model.Ecp Model.Aes Model.Sha2 Model.Rand Model.Ecdh Model.EccProto
  Spec.BigSpec Spec.RomSpec Spec.FpSpec Spec.CurveSpec Spec.EcpSpec Spec.Bytes Spec.Sha2Spec Spec.AesSpec Spec.GcmSpec Spec.KdfSpec Spec.ProtoSpec
  Proof.BigVal Proof.BigBytes Proof.RomCheck Proof.FpBase Proof.FpOps Proof.FpIv Proof.FieldP Proof.Weier Proof.EcpOps Proof.EcpW Proof.EcpBridge Proof.EcpMul Proof.EcpInst Proof.EcpCodec Proof.EcpCodec3
  Proof.Sha2Block Proof.Sha2Stream Proof.EcdhSym Proof.RandProof Proof.RandNum Proof.EcpProto Proof.Ecdsa Proof.EcdsaTop Proof.EcDh Proof.Ecies Proof.EcGroupInst.
From Coq Require Import Znumtheory.

Definition length_ok (bd : build) (P : sha_par) (n : nat) : Prop := bd = Release \/ 8 * (Z.of_nat n + 4 * W P) < 2 ^ W P.
Lemma length_room sha bd P n : In (sha, P) sha_types -> length_ok bd P n -> room P bd n.
Proof.
  intros V H. destruct (hash_C sha P V) as [C [_ M]]. pose proof (Wwb C P M) as E. unfold room, fits. destruct H as [->|H]; [exact I|]. destruct bd; [|exact I]. lia.
Qed.
Notation curve_times r := (w_times (pmod r) (cA r)).

(** ** C53: random integers *)
(** Big::random and Big::randomnum consume whole bytes of the generator, least significant bit first, and never panic.  randomnum takes twice the bit length of the modulus, so its result is below it *)
Theorem C53_random : forall r bd g, cfg_ok (r_cfg r) -> sane g -> exists m bs g', big_random r bd g = Some (m, g') /\ getbytes bd (bytes_for (8 * mbytes r)) g = Some (bs, g') /\ bytes bs /\
  big_wf (r_cfg r) m /\ bval (r_cfg r) m = bit_int (8 * mbytes r) bs.
Proof. intros r bd g Hc Hs. destruct (random_ok r bd Hc g Hs) as [m [bs [g' [A [B [_ [C [D E]]]]]]]]. exists m, bs, g'. auto. Qed.
Theorem C53_randomnum : forall r bd q g, cfg_ok (r_cfg r) -> big_wf (r_cfg r) q -> 0 < bval (r_cfg r) q -> sane g ->
  let bits := (2 * Z.to_nat (Z.log2 (bval (r_cfg r) q) + 1))%nat in
  exists m bs g', randomnum r bd q g = Some (m, g') /\ getbytes bd (bytes_for bits) g = Some (bs, g') /\ bytes bs /\ big_wf (r_cfg r) m /\
    bval (r_cfg r) m = bit_int bits bs mod bval (r_cfg r) q /\ 0 <= bval (r_cfg r) m < bval (r_cfg r) q.
Proof.
  intros r bd q g Hc Hq Pq Hs bits. destruct (randomnum_ok r bd Hc q g Hq Pq Hs) as [m [bs [g' [A [B [_ [C [D E]]]]]]]]. exists m, bs, g'. split; [exact A|]. split; [exact B|]. split; [exact C|]. split; [exact D|].
  split; [exact E|]. unfold bval in *. rewrite E. apply Z.mod_pos_bound. exact Pq.
Qed.
Print Assumptions C53_randomnum.

(** ** C52: key pairs, validation, Diffie-Hellman *)
(** key_pair_generate writes s in [0, n-1] and the uncompressed encoding of sG; for s = 0 it writes the bytes of (0, 1) *)
Theorem C52_key_pair_random : forall r bd g s w, ec_group r -> sane g -> (mbytes r <= length s)%nat -> (2 * mbytes r + 1 <= length w)%nat ->
  let bits := (2 * Z.to_nat (Z.log2 (order r) + 1))%nat in
  exists k bs g' x y, key_pair_generate r bd (Some g) s w = Some (0, i2osp k (mbytes r) ++ skipn (mbytes r) s, enc_xy r x y ++ skipn (2 * mbytes r + 1) w, Some g') /\ sane g' /\
    getbytes bd (bytes_for bits) g = Some (bs, g') /\ k = bit_int bits bs mod order r /\
    ((k = 0 /\ x = 0 /\ y = 1) \/ (k <> 0 /\ curve_times r (gpoint r) (Z.to_nat k) (Aff x y))).
Proof. intros r bd g s w HE Hs L1 L2 bits. exact (keygen_rng r HE bd g s w Hs L1 L2). Qed.
Theorem C52_key_pair_given : forall r bd s w, ec_group r -> bytes s -> (mbytes r <= length s)%nat -> (2 * mbytes r + 1 <= length w)%nat ->
  let k := os2ip (firstn (mbytes r) s) mod order r in
  exists x y, key_pair_generate r bd None s w = Some (0, i2osp k (mbytes r) ++ skipn (mbytes r) s, enc_xy r x y ++ skipn (2 * mbytes r + 1) w, None) /\
    ((k = 0 /\ x = 0 /\ y = 1) \/ (k <> 0 /\ curve_times r (gpoint r) (Z.to_nat k) (Aff x y))).
Proof. intros r bd s w HE Hs L1 L2 k. exact (keygen_given r HE bd s w Hs L1 L2). Qed.
(** public_key_validate accepts a decoded point W exactly when W and kW are not infinity, k the quotient of the Hasse bound by the order (1 for secp256k1) *)
Theorem C52_validate : forall r w P A, ec_group r -> let k := (2 ^ ((Z.log2 (pmod r) + 5) / 2) + pmod r) / order r in
  0 < k < order r -> 2 ^ ((Z.log2 (pmod r) + 5) / 2) + pmod r < bmax (r_cfg r) -> ecp_frombytes r w = Some P -> w_point r P A ->
  exists res, public_key_validate r w = Some res /\ (res = 0 \/ res = INVALID_PUBLIC_KEY) /\ (res = 0 <-> A <> Inf /\ ~ curve_times r A (Z.to_nat k) Inf).
Proof.
  intros r w P A HE k H1 H2. assert (E : Z.log2 (pmod r) + 1 + 4 = Z.log2 (pmod r) + 5) by ring. pose proof (validate_ok r HE w P A) as Q. unfold hasse_k in Q. rewrite E in Q. exact (Q H1 H2).
Qed.
(** ecpsvdp_dh: the x coordinate of sW, or an error when W or sW is infinity *)
Theorem C52_dh : forall r s w z P A, ec_group r -> bytes s -> (mbytes r <= length s)%nat -> (mbytes r <= length z)%nat -> ecp_frombytes r w = Some P -> w_point r P A ->
  let k := os2ip (firstn (mbytes r) s) mod order r in
  (A = Inf \/ curve_times r A (Z.to_nat k) Inf) /\ ecpsvdp_dh r s w z = Some (DH_ERROR, z) \/
  A <> Inf /\ exists x y, curve_times r A (Z.to_nat k) (Aff x y) /\ ecpsvdp_dh r s w z = Some (0, i2osp x (mbytes r) ++ skipn (mbytes r) z).
Proof. intros r s w z P A HE H1 H2 H3 H4 H5. exact (dh_ok r HE s w z P A H1 H2 H3 H4 H5). Qed.

(** the state in which a key pair was made: a generator, or the caller's bytes *)
Definition key_source (src : option rnd) (s : list Z) : Prop := match src with Some g => sane g | None => bytes s end.
Lemma key_of r bd src s0 w0 s w g' : ec_group r -> key_source src s0 -> length s0 = mbytes r -> length w0 = (2 * mbytes r + 1)%nat -> key_pair_generate r bd src s0 w0 = Some (0, s, w, g') ->
  bytes s /\ length s = mbytes r /\ 0 <= os2ip s < order r /\ exists x y, w = enc_xy r x y /\ pub r (os2ip s) x y /\ match g' with Some g => sane g | None => True end.
Proof.
  intros HE Hs L1 L2 E. pose proof (eg_n2 r HE) as N2. pose proof (proj1 (eg_enc r HE)) as NE.
  assert (F : forall k x y, 0 <= k < order r -> pub r k x y -> s = i2osp k (mbytes r) ++ skipn (mbytes r) s0 -> w = enc_xy r x y ++ skipn (2 * mbytes r + 1) w0 -> match g' with Some g => sane g | None => True end ->
     bytes s /\ length s = mbytes r /\ 0 <= os2ip s < order r /\ exists x y, w = enc_xy r x y /\ pub r (os2ip s) x y /\ match g' with Some g => sane g | None => True end).
  { intros k x y Hk Hp Es Ew Hg. rewrite skipn_all2, app_nil_r in Es by lia. rewrite skipn_all2, app_nil_r in Ew by lia. rewrite Es, os2ip_i2osp, Z.mod_small by lia.
    split; [apply i2osp_bytes|]. split; [apply i2osp_length|]. split; [exact Hk|]. exists x, y. auto. }
  destruct src as [g|].
  - destruct (keygen_rng r HE bd g s0 w0 Hs ltac:(lia) ltac:(lia)) as [k [bs [g1 [x [y [K1 [K2 [_ [K4 K5]]]]]]]]]. rewrite K1 in E. injection E as E1 E2 E3. apply (F k x y); try (symmetry; assumption); [rewrite K4; apply Z.mod_pos_bound; lia|exact K5|rewrite <- E3; exact K2].
  - destruct (keygen_given r HE bd s0 w0 Hs ltac:(lia) ltac:(lia)) as [x [y [K1 K5]]]. rewrite K1 in E. injection E as E1 E2 E3. apply (F (os2ip (firstn (mbytes r) s0) mod order r) x y); try (symmetry; assumption); [apply Z.mod_pos_bound; lia|exact K5|rewrite <- E3; exact I].
Qed.
(** two parties with nonzero private keys compute the same bytes: the x coordinate of (s1 s2) G *)
Theorem C52_agreement : forall r bd1 bd2 src1 src2 s01 s02 w01 w02 s1 s2 w1 w2 g1 g2 z1 z2, ec_group r -> key_source src1 s01 -> key_source src2 s02 ->
  length s01 = mbytes r -> length s02 = mbytes r -> length w01 = (2 * mbytes r + 1)%nat -> length w02 = (2 * mbytes r + 1)%nat -> length z1 = mbytes r -> length z2 = mbytes r ->
  key_pair_generate r bd1 src1 s01 w01 = Some (0, s1, w1, g1) -> key_pair_generate r bd2 src2 s02 w02 = Some (0, s2, w2, g2) -> os2ip s1 <> 0 -> os2ip s2 <> 0 ->
  exists x y, curve_times r (gpoint r) (Z.to_nat ((os2ip s1 * os2ip s2) mod order r)) (Aff x y) /\ ecpsvdp_dh r s1 w2 z1 = Some (0, i2osp x (mbytes r)) /\ ecpsvdp_dh r s2 w1 z2 = Some (0, i2osp x (mbytes r)).
Proof.
  intros r bd1 bd2 src1 src2 s01 s02 w01 w02 s1 s2 w1 w2 g1 g2 z1 z2 HE K1 K2 L1 L2 L3 L4 L5 L6 E1 E2 N1 N2.
  destruct (key_of r bd1 src1 s01 w01 s1 w1 g1 HE K1 L1 L3 E1) as [B1 [M1 [R1 [x1 [y1 [-> [P1 _]]]]]]]. destruct (key_of r bd2 src2 s02 w02 s2 w2 g2 HE K2 L2 L4 E2) as [B2 [M2 [R2 [x2 [y2 [-> [P2 _]]]]]]].
  apply (dh_agree r HE s1 s2 x1 y1 x2 y2 z1 z2); try assumption; lia.
Qed.
Print Assumptions C52_agreement.

(** ** C38: ECDSA *)
(** the integer of the message: the digest cut to the field size *)
Definition message_int (r : rom) (Q : sha_par) (f : list Z) : Z := os2ip (firstn (mbytes r) (SHA2 Q f)).
(** whatever signing returns is a signature in the sense of the standard, for the private key s (its first MODBYTES bytes) *)
Theorem C38_sign : forall r bd fuel sha Q g s f co dO res, ec_group r -> In (sha, Q) sha_types -> bytes f -> length_ok bd Q (length f + 4) -> sane g -> bytes s ->
  (mbytes r <= length s)%nat -> (mbytes r <= length co)%nat -> (mbytes r <= length dO)%nat -> ecpsp_dsa r bd fuel sha g s f co dO = Some res ->
  exists c d g', res = (0, i2osp c (mbytes r) ++ skipn (mbytes r) co, i2osp d (mbytes r) ++ skipn (mbytes r) dO, g') /\
    ecdsa_signature (pmod r) (cA r) (order r) (gpoint r) (message_int r Q f) (os2ip (firstn (mbytes r) s)) c d.
Proof.
  intros r bd fuel sha Q g s f co dO res HE VT Bf F Sg Bs L1 L2 L3 E. destruct (sign_ok r HE bd fuel sha Q g s f co dO res VT Bf (length_room sha bd Q _ VT F) Sg Bs L1 L2 L3 E) as [c [d [g' [R [_ S]]]]]. exists c, d, g'. auto.
Qed.
(** verification: never panics on a decoded public key; -4 for components out of range, -3 for the point at infinity, and 0 exactly for what the standard accepts *)
Theorem C38_verify : forall r bd sha Q w f ci di P A, ec_group r -> In (sha, Q) sha_types -> bytes f -> length_ok bd Q (length f + 4) -> bytes ci -> bytes di ->
  (mbytes r <= length ci)%nat -> (mbytes r <= length di)%nat -> ecp_frombytes r w = Some P -> w_point r P A ->
  let c := os2ip (firstn (mbytes r) ci) in let d := os2ip (firstn (mbytes r) di) in
  exists res, ecpvp_dsa r bd sha w f ci di = Some res /\
    (~ (0 < c < order r /\ 0 < d < order r) -> res = INVALID) /\
    (0 < c < order r /\ 0 < d < order r -> A = Inf -> res = DH_ERROR) /\
    (0 < c < order r /\ 0 < d < order r -> A <> Inf -> res = 0 \/ res = INVALID) /\
    (res = 0 <-> A <> Inf /\ ecdsa_valid (pmod r) (cA r) (order r) (gpoint r) A (message_int r Q f) c d).
Proof. intros r bd sha Q w f ci di P A HE VT Bf F B1 B2 L1 L2 E HP. exact (verify_ok r HE bd sha Q w f ci di P A VT Bf (length_room sha bd Q _ VT F) B1 B2 L1 L2 E HP). Qed.
(** a signature made with a generated key pair is accepted under its public key *)
Theorem C38_sign_then_verify : forall r bd0 bd1 bd2 src s0 w0 s w g0 fuel sha Q g f co dO code c d g', ec_group r -> key_source src s0 -> length s0 = mbytes r -> length w0 = (2 * mbytes r + 1)%nat ->
  key_pair_generate r bd0 src s0 w0 = Some (0, s, w, g0) -> os2ip s <> 0 ->
  In (sha, Q) sha_types -> bytes f -> length_ok bd1 Q (length f + 4) -> length_ok bd2 Q (length f + 4) -> sane g -> length co = mbytes r -> length dO = mbytes r ->
  ecpsp_dsa r bd1 fuel sha g s f co dO = Some (code, c, d, g') -> code = 0 /\ ecpvp_dsa r bd2 sha w f c d = Some 0.
Proof.
  intros r bd0 bd1 bd2 src s0 w0 s w g0 fuel sha Q g f co dO code c d g' HE K L1 L2 E NS VT Bf F1 F2 Sg L3 L4 ES.
  destruct (key_of r bd0 src s0 w0 s w g0 HE K L1 L2 E) as [Bs [Ls [Rs [x [y [-> [PB _]]]]]]].
  destruct (C38_sign r bd1 fuel sha Q g s f co dO _ HE VT Bf F1 Sg Bs ltac:(lia) ltac:(lia) ltac:(lia) ES) as [cv [dv [g1 [R SG]]]]. injection R as R1 R2 R3 R4. split; [exact R1|].
  rewrite skipn_all2, app_nil_r in R2 by lia. rewrite skipn_all2, app_nil_r in R3 by lia. subst c d. rewrite (firstn_all2 s) in SG by lia.
  destruct (dec_pub r HE (os2ip s) x y ltac:(lia) PB) as [P [D1 [D2 D3]]].
  destruct (C38_verify r bd2 sha Q (enc_xy r x y) f (i2osp cv (mbytes r)) (i2osp dv (mbytes r)) P (Aff x y) HE VT Bf F2) as [res [V1 [_ [_ [_ V2]]]]]; try (rewrite i2osp_length; lia); try apply i2osp_bytes; try assumption.
  rewrite V1. f_equal. apply V2. split; [discriminate|]. pose proof SG as [RC [RD _]]. pose proof (proj1 (eg_enc r HE)) as NE. rewrite !firstn_all2 by (rewrite i2osp_length; lia). rewrite !os2ip_i2osp, !Z.mod_small by lia.
  pose proof (sig_valid r HE (os2ip s) _ _ _ SG) as Q2. rewrite <- D3 in Q2. rewrite (sp_ak (pmod r) (cA r) (cB r) _ (proj1 D2)) in Q2. exact Q2.
Qed.
Print Assumptions C38_sign_then_verify.
(** when the first two numbers drawn are k, m, nonzero, and neither half of the signature vanishes, signing returns after one turn with that nonce k *)
Theorem C38_sign_nonce : forall r bd fuel sha Q g s f co dO k m g1 g2 x y, ec_group r -> In (sha, Q) sha_types -> bytes f -> length_ok bd Q (length f + 4) -> sane g -> bytes s ->
  (mbytes r <= length s)%nat -> (mbytes r <= length co)%nat -> (mbytes r <= length dO)%nat ->
  randomnum r bd (r_ORDER r) g = Some (k, g1) -> randomnum r bd (r_ORDER r) g1 = Some (m, g2) -> bval (r_cfg r) k <> 0 -> bval (r_cfg r) m <> 0 ->
  curve_times r (gpoint r) (Z.to_nat (bval (r_cfg r) k)) (Aff x y) -> x mod order r <> 0 -> (message_int r Q f + os2ip (firstn (mbytes r) s) * (x mod order r)) mod order r <> 0 ->
  exists d, 0 < d < order r /\ (d * bval (r_cfg r) k) mod order r = (message_int r Q f + os2ip (firstn (mbytes r) s) * (x mod order r)) mod order r /\
    ecpsp_dsa r bd (S fuel) sha g s f co dO = Some (0, i2osp (x mod order r) (mbytes r) ++ skipn (mbytes r) co, i2osp d (mbytes r) ++ skipn (mbytes r) dO, g2).
Proof.
  intros r bd fuel sha Q g s f co dO k m g1 g2 x y HE VT Bf F Sg Bs Ls Lc Ld K1 K2 NK NM TX NX ND. exact (sign_first r HE bd fuel sha Q g s f co dO k m g1 g2 x y VT Bf (length_room sha bd Q _ VT F) Sg Bs Ls Lc Ld K1 K2 NK NM TX NX ND).
Qed.
(** a zero mask makes signing loop for ever (the inverse of zero is asked for): the second number drawn is not rejected when zero *)
Theorem C38_zero_mask_refuted : forall r bd fuel sha Q g s f co dO k m g1 g2 x y, ec_group r -> In (sha, Q) sha_types -> bytes f -> length_ok bd Q (length f + 4) -> sane g -> bytes s -> (mbytes r <= length s)%nat ->
  randomnum r bd (r_ORDER r) g = Some (k, g1) -> randomnum r bd (r_ORDER r) g1 = Some (m, g2) -> bval (r_cfg r) k <> 0 -> bval (r_cfg r) m = 0 ->
  curve_times r (gpoint r) (Z.to_nat (bval (r_cfg r) k)) (Aff x y) -> x mod order r <> 0 -> ecpsp_dsa r bd fuel sha g s f co dO = None.
Proof.
  intros r bd fuel sha Q g s f co dO k m g1 g2 x y HE VT Bf F Sg Bs Ls K1 K2 NK NM TX NX. exact (sign_stuck r HE bd fuel sha Q g s f co dO k m g1 g2 x y VT Bf (length_room sha bd Q _ VT F) Sg Bs Ls K1 K2 NK NM TX NX).
Qed.

(** ** C37: ECIES *)
(** key sizes of the ROMs *)
Definition aes_keys : list nat := [16; 24; 32]%nat.
(** what a run of encryption produced: the ephemeral public key V, the agreed secret Z and from them ciphertext and tag *)
Theorem C37_encrypt : forall r bd aesk sha Q p1 p2 g w m v t P A, ec_group r -> In aesk aes_keys -> In (sha, Q) sha_types -> bytes p1 -> bytes p2 -> bytes m -> sane g -> length v = (2 * mbytes r + 1)%nat -> (4 <= length t <= sha)%nat ->
  length_ok bd Q (3 * mbytes r + 5 + length p1) -> length_ok bd Q (B Q + 4 + (length m + 16 + length p2 + 8)) -> ecp_frombytes r w = Some P -> w_point r P A ->
  exists k x y g', 0 <= k < order r /\ pub r k x y /\
    ((A = Inf \/ curve_times r A (Z.to_nat k) Inf) /\ ecies_encrypt r bd aesk sha p1 p2 g w m v t = Some (None, enc_xy r x y, t, Some g') \/
     A <> Inf /\ exists zx zy, curve_times r A (Z.to_nat k) (Aff zx zy) /\
       let v' := enc_xy r x y in let z := i2osp zx (mbytes r) in let c := CBC0_enc (ecies_k1 Q aesk v' z p1) (pkcs7 m) in
       ecies_encrypt r bd aesk sha p1 p2 g w m v t = Some (Some c, v', firstn (length t) (ecies_tag Q (ecies_k2 Q aesk v' z p1) c p2), Some g')).
Proof.
  intros r bd aesk sha Q p1 p2 g w m v t P A HE HA VT B1 B2 Bm Sg Lv Lt F1 F2 EP HP. pose proof (eg_n2 r HE) as N2.
  destruct (keygen_rng r HE bd g (repeat 0 (mbytes r)) v Sg ltac:(rewrite repeat_length; lia) ltac:(lia)) as [k [bs [g' [x [y [K1 [K2 [_ [K4 K5]]]]]]]]].
  rewrite skipn_all2, app_nil_r in K1 by (rewrite repeat_length; lia). rewrite skipn_all2, app_nil_r in K1 by lia.
  assert (Rk : 0 <= k < order r) by (rewrite K4; apply Z.mod_pos_bound; lia). exists k, x, y, g'. split; [exact Rk|]. split; [exact K5|].
  pose proof (dh_ok r HE (i2osp k (mbytes r)) w (repeat 0 (mbytes r)) P A (i2osp_bytes _ _) ltac:(rewrite i2osp_length; lia) ltac:(rewrite repeat_length; lia) EP HP) as D. cbv zeta in D.
  pose proof (proj1 (eg_enc r HE)) as NE. rewrite firstn_all2 in D by (rewrite i2osp_length; lia). rewrite os2ip_i2osp, (Z.mod_small k (256 ^ _)), (Z.mod_small k (order r)) in D by lia.
  destruct D as [[D1 D2]|[D1 [zx [zy [D2 D3]]]]].
  - left. split; [exact D1|]. unfold ecies_encrypt. fold (mbytes r). rewrite K1. cbn [bind]. rewrite D2. cbn [bind fst snd]. reflexivity.
  - right. split; [exact D1|]. exists zx, zy. split; [exact D2|]. rewrite skipn_all2, app_nil_r in D3 by (rewrite repeat_length; lia). cbv zeta.
    assert (LV : length (enc_xy r x y) = (2 * mbytes r + 1)%nat) by (unfold enc_xy; cbn [length]; rewrite app_length, !i2osp_length; lia).
    destruct (enc_ok r bd aesk sha Q HA VT p1 p2 g (Some g') w m v t _ _ _ B1 B2 Bm (enc_bytes r x y) ltac:(lia) Lt (i2osp_bytes _ _) (i2osp_length _ _) (length_room sha bd Q _ VT F1) (length_room sha bd Q _ VT F2) K1 D3) as [E _].
    rewrite (firstn_all2 (enc_xy r x y)) in E by lia. exact E.
Qed.
(** decryption with a tag of 4 to 32 bytes answers m exactly when the padding is right and the tag is the MAC's prefix of that length *)
Theorem C37_decrypt : forall r bd aesk sha Q p1 p2 v c t u P A, ec_group r -> In aesk aes_keys -> In (sha, Q) sha_types -> bytes p1 -> bytes p2 -> bytes v -> (2 * mbytes r + 1 <= length v)%nat -> bytes c -> (4 <= length t <= 32)%nat ->
  bytes u -> (mbytes r <= length u)%nat -> length_ok bd Q (3 * mbytes r + 5 + length p1) -> length_ok bd Q (B Q + 4 + (length c + length p2 + 8)) -> ecp_frombytes r v = Some P -> w_point r P A ->
  let k := os2ip (firstn (mbytes r) u) mod order r in let v' := firstn (2 * mbytes r + 1) v in
  exists res, ecies_decrypt r bd aesk sha p1 p2 v c t u = Some res /\
    forall m, res = Some m <-> A <> Inf /\ exists x y, curve_times r A (Z.to_nat k) (Aff x y) /\ c <> [] /\ (length c mod 16 = 0)%nat /\
      let z := i2osp x (mbytes r) in padded_form m (CBC0_dec (ecies_k1 Q aesk v' z p1) c) /\ t = firstn (length t) (ecies_tag Q (ecies_k2 Q aesk v' z p1) c p2).
Proof.
  intros r bd aesk sha Q p1 p2 v c t u P A HE HA VT B1 B2 Bv Lv Bc Lt Bu Lu F1 F2 EP HP k v'. pose proof (eg_n2 r HE) as N2. pose proof (Z.mod_pos_bound (os2ip (firstn (mbytes r) u)) (order r) ltac:(lia)) as Rk. fold k in Rk.
  pose proof (dh_ok r HE u v (repeat 0 (mbytes r)) P A Bu Lu ltac:(rewrite repeat_length; lia) EP HP) as D. cbv zeta in D. fold k in D.
  assert (TF : forall C D, curve_times r A (Z.to_nat k) C -> curve_times r A (Z.to_nat k) D -> C = D) by (intros C D' H1 H2; apply (times_iff r HE) in H1; [|exact (proj1 HP)|lia]; apply (times_iff r HE) in H2; [|exact (proj1 HP)|lia]; congruence).
  destruct D as [[D1 D2]|[D1 [x [y [D2 D3]]]]].
  - exists None. split; [apply (dec_fail r bd aesk sha p1 p2 v c t u DH_ERROR _ ltac:(lia) D2); discriminate|]. intros m. split; [discriminate|]. intros [X1 [x [y [X2 _]]]]. destruct D1 as [D1|D1]; [contradiction|]. pose proof (TF _ _ X2 D1) as X3. discriminate X3.
  - rewrite skipn_all2, app_nil_r in D3 by (rewrite repeat_length; lia).
    destruct (dec_ok r bd aesk sha Q HA VT p1 p2 v c t u _ B1 B2 Bv Lv Bc Lt (i2osp_bytes _ _) (i2osp_length _ _) (length_room sha bd Q _ VT F1) (length_room sha bd Q _ VT F2) D3) as [res [R1 R2]]. exists res. split; [exact R1|]. intros m. rewrite (R2 m). fold v'. split.
    + intros [X1 [X2 [X3 X4]]]. split; [exact D1|]. exists x, y. auto.
    + intros [_ [x' [y' [X0 [X1 [X2 [X3 X4]]]]]]]. pose proof (TF _ _ D2 X0) as TE. injection TE as <- <-. auto.
Qed.
(** decrypting what was encrypted for a generated key pair gives the message back *)
Theorem C37_round_trip : forall r bd0 bd1 bd2 aesk sha Q p1 p2 src s0 w0 u w g0 g m v t c v' t' g', ec_group r -> In aesk aes_keys -> In (sha, Q) sha_types -> bytes p1 -> bytes p2 -> bytes m ->
  key_source src s0 -> length s0 = mbytes r -> length w0 = (2 * mbytes r + 1)%nat -> key_pair_generate r bd0 src s0 w0 = Some (0, u, w, g0) -> os2ip u <> 0 ->
  sane g -> length v = (2 * mbytes r + 1)%nat -> (4 <= length t <= 32)%nat ->
  length_ok bd1 Q (3 * mbytes r + 5 + length p1) -> length_ok bd1 Q (B Q + 4 + (length m + 16 + length p2 + 8)) -> length_ok bd2 Q (3 * mbytes r + 5 + length p1) -> length_ok bd2 Q (B Q + 4 + (length m + 16 + length p2 + 8)) ->
  ecies_encrypt r bd1 aesk sha p1 p2 g w m v t = Some (Some c, v', t', g') -> ecies_decrypt r bd2 aesk sha p1 p2 v' c t' u = Some (Some m).
Proof.
  intros r bd0 bd1 bd2 aesk sha Q p1 p2 src s0 w0 u w g0 g m v t c v' t' g' HE HA VT B1 B2 Bm K L1 L2 E NU Sg Lv Lt F1 F2 F3 F4 EE. pose proof (eg_n2 r HE) as N2. pose proof (proj1 (eg_enc r HE)) as NE. pose proof (sha_rng sha Q VT) as SR.
  destruct (key_of r bd0 src s0 w0 u w g0 HE K L1 L2 E) as [Bu [Lu [Ru [x [y [-> [PB _]]]]]]]. destruct (dec_pub r HE (os2ip u) x y ltac:(lia) PB) as [P [D1 [D2 D3]]].
  destruct (C37_encrypt r bd1 aesk sha Q p1 p2 g (enc_xy r x y) m v t P (Aff x y) HE HA VT B1 B2 Bm Sg Lv ltac:(lia) F1 F2 D1 D2) as [k [vx [vy [g1 [Rk [PV [[_ X]|[_ [zx [zy [TZ X]]]]]]]]]]]; [rewrite X in EE; discriminate EE|].
  cbv zeta in X. rewrite X in EE. assert (NK : k <> 0). { intros ->. inversion TZ. }
  destruct (dec_pub r HE k vx vy ltac:(lia) PV) as [PV1 [V1 [V2 V3]]].
  assert (TZ' : curve_times r (Aff vx vy) (Z.to_nat (os2ip u)) (Aff zx zy)).
  { apply (times_iff r HE); [exact (proj1 V2)|lia|]. apply (times_iff r HE) in TZ; [|exact (proj1 D2)|lia]. rewrite TZ, D3, V3. rewrite !(zt_zt r HE). f_equal. f_equal. ring. }
  set (z := i2osp zx (mbytes r)) in *. set (c0 := CBC0_enc (ecies_k1 Q aesk (enc_xy r vx vy) z p1) (pkcs7 m)) in *. injection EE as E1 E2 E3 E4. subst c v' t'.
  destruct (box_ok aesk sha Q HA VT p1 (enc_xy r vx vy) z m Bm) as [C1 [C2 [C3 [C4 C5]]]]. fold c0 in C1, C2, C3, C4, C5.
  assert (LV : length (enc_xy r vx vy) = (2 * mbytes r + 1)%nat) by (unfold enc_xy; cbn [length]; rewrite app_length, !i2osp_length; lia).
  assert (LT : length (firstn (length t) (ecies_tag Q (ecies_k2 Q aesk (enc_xy r vx vy) z p1) c0 p2)) = length t) by (rewrite firstn_length, (tag_len sha Q VT); lia).
  destruct (C37_decrypt r bd2 aesk sha Q p1 p2 (enc_xy r vx vy) c0 (firstn (length t) (ecies_tag Q (ecies_k2 Q aesk (enc_xy r vx vy) z p1) c0 p2)) u PV1 (Aff vx vy) HE HA VT B1 B2 (enc_bytes r vx vy) ltac:(lia) C1 ltac:(lia) Bu ltac:(lia) F3) as [res [R1 R2]]; [| exact V1|exact V2|].
  { destruct F4 as [F4|F4]; [left; exact F4|right]. lia. }
  rewrite R1. f_equal. apply R2. split; [discriminate|]. exists zx, zy. rewrite (firstn_all2 u), (Z.mod_small (os2ip u)), (firstn_all2 (enc_xy r vx vy)) by lia. fold z. rewrite LT. auto 8.
Qed.
Print Assumptions C37_round_trip.
(** so a changed tag of 4 to 32 bytes is refused *)
Theorem C37_altered_tag : forall r bd aesk sha Q p1 p2 v c t t' u m P A, ec_group r -> In aesk aes_keys -> In (sha, Q) sha_types -> bytes p1 -> bytes p2 -> bytes v -> (2 * mbytes r + 1 <= length v)%nat -> bytes c -> (4 <= length t <= 32)%nat ->
  bytes u -> (mbytes r <= length u)%nat -> length_ok bd Q (3 * mbytes r + 5 + length p1) -> length_ok bd Q (B Q + 4 + (length c + length p2 + 8)) -> ecp_frombytes r v = Some P -> w_point r P A ->
  ecies_decrypt r bd aesk sha p1 p2 v c t u = Some (Some m) -> length t' = length t -> t' <> t -> ecies_decrypt r bd aesk sha p1 p2 v c t' u = Some None.
Proof.
  intros r bd aesk sha Q p1 p2 v c t t' u m P A HE HA VT B1 B2 Bv Lv Bc Lt Bu Lu F1 F2 EP HP D L' N. pose proof (eg_n2 r HE) as N2. pose proof (Z.mod_pos_bound (os2ip (firstn (mbytes r) u)) (order r) ltac:(lia)) as Rk.
  destruct (C37_decrypt r bd aesk sha Q p1 p2 v c t u P A HE HA VT B1 B2 Bv Lv Bc Lt Bu Lu F1 F2 EP HP) as [res [R1 R2]]. destruct (C37_decrypt r bd aesk sha Q p1 p2 v c t' u P A HE HA VT B1 B2 Bv Lv Bc ltac:(lia) Bu Lu F1 F2 EP HP) as [res' [R1' R2']].
  rewrite R1 in D. injection D as D. rewrite R1'. f_equal. destruct res' as [m'|]; [|reflexivity]. exfalso. destruct (proj1 (R2 m) D) as [_ [x [y [T1 [_ [_ [_ T2]]]]]]]. destruct (proj1 (R2' m') eq_refl) as [_ [x' [y' [T1' [_ [_ [_ T2']]]]]]].
  apply (times_iff r HE) in T1; [|exact (proj1 HP)|lia]. apply (times_iff r HE) in T1'; [|exact (proj1 HP)|lia]. rewrite <- T1' in T1. injection T1 as <- <-. apply N. rewrite T2, T2', L'. reflexivity.
Qed.
(** tags of fewer than 4 bytes are not checked at all: the empty tag, or any other, is accepted for every correctly padded ciphertext *)
Theorem C37_short_tag_refuted : forall r bd aesk sha Q p1 p2 v c t u P A x y m, ec_group r -> In aesk aes_keys -> In (sha, Q) sha_types -> bytes p1 -> bytes v -> (2 * mbytes r + 1 <= length v)%nat -> bytes c -> (length t < 4)%nat ->
  bytes u -> (mbytes r <= length u)%nat -> length_ok bd Q (3 * mbytes r + 5 + length p1) -> ecp_frombytes r v = Some P -> w_point r P A -> A <> Inf ->
  curve_times r A (Z.to_nat (os2ip (firstn (mbytes r) u) mod order r)) (Aff x y) -> c <> [] -> (length c mod 16 = 0)%nat ->
  padded_form m (CBC0_dec (ecies_k1 Q aesk (firstn (2 * mbytes r + 1) v) (i2osp x (mbytes r)) p1) c) -> ecies_decrypt r bd aesk sha p1 p2 v c t u = Some (Some m).
Proof.
  intros r bd aesk sha Q p1 p2 v c t u P A x y m HE HA VT B1 Bv Lv Bc Lt Bu Lu F1 EP HP NI TX C1 C2 C3. pose proof (eg_n2 r HE) as N2. pose proof (Z.mod_pos_bound (os2ip (firstn (mbytes r) u)) (order r) ltac:(lia)) as Rk.
  pose proof (dh_ok r HE u v (repeat 0 (mbytes r)) P A Bu Lu ltac:(rewrite repeat_length; lia) EP HP) as D. cbv zeta in D. apply (times_iff r HE) in TX; [|exact (proj1 HP)|lia].
  destruct D as [[[D1|D1] _]|[_ [x' [y' [D2 D3]]]]]; [contradiction| |].
  - apply (times_iff r HE) in D1; [|exact (proj1 HP)|lia]. rewrite <- TX in D1. discriminate D1.
  - apply (times_iff r HE) in D2; [|exact (proj1 HP)|lia]. rewrite <- TX in D2. injection D2 as -> ->. rewrite skipn_all2, app_nil_r in D3 by (rewrite repeat_length; lia).
    exact (dec_short r bd aesk sha Q HA VT p1 p2 v c t u _ m B1 Bv Lv Bc Lt (i2osp_bytes _ _) (i2osp_length _ _) (length_room sha bd Q _ VT F1) D3 C1 C2 C3).
Qed.
(** tags of more than 32 bytes panic *)
Theorem C37_long_tag_refuted : forall r bd aesk sha p1 p2 v c t u, (32 < length t)%nat -> ecies_decrypt r bd aesk sha p1 p2 v c t u = None.
Proof. intros r bd aesk sha p1 p2 v c t u L. unfold ecies_decrypt. rewrite put_none by (rewrite repeat_length; lia). reflexivity. Qed.
Print Assumptions C37_short_tag_refuted.

(** ** the conditions hold for secp256k1, on both limb sizes *)
Example secp256k1_groups : Forall ec_group [rom_secp256k1_64; rom_secp256k1_32].
Proof. repeat apply Forall_cons; [exact secp256k1_64_group|exact secp256k1_32_group|apply Forall_nil]. Qed.
Print Assumptions secp256k1_groups.
Example C52_validate_case : Forall (fun r => let k := (2 ^ ((Z.log2 (pmod r) + 5) / 2) + pmod r) / order r in 0 < k < order r /\ 2 ^ ((Z.log2 (pmod r) + 5) / 2) + pmod r < bmax (r_cfg r)) [rom_secp256k1_64; rom_secp256k1_32].
Proof. pose proof secp256k1_hasse as H. eapply Forall_impl; [|exact H]. intros r. unfold hasse_k. replace (Z.log2 (pmod r) + 1 + 4) with (Z.log2 (pmod r) + 5) by ring. intros X. exact X. Qed.
(** a seeded generator *)
Example seeded : exists g, rnd_seed Release rnd_new 3 [1; 2; 3] = Some g /\ sane g.
Proof. apply seed_sane; [cbn; lia|repeat (apply Forall_cons; [unfold is_byte; lia|]); apply Forall_nil|exact I]. Qed.
(** the private key 1: its public key is the generator, and it is accepted *)
Example C52_key_one : forall r, ec_group r -> let s := i2osp 1 (mbytes r) in
  key_pair_generate r Release None s (repeat 0 (2 * mbytes r + 1)) = Some (0, s, enc_xy r (bval (r_cfg r) (r_GX r)) (bval (r_cfg r) (r_GY r)), None).
Proof.
  intros r HE s. pose proof (eg_n2 r HE) as N2. pose proof (proj1 (eg_enc r HE)) as NE. assert (Ls : length s = mbytes r) by apply i2osp_length.
  destruct (C52_key_pair_given r Release s (repeat 0 (2 * mbytes r + 1)) HE (i2osp_bytes _ _) ltac:(lia) ltac:(rewrite repeat_length; lia)) as [x [y [E D]]]. rewrite firstn_all2 in E, D by lia. unfold s in E, D. rewrite os2ip_i2osp, (Z.mod_small 1 (256 ^ _)), (Z.mod_small 1 (order r)) in E, D by lia.
  fold s in E. rewrite (skipn_all2 s) in E by lia. rewrite (skipn_all2 (repeat 0 _)), !app_nil_r in E by (rewrite repeat_length; lia). rewrite E. destruct D as [[D _]|[_ D]]; [lia|].
  apply (times_iff r HE) in D; [|exact (eg_g r HE)|lia]. rewrite (zt_one r HE) in D by (exact (g_on r HE)). rewrite (sp_ak (pmod r) (cA r) (cB r) _ (eg_g r HE)) in D. injection D as -> ->. reflexivity.
Qed.
