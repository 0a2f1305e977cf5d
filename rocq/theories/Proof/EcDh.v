(** Key pairs, public key validation and Diffie-Hellman. *)
From Verif Require Import Base.Word Base.Arr Model.Big Model.Roms Model.Fp Model.Ecp Model.Sha2 Model.Rand Model.Ecdh Model.EccProto
  Spec.BigSpec Spec.RomSpec Spec.FpSpec Spec.CurveSpec Spec.EcpSpec Spec.Bytes Spec.Sha2Spec Spec.KdfSpec Spec.ProtoSpec
  Proof.BigVal Proof.BigShift Proof.BigBytes Proof.BigMod Proof.BigInv Proof.NumTheory Proof.RomCheck Proof.FpBase Proof.FpOps Proof.FpExp Proof.FpSqrt Proof.FpIv Proof.FieldP Proof.Weier
  Proof.EcpOps Proof.EcpW Proof.EcpBridge Proof.EcpMul Proof.EcpInst Proof.EcpCodec Proof.EcpCodec2 Proof.EcpCodec3 Proof.RandProof Proof.RandNum Proof.EcdhSym Proof.EcpProto Proof.Ecdsa Proof.EcdsaTop.
From Coq Require Import Znumtheory.

Section Dh.
Variable r : rom.
Hypothesis HE : ec_group r.
Variable bd : build.
Notation c := (r_cfg r).
Notation p := (pmod r).
Notation a := (cA r).
Notation b := (cB r).
Notation n := (order r).
Notation B := (BASEBITS c).
Notation V := (val B).
Let Hw : w_ok r := proj1 (eg_w r HE).
Let Hp : prime p := proj1 (proj2 (eg_w r HE)).
Let Hn2 : no_order2 p a b := proj2 (proj2 (eg_w r HE)).
Let Hf : fp_ok r := proj1 Hw.
Let Hok : cfg_ok c := ff_ok r (fp_ok_facts r Hf).
Let Hc : codec r := eg_codec r HE.
Let Wn : big_wf c (r_ORDER r) := eg_nwf r HE.
Let Np : prime n := eg_n r HE.
Let N2 : 2 < n := eg_n2 r HE.
Let WG := w_group r Hw Hp Hn2.
Let WP := w_pops r Hw Hp Hn2.
Notation K := (apt p).
Notation O := (AInf p).
Notation kplus := (asum p (mk p a)).
Notation kneg := (aneg p).
Notation kon := (aon p (mk p a) (mk p b)).
Notation zt := (ztimes K O kplus kneg).
Notation AK := (ak p).
Notation SP := (sp p).
Notation MB := (mbytes r).
Notation g := (g r).
Let Hg : kon g := g_on r HE.
Let P3 : 3 < p := p_gt3 r Hf.

(** writing a computed point *)
Lemma tob_aff P A x y w : wden r P A -> SP A = Aff x y -> (2 * MB + 1 <= length w)%nat -> ecp_tobytes r P w false = Some (enc_xy r x y ++ skipn (2 * MB + 1) w).
Proof.
  intros HP E L. pose proof (den_w_point r Hw Hp P A HP) as W. rewrite E in W. pose proof (proj1 W) as OA. destruct (no_x0 r HE x y OA) as [X0 Y0].
  apply (w_tobytes r P x y w Hw Hp W); [|exact L]. right. right. split; [exact (eg_sp r HE)|]. auto.
Qed.
(** the encoding of the point at infinity *)
Lemma tob_inf P e R w : wden r P g -> big_wf c e -> V e = 0 -> ecp_mul r P e = Some R -> (2 * MB + 1 <= length w)%nat -> ecp_tobytes r R w false = Some (enc_xy r 0 1 ++ skipn (2 * MB + 1) w).
Proof.
  intros HP W E M L. assert (XB : 0 <= 1 < 2 ^ B) by (pose proof (HBB r HE); pose proof (pow2_le 1 B ltac:(lia)) as Q1; change (2 ^ 1) with 2 in Q1; lia). unfold ecp_mul in M. rewrite (iszilch_spec c (HBB r HE) e (canon_nrm _ _ (proj2 W))), E in M. change (0 =? 0) with true in M. cbn [bind] in M.
  destruct (w_new r Hw Hp) as [R0 [N1 N2']]. assert (R0 = R) by congruence. subst R0.
  assert (EA : ecp_affine r R = Some R) by (unfold ecp_affine; rewrite (is_inf_ok r HE R _ N2'); reflexivity).
  unfold ecp_new in N1. destruct (inewint r Hf 1 XB) as [o [O1 O2]]. rewrite O1 in N1. cbn [bind] in N1. rewrite (proj1 (proj2 (proj2 (proj2 Hw)))) in N1.
  assert (EX : ex R = fp_new r /\ ey R = o) by (injection N1 as <-; split; reflexivity). clear N1. destruct EX as [EX EY].
  pose proof (inew r Hf) as F0. destruct (redc_any r Hf _ _ _ F0) as [x [X1 [X2 [_ [X3 _]]]]].
  destruct (redc_any r Hf _ _ _ O2) as [y [Y1 [Y2 [Y5 [Y3 Y4]]]]].
  rewrite (encode_xy r Hf (w_nm r Hw) R R x y w EA); [|rewrite EX; exact X1|rewrite EY; exact Y1|exact X2|exact Y2|exact L].
  assert (VX : V x = 0). { rewrite X3; [apply Z.mod_0_l; lia|]. unfold fp_new. cbn [fx]. destruct (BigMod.zero_wf c Hok) as [_ Z0]. rewrite Z0. lia. }
  assert (VY : V y = 1). { rewrite Y4; [apply Z.mod_1_l; lia|exact (eg_sp r HE)|rewrite Z.mod_1_l by lia; lia]. }
  rewrite VX, VY. unfold enc_xy. cbn [app]. rewrite <- app_assoc. reflexivity.
Qed.

(** multiples of the generator *)
Lemma mulG e : big_wf c e -> 0 <= V e < n -> exists G R, ecp_generator r = Some G /\ ecp_mul r G e = Some R /\
  forall w, (2 * MB + 1 <= length w)%nat -> exists x y, ecp_tobytes r R w false = Some (enc_xy r x y ++ skipn (2 * MB + 1) w) /\
    ((V e = 0 /\ x = 0 /\ y = 1) \/ (V e <> 0 /\ SP (zt (V e) g) = Aff x y)).
Proof.
  intros We Re. destruct (gen_ok r HE) as [G [G1 G2]]. destruct (mulP r HE G g e G2 We ltac:(lia)) as [R [R1 R2]]. exists G, R. split; [exact G1|]. split; [exact R1|]. intros w L.
  destruct (Z.eq_dec (V e) 0) as [E0|E0].
  - exists 0, 1. split; [apply (tob_inf G e R w G2 We E0 R1 L)|auto].
  - destruct (sp_aff r (zt (V e) g)) as [x [y EX]]; [apply (zt_nz r HE); rewrite Z.mod_small by lia; exact E0|]. exists x, y. split; [apply (tob_aff R _ x y w R2 EX L)|auto].
Qed.
(** public key of the private key s: the uncompressed encoding of sG *)
Definition pub (s x y : Z) : Prop := (s = 0 /\ x = 0 /\ y = 1) \/ (s <> 0 /\ w_times p a (gpoint r) (Z.to_nat s) (Aff x y)).
Lemma pub_of s x y : 0 <= s -> (s = 0 /\ x = 0 /\ y = 1) \/ (s <> 0 /\ SP (zt s g) = Aff x y) -> pub s x y.
Proof. intros H0 [H|[H1 H2]]; [left; exact H|right]. split; [exact H1|]. apply (times_iff r HE); [exact (eg_g r HE)|exact H0|symmetry; exact H2]. Qed.
Theorem keygen_rng rng s w : sane rng -> (MB <= length s)%nat -> (2 * MB + 1 <= length w)%nat ->
  exists k bs rng' x y, key_pair_generate r bd (Some rng) s w = Some (0, i2osp k MB ++ skipn MB s, enc_xy r x y ++ skipn (2 * MB + 1) w, Some rng') /\ sane rng' /\
    getbytes bd (bytes_for (2 * Z.to_nat (Z.log2 n + 1))) rng = Some (bs, rng') /\ k = bit_int (2 * Z.to_nat (Z.log2 n + 1)) bs mod n /\ pub k x y.
Proof.
  intros Sr Ls Lw. unfold key_pair_generate. destruct (randomnum_ok r bd Hok (r_ORDER r) rng Wn ltac:(rewrite Vn; lia) Sr) as [m [bs [rng' [E [E2 [S' [_ [W E3]]]]]]]]. rewrite Vn in E2, E3.
  pose proof (Z.mod_pos_bound (bit_int (2 * Z.to_nat (Z.log2 n + 1)) bs) n ltac:(lia)) as RM. rewrite <- E3 in RM.
  destruct (mulG m W RM) as [G [R [G1 [R1 T]]]]. rewrite G1. cbn [bind]. rewrite E. cbn [bind fst snd]. rewrite (tob r HE m s W Ls). cbn [bind]. rewrite R1. cbn [bind]. destruct (T w Lw) as [x [y [T1 T2]]]. rewrite T1. cbn [bind].
  exists (V m), bs, rng', x, y. split; [reflexivity|]. split; [exact S'|]. split; [exact E2|]. split; [exact E3|]. apply pub_of; [lia|exact T2].
Qed.
Theorem keygen_given s w : bytes s -> (MB <= length s)%nat -> (2 * MB + 1 <= length w)%nat ->
  exists x y, let k := os2ip (firstn MB s) mod n in key_pair_generate r bd None s w = Some (0, i2osp k MB ++ skipn MB s, enc_xy r x y ++ skipn (2 * MB + 1) w, None) /\ pub k x y.
Proof.
  intros Bs Ls Lw. unfold key_pair_generate. destruct (frb r HE s Bs Ls) as [sc [S1 [S2 [S3 _]]]]. destruct (rmod_n r HE sc S2) as [m [M1 [W E3]]]. rewrite S3 in E3.
  pose proof (Z.mod_pos_bound (os2ip (firstn MB s)) n ltac:(lia)) as RM. rewrite <- E3 in RM.
  destruct (mulG m W RM) as [G [R [G1 [R1 T]]]]. rewrite G1. cbn [bind]. rewrite S1. cbn [bind]. rewrite M1. cbn [bind fst snd]. rewrite (tob r HE m s W Ls). cbn [bind]. rewrite R1. cbn [bind]. destruct (T w Lw) as [x [y [T1 T2]]]. rewrite T1. cbn [bind].
  exists x, y. cbv zeta. rewrite <- E3. split; [reflexivity|]. apply pub_of; [lia|exact T2].
Qed.

(** Diffie-Hellman *)
Theorem dh_ok s wd z P W : bytes s -> (MB <= length s)%nat -> (MB <= length z)%nat -> ecp_frombytes r wd = Some P -> w_point r P W ->
  let k := os2ip (firstn MB s) mod n in
  (W = Inf \/ w_times p a W (Z.to_nat k) Inf) /\ ecpsvdp_dh r s wd z = Some (DH_ERROR, z) \/
  W <> Inf /\ exists x y, w_times p a W (Z.to_nat k) (Aff x y) /\ ecpsvdp_dh r s wd z = Some (0, i2osp x MB ++ skipn MB z).
Proof.
  intros Bs Ls Lz EP HW k. unfold ecpsvdp_dh. destruct (frb r HE s Bs Ls) as [sc [S1 [S2 [S3 _]]]]. rewrite S1. cbn [bind]. rewrite EP. cbn [bind].
  pose proof (proj1 (w_point_den r Hw Hp P W) HW) as [OW HD]. pose proof (sp_ak p a b W OW) as SA. rewrite (is_inf_ok r HE P _ HD). cbn [bind].
  assert (WI : W = Inf <-> AK W = O) by (rewrite <- (sp_inf r (AK W)), SA; reflexivity).
  destruct (rmod_n r HE sc S2) as [m [M1 [Wm E3]]]. rewrite S3 in E3. fold k in E3. pose proof (Z.mod_pos_bound (os2ip (firstn MB s)) n ltac:(lia)) as RM. fold k in RM.
  destruct (mulP r HE P (AK W) m HD Wm ltac:(lia)) as [R [R1 R2]]. rewrite E3 in R2.
  destruct (ak p W) as [|wx wy] eqn:EW; [left; split; [left; apply WI; reflexivity|reflexivity]|]. rewrite <- EW in *. assert (WN : W <> Inf) by (intros X; apply WI in X; rewrite EW in X; discriminate X).
  rewrite M1. cbn [bind]. rewrite R1. cbn [bind]. rewrite (is_inf_ok r HE R _ R2). cbn [bind].
  destruct (zt k (AK W)) as [|tx ty] eqn:ET.
  - left. split; [right; apply (times_iff r HE); [exact OW|lia|rewrite ET; reflexivity]|reflexivity].
  - right. split; [exact WN|]. rewrite <- ET in R2. destruct (sp_aff r (zt k (AK W))) as [x [y EX]]; [rewrite ET; discriminate|].
    exists x, y. split; [apply (times_iff r HE); [exact OW|lia|symmetry; exact EX]|]. destruct (getx_ok r HE R _ x y R2 EX) as [xr [X1 [X2 X3]]]. rewrite X1. cbn [bind].
    change (Z.to_nat (MODBYTES c)) with MB. rewrite (tob0 r HE xr X2). cbn [bind]. rewrite put0 by (rewrite i2osp_length; lia). cbn [bind]. rewrite i2osp_length, X3. reflexivity.
Qed.

(** reading an uncompressed encoding *)
Lemma dec_pub s x y : 0 < s < n -> pub s x y -> exists P, ecp_frombytes r (enc_xy r x y) = Some P /\ w_point r P (Aff x y) /\ AK (Aff x y) = zt s g.
Proof.
  intros Hs [[E _]|[_ T]]; [lia|]. apply (times_iff r HE) in T; [|exact (eg_g r HE)|lia]. fold g in T.
  assert (OA : on_w p a b (Aff x y)) by (rewrite T; apply on_sp; [exact Hp|]; apply (ztimes_on _ _ _ _ _ WG); exact Hg).
  destruct (w_decode r x y Hw Hc OA) as [P [D1 [D2 _]]]. exists P. split; [exact D1|]. split; [exact D2|]. rewrite T. apply ak_sp. exact Hp.
Qed.
(** both sides compute the same secret *)
Theorem dh_agree s1 s2 x1 y1 x2 y2 z1 z2 : bytes s1 -> bytes s2 -> length s1 = MB -> length s2 = MB -> length z1 = MB -> length z2 = MB ->
  let k1 := os2ip s1 in let k2 := os2ip s2 in 0 < k1 < n -> 0 < k2 < n -> pub k1 x1 y1 -> pub k2 x2 y2 ->
  exists x y, w_times p a (gpoint r) (Z.to_nat ((k1 * k2) mod n)) (Aff x y) /\
    ecpsvdp_dh r s1 (enc_xy r x2 y2) z1 = Some (0, i2osp x MB) /\ ecpsvdp_dh r s2 (enc_xy r x1 y1) z2 = Some (0, i2osp x MB).
Proof.
  intros B1 B2 L1 L2 L3 L4 k1 k2 R1 R2 U1 U2. set (k := (k1 * k2) mod n). pose proof (Z.mod_pos_bound (k1 * k2) n ltac:(lia)) as RK. fold k in RK.
  assert (KN : k <> 0). { unfold k. intros E. apply (prime_mul_zero n _ _ Np) in E. destruct E as [E|E]; rewrite Z.mod_small in E by lia; lia. }
  destruct (sp_aff r (zt k g)) as [x [y EX]]; [apply (zt_nz r HE); rewrite Z.mod_small by lia; exact KN|].
  exists x, y. split; [apply (times_iff r HE); [exact (eg_g r HE)|lia|symmetry; exact EX]|].
  assert (G : forall s k' kk xx yy z, bytes s -> length s = MB -> length z = MB -> os2ip s = k' -> 0 < k' < n -> 0 < kk < n -> (k' * kk) mod n = k -> pub kk xx yy -> ecpsvdp_dh r s (enc_xy r xx yy) z = Some (0, i2osp x MB)).
  { intros s k' kk xx yy z Bs Ls Lz Es Rk Rkk Ek U. destruct (dec_pub kk xx yy Rkk U) as [P [D1 [D2 D3]]]. pose proof (proj1 (w_point_den r Hw Hp P _) D2) as [OW _].
    assert (TT : zt k' (AK (Aff xx yy)) = zt k g). { rewrite D3, (ztimes_mul _ _ _ _ _ WG) by exact Hg. apply (zt_cong r HE). rewrite Ek. symmetry. apply Z.mod_small. lia. }
    pose proof (dh_ok s (enc_xy r xx yy) z P (Aff xx yy) Bs ltac:(lia) ltac:(lia) D1 D2) as Q. cbv zeta in Q. rewrite (firstn_all2 s), Es, (Z.mod_small k' n) in Q by lia.
    destruct Q as [[[Q|Q] _]|[_ [x' [y' [Q1 Q2]]]]]; [discriminate Q| |].
    - apply (times_iff r HE) in Q; [|exact OW|lia]. rewrite TT, EX in Q. discriminate Q.
    - apply (times_iff r HE) in Q1; [|exact OW|lia]. rewrite TT, EX in Q1. injection Q1 as -> ->. rewrite Q2, skipn_all2, app_nil_r by lia. reflexivity. }
  split; [apply (G s1 k1 k2 x2 y2); auto|apply (G s2 k2 k1 x1 y1); auto; unfold k; f_equal; ring].
Qed.

(** validation *)
Lemma isunity_spec w : big_wf c w -> isunity w = (V w =? 1).
Proof.
  intros [L W]. pose proof (HBB r HE) as HB8. destruct w as [|x t]; [exfalso; pose proof (cf_N c (cfg_ok_facts c Hok)); cbn [length] in L; lia|]. inversion W as [|? ? Hx Ht]; subst. cbn [isunity val].
  rewrite (iszilch_spec c HB8 t (canon_nrm _ _ Ht)). pose proof (pow2_le 1 B ltac:(lia)) as P2. change (2 ^ 1) with 2 in P2. pose proof (canon_val B t (Z.le_trans 0 8 B ltac:(lia) HB8) Ht) as RT.
  destruct (Z.eqb_spec x 1) as [E|E]; destruct (Z.eqb_spec (V t) 0) as [E'|E']; cbn [andb]; symmetry; [apply Z.eqb_eq|apply Z.eqb_neq|apply Z.eqb_neq|apply Z.eqb_neq]; try (rewrite E'; lia).
  - assert (2 * 1 <= 2 ^ B * V t) by (apply Z.mul_le_mono_nonneg; lia). lia.
  - intros X. assert (2 ^ B * V t = 1 - x) by lia. assert (2 ^ B * 1 <= 2 ^ B * V t) by (apply Z.mul_le_mono_nonneg_l; lia). lia.
Qed.
Lemma strip_ok f : forall k P A, big_wf c k -> 0 < V k < 2 ^ Z.of_nat f -> wden r P A -> exists k' P' A', strip_loop r (S f) k P = Some (k', P') /\ big_wf c k' /\ 0 < V k' <= V k /\ wden r P' A' /\ zt (V k') A' = zt (V k) A.
Proof.
  induction f as [|f IH]; intros k P A W Rk HP; [change (2 ^ Z.of_nat 0) with 1 in Rk; lia|].
  remember (S f) as f1. cbn [strip_loop]. rewrite (parity_wf c Hok k W). pose proof (cf_N c (cfg_ok_facts c Hok)) as CN. pose proof (HBB r HE) as HB8.
  destruct (Z.eqb_spec (V k mod 2) 0) as [E|E]; [|exists k, P, A; split; [reflexivity|]; split; [exact W|]; split; [lia|]; auto].
  destruct (shr_spec c ltac:(pose proof (cf_B _ (cfg_ok_facts _ Hok)); lia) ltac:(pose proof (cf_C _ (cfg_ok_facts _ Hok)); lia) k 1) as [k1 [S1 [S2 [S3 S4]]]]; [rewrite (proj1 W); nia|exact (proj2 W)|]. rewrite S1. cbn [bind].
  destruct (w_dbl r Hw Hp Hn2 P A HP) as [P1 [D1 D2]]. rewrite D1. cbn [bind]. change (2 ^ 1) with 2 in S2. assert (VK : V k = 2 * V k1) by (rewrite S2; pose proof (Z.div_mod (V k) 2 ltac:(lia)); lia).
  rewrite Heqf1 in Rk. rewrite Nat2Z.inj_succ, Z.pow_succ_r in Rk by lia.
  pose proof (wden_on r P A HP) as OA.
  destruct (IH k1 P1 _ ltac:(split; [rewrite S4; exact (proj1 W)|exact S3]) ltac:(lia) D2) as [k' [P' [A' [Q1 [Q2 [Q3 [Q4 Q5]]]]]]]. subst f1. exists k', P', A'. split; [exact Q1|]. split; [exact Q2|]. split; [lia|]. split; [exact Q4|].
  rewrite Q5. rewrite VK. replace (kplus A A) with (zt 2 A); [rewrite (ztimes_mul _ _ _ _ _ WG) by exact OA; f_equal; ring|]. change 2 with (1 + 1). rewrite (ztimes_add _ _ _ _ _ WG), (ztimes_1 _ _ _ _ _ WG) by exact OA. reflexivity.
Qed.
(** the multiple that must not be infinity *)
Definition hasse_k : Z := (2 ^ ((Z.log2 p + 1 + 4) / 2) + p) / n.
Theorem validate_ok w P W : 0 < hasse_k < n -> 2 ^ ((Z.log2 p + 1 + 4) / 2) + p < bmax c -> ecp_frombytes r w = Some P -> w_point r P W ->
  exists res, public_key_validate r w = Some res /\ (res = 0 \/ res = INVALID_PUBLIC_KEY) /\ (res = 0 <-> W <> Inf /\ ~ w_times p a W (Z.to_nat hasse_k) Inf).
Proof.
  intros HK HM EP HW. unfold public_key_validate. rewrite EP. cbn [bind]. pose proof (proj1 (w_point_den r Hw Hp P W) HW) as [OW HD]. pose proof (sp_ak p a b W OW) as SA. rewrite (is_inf_ok r HE P _ HD). cbn [bind].
  assert (WI : W = Inf <-> AK W = O) by (rewrite <- (sp_inf r (AK W)), SA; reflexivity).
  destruct (ak p W) as [|wx wy] eqn:EW. { exists INVALID_PUBLIC_KEY. split; [reflexivity|]. split; [auto|]. split; [discriminate|]. intros [X _]. exfalso. apply X, WI. reflexivity. }
  rewrite <- EW in *. assert (WN : W <> Inf) by (intros X; apply WI in X; rewrite EW in X; discriminate X). clear EW wx wy.
  pose proof (cf_B _ (cfg_ok_facts _ Hok)) as CB. pose proof (cf_C _ (cfg_ok_facts _ Hok)) as CC. pose proof (cf_N _ (cfg_ok_facts _ Hok)) as CN. pose proof (ff_wf r (fp_ok_facts r Hf)) as Wp.
  rewrite (nbits_spec c Hok _ _ (norm_wf c Hok _ Wp) (proj2 Wp)). cbn [bind]. change (V (r_MODULUS r)) with p. destruct (Z.eqb_spec p 0) as [X|_]; [lia|].
  set (t := (Z.log2 p + 1 + 4) / 2) in *. pose proof (Z.log2_nonneg p) as LP. assert (Ht : 0 <= t) by (unfold t; apply Z.div_pos; lia).
  assert (PT : 0 < 2 ^ t) by (apply pow2_pos; exact Ht). assert (BM : bmax c = 2 ^ (B * Z.of_nat (NLEN c))) by (reflexivity).
  assert (TB : t < B * Z.of_nat (NLEN c)). { apply (Z.pow_lt_mono_r_iff 2); [lia|nia|]. rewrite <- BM. lia. }
  destruct (FpOps.one_wf r Hf) as [W1 V1].
  destruct (shl_spec c ltac:(lia) ltac:(lia) (big_one c) t Ht (proj2 W1) ltac:(rewrite (proj1 W1); lia) ltac:(rewrite (proj1 W1); exact TB)) as [k1 [S1 [S2 [S3 S4]]]]; [rewrite V1, (proj1 W1), <- BM; lia|].
  rewrite S1. cbn [bind]. rewrite V1, Z.mul_1_l in S2. assert (Wk : big_wf c k1) by (split; [rewrite S4; exact (proj1 W1)|exact S3]).
  assert (Q : exists s q, add c k1 (r_MODULUS r) = Some s /\ div c s (r_ORDER r) = Some q /\ big_wf c q /\ V q = (V k1 + V (r_MODULUS r)) / n).
  { pose proof (HBB r HE) as HB8. pose proof (brange c Hok k1 Wk). pose proof (brange c Hok _ Wp).
    assert (P2 : 2 ^ (B + 2) <= 2 ^ (CHUNK c - 1)) by (apply pow2_le; lia). assert (E2 : 2 ^ (B + 2) = 4 * 2 ^ B) by (rewrite Z.pow_add_r by lia; change (2 ^ 2) with 4; ring). assert (0 < 2 ^ B) by (apply pow2_pos; lia).
    assert (Wi : forall w, big_wf c w -> within 0 (2 ^ B - 1) w) by (intros w0 [_ Hw']; unfold within; eapply Forall_impl; [|exact Hw']; intros q Hq; cbv beta in *; lia).
    destruct (add_total c HB8 ltac:(lia) 0 (2 ^ B - 1) 0 (2 ^ B - 1) k1 (r_MODULUS r) (Wi _ Wk) (Wi _ Wp)) as [s [A1 A2]]; [rewrite (proj1 Wk), (proj1 Wp); reflexivity|lia|lia|].
    destruct (add_val c k1 (r_MODULUS r) s A1) as [A3 A4]; [rewrite (proj1 Wk), (proj1 Wp); reflexivity|].
    assert (VS : 0 <= V s < bmax c) by (rewrite A3, S2; change (V (r_MODULUS r)) with p; lia).
    destruct (norm_to_wf c Hok 2 s) as [s' [M1 [M2 M3]]]; [lia|lia|rewrite A4; exact (proj1 Wk)| |exact VS|].
    { unfold within in *. eapply Forall_impl; [|exact A2]. intros q Hq; cbv beta in *. lia. }
    destruct (div_spec c Hok s' (r_ORDER r) M3 Wn ltac:(rewrite Vn; lia)) as [q [D1 [D2 D3]]]. exists s, q. split; [exact A1|]. split; [|split; [exact D2|rewrite D3, M2, A3; reflexivity]].
    rewrite <- D1. unfold div. rewrite M1. rewrite (norm_wf c Hok s' M3). reflexivity. }
  destruct Q as [s [q [A1 [D1 [D2 D3]]]]]. rewrite A1. cbn [bind]. rewrite D1. cbn [bind]. rewrite S2 in D3. change (V q = hasse_k) in D3.
  assert (FU : exists f, loop_fuel c q = S f /\ 0 < V q < 2 ^ Z.of_nat f).
  { pose proof (brange c Hok q D2) as RQ. exists (Z.to_nat (Z.of_nat (NLEN c) * CHUNK c - 1)). unfold loop_fuel. rewrite (proj1 D2).
    assert (MM : Z.of_nat (NLEN c) * (B + 1) <= Z.of_nat (NLEN c) * CHUNK c) by (apply Z.mul_le_mono_nonneg_l; lia). assert (0 <= Z.of_nat (NLEN c) * B) by (apply Z.mul_nonneg_nonneg; lia).
    split; [rewrite <- Z2Nat.inj_succ by lia; f_equal; lia|]. rewrite Z2Nat.id by lia. split; [lia|]. eapply Z.lt_le_trans; [exact (proj2 RQ)|]. apply pow2_le. lia. }
  destruct FU as [f [F1 F2]]. rewrite F1. destruct (strip_ok f q P (AK W) D2 F2 HD) as [k' [P' [A' [Q1 [Q2 [Q3 [Q4 Q5]]]]]]]. rewrite Q1. cbn [bind fst snd].
  rewrite (isunity_spec k' Q2). rewrite D3 in Q5.
  assert (M : exists R, (if V k' =? 1 then Some P' else ecp_mul r P' k') = Some R /\ wden r R (zt hasse_k (AK W))).
  { destruct (Z.eqb_spec (V k') 1) as [E1|E1]; [exists P'; split; [reflexivity|]; rewrite <- Q5, E1, (ztimes_1 _ _ _ _ _ WG) by (exact (wden_on r P' A' Q4)); exact Q4|].
    destruct (mulP r HE P' A' k' Q4 Q2 ltac:(lia)) as [R [R1 R2]]. exists R. split; [exact R1|]. rewrite <- Q5. exact R2. }
  destruct M as [R [M1 M2]]. rewrite M1. cbn [bind]. rewrite (is_inf_ok r HE R _ M2). cbn [bind].
  assert (TI : w_times p a W (Z.to_nat hasse_k) Inf <-> zt hasse_k (AK W) = O). { rewrite (times_iff r HE W hasse_k Inf OW ltac:(lia)). rewrite <- (sp_inf r). split; intros X; symmetry; exact X. }
  assert (FIN : forall res, (res = 0 <-> W <> Inf /\ zt hasse_k (AK W) <> O) -> (res = 0 <-> W <> Inf /\ ~ w_times p a W (Z.to_nat hasse_k) Inf)) by (intros res H; rewrite H; tauto).
  destruct (zt hasse_k (AK W)) as [|tx ty].
  - exists INVALID_PUBLIC_KEY. split; [reflexivity|]. split; [auto|]. apply FIN. split; [discriminate|]. intros [_ X]. exfalso. apply X. reflexivity.
  - exists 0. split; [reflexivity|]. split; [auto|]. apply FIN. split; [|reflexivity]. intros _. split; [exact WN|]. discriminate.
Qed.
End Dh.
