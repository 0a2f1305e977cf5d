(** C70 (key pairs) and C69: the group G1 of BLS12-381, as implemented, satisfies every law that C46 assumes of a group; so the G1 side of the BLS schemes is
    proved for the code itself, down to the bytes. *)
From Verif Require Import Base.Word Base.Arr Model.Big Model.Roms Model.Fp Model.Ecp Model.G1Mul Model.HashToCurve Model.Bls Model.BlsScheme Model.BlsG1Grp Model.Rand Model.BlsKeyPair Spec.Bytes Spec.BigSpec Spec.RomSpec Spec.FpSpec Spec.CurveSpec Spec.EcpSpec Spec.BlsSpec Spec.BlsSchemeSpec
  Proof.BigInv Proof.BigBytes Proof.NumTheory Proof.FieldP Proof.Weier Proof.FpBase Proof.Primes Proof.EcpW Proof.EcpBridge Proof.EcpMul Proof.EcpInst Proof.EcGroupInst Proof.EcpCodec Proof.EcpCodec3 Proof.PrimeBlsN Proof.BlsRoms Proof.BlsInst Proof.BlsG1 Proof.BlsSchemeProof Proof.Glv Proof.G1Cert Proof.G1MulProof Proof.G1Exact Proof.G1Grp Proof.RandProof.
From Coq Require Import Lia Znumtheory.

(** BLS12-381: the field, the standard generator of G1, its order, and |x| *)
Definition P381 : Z := 0x1a0111ea397fe69a4b1ba7b6434bacd764774b84f38512bf6730d2a0f6b0f6241eabfffeb153ffffb9feffffffffaaab.
Definition G1 : point := Aff 0x17f1d3a73197d7942695638c4fa9ac0fc3688c4f9774b905a14e3a3f171bac586c55e83ff97a1aeffb3af00adb22c6bb
  0x08b3f481e3aaa0f1a09e30ed741d8ae4fcf5e095d5d00af600db18cb2c04b3edd03cc744a2888ae40caa232946c5e7e1.
Definition n381 : Z := 0x73eda753299d7d483339d80809a1d80553bda402fffe5bfeffffffff00000001.
Definition X381 : Z := 0xd201000000010000.
(** k A = C, on y^2 = x^3 + 4 over the integers modulo P381, by repeated addition; and the subgroup of G1 *)
Definition times (A : point) (k : Z) (C : point) : Prop := w_times P381 0 A (Z.to_nat k) C.
Definition in_G1 (A : point) : Prop := exists k, 0 <= k /\ times G1 k A.

Section S.
Variables (r : rom) (bnx cru : list Z).
Hypothesis HI : In (r, bnx, cru) g1_roms.
Let HR : In r bls_roms := g1_bls r bnx cru HI.
Let Hw : w_ok r := bls_w r HR.
Let Hp : prime (pmod r) := bls_prime r HR.
Let Hn := bls_no2 r HR.
Let WG := w_group r Hw Hp Hn.
Lemma pP : pmod r = P381. Proof. exact (bls_p r HR). Qed.
Lemma aA : cA r = 0. Proof. exact (proj1 (bls_AB r HR)). Qed.
Lemma G1g : G1 = Aff (gx r) (gy r). Proof. destruct (g_xy r bnx cru HI) as [-> ->]. reflexivity. Qed.
Notation zt := (ztimes (apt (pmod r)) (AInf (pmod r)) (asum (pmod r) (mk (pmod r) (cA r))) (aneg (pmod r))).
Lemma times_zt A k C : on_w (pmod r) (cA r) (cB r) A -> 0 <= k -> (times A k C <-> C = sp (pmod r) (zt k (ak (pmod r) A))).
Proof. intros O K. unfold times. pose proof (w_times_iff r Hw Hp Hn A (Z.to_nat k) C O) as W. rewrite pP, aA in W. rewrite W. rewrite ztimes_nat by exact K. rewrite pP, aA. reflexivity. Qed.
Lemma in_zt A : in_G1 A -> on_w (pmod r) (cA r) (cB r) A /\ exists k, ak (pmod r) A = zt k (ak (pmod r) (Aff (gx r) (gy r))).
Proof.
  intros [k [K T]]. rewrite G1g in T. pose proof (g_on r bnx cru HI) as OG. apply (times_zt _ k A OG K) in T. subst A. split.
  - apply on_sp; [exact Hp|]. apply (ztimes_on _ _ _ _ _ WG). apply on_ak; [exact Hp|exact OG].
  - exists k. apply ak_sp. exact Hp.
Qed.

(** the object P stands for k times the generator *)
Definition in_rep (P : ecp) (k : Z) : Prop := exists A, w_point r P A /\ times G1 (k mod n381) A.
Notation Gp := (ak (pmod r) (Aff (gx r) (gy r))).
Let Og : aon (pmod r) (mk (pmod r) (cA r)) (mk (pmod r) (cB r)) Gp := on_ak _ Hp _ _ _ (g_on r bnx cru HI).
Lemma zt_mod k : zt (k mod n381) Gp = zt k Gp.
Proof. apply (zt_inj r bnx cru HI). change bls381_n with n381. apply Z.mod_mod. discriminate. Qed.
Lemma n_mod k : 0 <= k mod n381 < n381. Proof. apply Z.mod_pos_bound. reflexivity. Qed.
Lemma times_sp k A : 0 <= k -> (times G1 k A <-> A = sp (pmod r) (zt k Gp)).
Proof. intros K. rewrite G1g. apply times_zt; [exact (g_on r bnx cru HI)|exact K]. Qed.
Lemma times_nat k A : 0 <= k -> times G1 k A <-> times G1 (k mod n381) A.
Proof. intros K. rewrite (times_sp k A K), (times_sp (k mod n381) A (proj1 (n_mod k))), zt_mod. reflexivity. Qed.
Lemma rep_den P k : in_rep P k <-> wden r P (zt k Gp).
Proof.
  split.
  - intros [A [W T]]. apply (times_sp _ _ (proj1 (n_mod k))) in T. apply (w_point_den r Hw Hp) in W. destruct W as [_ W]. rewrite T, (ak_sp _ Hp), zt_mod in W. exact W.
  - intros W. exists (sp (pmod r) (zt k Gp)). split; [apply (den_w_point r Hw Hp); exact W|]. apply (times_sp _ _ (proj1 (n_mod k))). rewrite zt_mod. reflexivity.
Qed.
Lemma ser_rep bd P k : in_rep P k -> exists A, times G1 (k mod n381) A /\ w_point r P A /\ serialize_g1 r bd P = Some (compress1 P381 48 A).
Proof.
  intros H. pose proof (proj1 (rep_den P k) H) as W. exists (sp (pmod r) (zt k Gp)). split; [apply (times_sp _ _ (proj1 (n_mod k))); rewrite zt_mod; reflexivity|]. split; [apply (den_w_point r Hw Hp); exact W|].
  rewrite <- pP, <- (bls_N r HR). exact (ser1 r bnx cru HI bd P k W).
Qed.
Lemma clen A : length (compress1 P381 48 A) = 48%nat /\ bytes (compress1 P381 48 A).
Proof. destruct A; split; try apply i2osp_length; apply i2osp_bytes. Qed.
Lemma des_rep b A : on_w (pmod r) (cA r) (cB r) A -> b = compress1 P381 48 A \/ b = plain1 48 A -> exists P, deserialize_g1 r b = Some (Ok P) /\ w_point r P A.
Proof.
  intros O H. rewrite <- pP, <- (bls_N r HR) in H. apply decode_g1_ok with (A := A); auto using bls_w, bls_codec, bls_ns, bls_no2, bls_bits; rewrite (bls_N r HR); lia.
Qed.
Lemma rep_fun' P k k' : in_rep P k -> in_rep P k' -> k mod n381 = k' mod n381.
Proof. intros H1 H2. apply rep_den in H1, H2. apply (zt_inj r bnx cru HI). exact (wden_uniq r bnx cru HI P _ _ H1 H2). Qed.
Variable bd : build.
Variable hash : list Z -> list Z -> option ecp.
Notation GG := (g1_grp r bnx cru bd hash).
Lemma grp1 : grp_ok (r_cfg r) n381 48 GG in_rep.
Proof.
  split; unfold g1_grp, cg; cbn [obj g_gen g_mul g_add g_neg g_ser g_deser g_check g_hash g_from].
  - intros P k k' [A [W T]] E. exists A. rewrite <- E. auto.
  - exact rep_fun'.
  - destruct (gen1 r bnx cru HI) as [g [G1' G2]]. exists g. split; [exact G1'|]. apply rep_den. rewrite (ztimes_1 _ _ _ _ _ WG) by exact Og. exact G2.
  - intros P k s H Ws Ls. apply rep_den in H. destruct (mul1 r bnx cru HI P k s H Ws Ls) as [R [R1 R2]]. exists R. split; [exact R1|]. apply rep_den. exact R2.
  - intros P Q k l H1 H2. apply rep_den in H1, H2. destruct (add1 r bnx cru HI P Q k l H1 H2) as [R [R1 R2]]. exists R. split; [exact R1|]. apply rep_den. exact R2.
  - intros P k H. apply rep_den in H. destruct (neg1 r bnx cru HI P k H) as [R [R1 R2]]. exists R. split; [exact R1|]. apply rep_den. exact R2.
  - intros P k H. destruct (ser_rep bd P k H) as [A [T [W E]]]. destruct (des_rep (compress1 P381 48 A) A (proj1 W) (or_introl eq_refl)) as [Q [Q1 Q2]].
    exists (compress1 P381 48 A), Q. destruct (clen A) as [L B]. split; [exact E|]. split; [exact L|]. split; [exact B|]. split; [exact Q1|]. exists A. auto.
  - intros b Hb. destruct (deser1 r bnx cru HI b Hb) as [H|[A [P [O [_ [D W]]]]]]; [left; exact H|right]. pose proof (proj1 (w_point_den r Hw Hp P A) W) as [_ HD].
    destruct (sub_check r bnx cru HI P _ HD) as [ok [B1 _]]. exists P, ok. split; [exact D|]. split; [exact B1|]. split.
    + intros ->. destruct (sub_exact r bnx cru HI P _ HD B1) as [k K]. exists k. apply rep_den. rewrite <- K. exact HD.
    + intros [k H]. apply rep_den in H. pose proof (wden_uniq r bnx cru HI P _ _ HD H) as E. rewrite (sub_complete r bnx cru HI P _ k E HD) in B1. congruence.
Qed.
(** byte strings that denote elements *)
Definition encodes (b : list Z) (A : point) : Prop := b = compress1 P381 48 A \/ b = plain1 48 A.
Lemma den_enc b k : bytes b -> (denotes GG in_rep b k <-> exists A, encodes b A /\ times G1 (k mod n381) A).
Proof.
  intros Hb. split.
  - intros [P [D H]]. cbn in D. destruct (deser1 r bnx cru HI b Hb) as [[e E]|[A [Q [O [HE [D' W]]]]]]; [congruence|]. rewrite D in D'. injection D' as <-.
    destruct H as [A' [W' T]]. assert (EA : A' = A).
    { pose proof (proj1 (w_point_den r Hw Hp P A) W) as [_ D1]. pose proof (proj1 (w_point_den r Hw Hp P A') W') as [O' D2]. rewrite <- (sp_ak _ _ _ A O), <- (sp_ak _ _ _ A' O'). f_equal. exact (wden_uniq r bnx cru HI P _ _ D2 D1). }
    subst A'. exists A. split; [|exact T]. unfold encodes. rewrite <- pP, <- (bls_N r HR). exact HE.
  - intros [A [HE T]]. assert (O : on_w (pmod r) (cA r) (cB r) A). { apply (times_sp _ _ (proj1 (n_mod k))) in T. subst A. apply on_sp; [exact Hp|]. apply (ztimes_on _ _ _ _ _ WG). exact Og. }
    destruct (des_rep b A O HE) as [P [D W]]. exists P. split; [exact D|]. exists A. auto.
Qed.
Lemma enc_den b k A : 0 <= k -> encodes b A -> times G1 k A -> denotes GG in_rep b k.
Proof.
  intros K HE T. apply (times_nat k A K) in T. assert (O : on_w (pmod r) (cA r) (cB r) A). { apply (times_sp _ _ (proj1 (n_mod k))) in T. subst A. apply on_sp; [exact Hp|]. apply (ztimes_on _ _ _ _ _ WG). exact Og. }
  destruct (des_rep b A O HE) as [P [D W]]. exists P. split; [exact D|]. exists A. auto.
Qed.
Lemma plen A : length (plain1 48 A) = 96%nat.
Proof. destruct A; unfold plain1; rewrite app_length, i2osp_length; [rewrite repeat_length|rewrite i2osp_length]; reflexivity. Qed.
Lemma pk1 sk : valid_key sk -> exists A, times G1 (os2ip sk) A /\ secret_key_to_public_key r GG sk = Some (Ok (compress1 P381 48 A)).
Proof.
  intros H. pose proof (os2ip_range sk (proj1 H)) as S0. destruct (key_ok r HR sk H) as [s [E [W V]]]. unfold secret_key_to_public_key. rewrite E. cbn [rbind].
  destruct (BlsSchemeSpec.gen_ok _ _ _ _ _ grp1) as [g [G1' G2]]. rewrite G1'. cbn [bind]. destruct (BlsSchemeSpec.mul_ok _ _ _ _ _ grp1 g 1 s G2 W ltac:(rewrite V; exact (proj2 (proj2 H)))) as [Q [Q1 Q2]]. rewrite Q1. cbn [bind].
  destruct (ser_rep bd Q _ Q2) as [A [T [_ B]]]. change (g_ser GG Q) with (serialize_g1 r bd Q). rewrite B. cbn [bind]. exists A. split; [|reflexivity]. rewrite V, Z.mul_1_l in T. apply times_nat; [lia|exact T].
Qed.
Lemma sign1 sk msg dst H B : valid_key sk -> hash msg dst = Some H -> w_point r H B -> in_G1 B ->
  exists A, times B (os2ip sk) A /\ core_sign r GG sk msg dst = Some (Ok (compress1 P381 48 A)).
Proof.
  intros Hk HH WB HB. pose proof (os2ip_range sk (proj1 Hk)) as S0. destruct (key_ok r HR sk Hk) as [s [E [W V]]]. unfold core_sign. rewrite E. cbn [rbind]. change (g_hash GG msg dst) with (hash msg dst). rewrite HH. cbn [bind].
  destruct (in_zt B HB) as [OB [h EB]]. pose proof (proj1 (w_point_den r Hw Hp H B) WB) as [_ D]. rewrite EB in D.
  destruct (BlsSchemeSpec.mul_ok _ _ _ _ _ grp1 H h s (proj2 (rep_den H h) D) W ltac:(rewrite V; exact (proj2 (proj2 Hk)))) as [Q [Q1 Q2]]. rewrite Q1. cbn [bind].
  destruct (ser_rep bd Q _ Q2) as [A [T [_ E1]]]. change (g_ser GG Q) with (serialize_g1 r bd Q). rewrite E1. cbn [bind]. exists A. split; [|reflexivity].
  apply times_zt; [exact OB|lia|]. apply (times_sp _ _ (proj1 (n_mod _))) in T. rewrite T, zt_mod, EB, (ztimes_mul _ _ _ _ _ WG), V by exact Og. f_equal. f_equal. ring.
Qed.
Lemma agg1 pts ks : pts <> [] -> Forall2 (fun b k => 0 <= k /\ exists A, encodes b A /\ times G1 k A) pts ks ->
  exists A, times G1 (fold_right Z.add 0 ks) A /\ aggregate GG pts = Some (Ok (compress1 P381 48 A)).
Proof.
  intros NE F. assert (F2 : Forall2 (denotes GG in_rep) pts ks). { clear NE. induction F as [|b k pts ks [K [A [HE T]]] F IH]; constructor; [exact (enc_den b k A K HE T)|exact IH]. }
  assert (S0 : 0 <= fold_right Z.add 0 ks). { clear NE F2. induction F as [|b k pts ks [K _] F IH]; cbn [fold_right]; lia. }
  destruct (aggregate_ok r GG 48 in_rep grp1 pts ks NE F2) as [b [B1 [B2 [B3 B4]]]]. apply (den_enc b _ B3) in B4. destruct B4 as [A [[->| ->] T]]; [|rewrite plen in B2; discriminate B2]. exists A. split; [|exact B1]. apply times_nat; [exact S0|exact T].
Qed.
Lemma verify1 K sK repK pairs pk msg sg dst H B : grp_ok (r_cfg r) n381 sK K repK -> @pairs_ok K GG n381 repK in_rep pairs -> bytes pk -> bytes sg -> hash msg dst = Some H -> w_point r H B -> in_G1 B ->
  exists ans, core_verify SigG1 GG K pairs pk msg sg dst = Some ans /\ (ans = true <-> exists l A, denotes K repK pk l /\ 0 <= l /\ encodes sg A /\ times B l A).
Proof.
  intros HK HP Bp Bs HH WB HB. destruct (in_zt B HB) as [OB [h EB]]. pose proof (proj1 (w_point_den r Hw Hp H B) WB) as [_ D]. rewrite EB in D.
  assert (HA : hashes GG in_rep msg dst h) by (exists H; split; [exact HH|apply rep_den; exact D]).
  assert (TB : forall l A, 0 <= l -> (times B l A <-> times G1 ((h * l) mod n381) A)).
  { intros l A L. rewrite (times_zt B l A OB L), (times_sp _ A (proj1 (n_mod _))), zt_mod, EB, (ztimes_mul _ _ _ _ _ WG) by exact Og. rewrite (Z.mul_comm l h). reflexivity. }
  destruct (verify_iff r SigG1 GG K 48 sK in_rep repK grp1 HK pairs HP pk msg sg dst h Bp Bs HA) as [ans [A1 A2]]. exists ans. split; [exact A1|]. rewrite A2. split.
  - intros [l [L1 L2]]. apply (den_enc sg _ Bs) in L2. destruct L2 as [A [HE T]]. pose proof (n_mod l) as [N0 _]. exists (l mod n381), A. split; [|split; [exact N0|split; [exact HE|]]].
    + destruct L1 as [P [P1 P2]]. exists P. split; [exact P1|]. apply (BlsSchemeSpec.rep_cg _ _ _ _ _ HK P l); [exact P2|]. unfold cg. symmetry. apply Z.mod_mod. discriminate.
    + apply (TB _ _ N0). rewrite Z.mul_mod_idemp_r by discriminate. exact T.
  - intros [l [A [L1 [L0 [HE T]]]]]. exists l. split; [exact L1|]. apply (den_enc sg _ Bs). exists A. split; [exact HE|]. apply (TB _ _ L0). exact T.
Qed.
End S.

(** Every law of Spec/BlsSchemeSpec.v holds of the implemented G1: generator, multiplication by scalars below n, addition, negation,
    serialisation, deserialisation and the subgroup check; whatever the function that hashes to the curve. *)
Theorem C69_G1_satisfies_the_laws : forall r bnx cru bd hash, In (r, bnx, cru) g1_roms -> grp_ok (r_cfg r) n381 48 (g1_grp r bnx cru bd hash) (in_rep r).
Proof. intros r bnx cru bd hash HI. exact (grp1 r bnx cru HI bd hash). Qed.
Print Assumptions C69_G1_satisfies_the_laws.
(** keys in G1 (core.rs:662-669): the public key of a 32-byte secret key sk below n is the compressed encoding of sk times the generator *)
Theorem C69_public_key_bytes : forall r bnx cru bd hash sk, In (r, bnx, cru) g1_roms -> bytes sk -> length sk = 32%nat -> os2ip sk < n381 ->
  exists A, times G1 (os2ip sk) A /\ secret_key_to_public_key r (g1_grp r bnx cru bd hash) sk = Some (Ok (compress1 P381 48 A)).
Proof. intros r bnx cru bd hash sk HI H1 H2 H3. exact (pk1 r bnx cru HI bd hash sk (conj H1 (conj H2 H3))). Qed.
Print Assumptions C69_public_key_bytes.
(** signatures in G1 (core.rs:510-520): the signature is the compressed encoding of sk times the hash of the message *)
Theorem C69_signature_bytes : forall r bnx cru bd hash sk msg dst H B, In (r, bnx, cru) g1_roms -> bytes sk -> length sk = 32%nat -> os2ip sk < n381 ->
  hash msg dst = Some H -> w_point r H B -> in_G1 B ->
  exists A, times B (os2ip sk) A /\ core_sign r (g1_grp r bnx cru bd hash) sk msg dst = Some (Ok (compress1 P381 48 A)).
Proof. intros r bnx cru bd hash sk msg dst H B HI H1 H2 H3. exact (sign1 r bnx cru HI bd hash sk msg dst H B (conj H1 (conj H2 H3))). Qed.
Print Assumptions C69_signature_bytes.
(** aggregation in G1 (core.rs:562-573): from encodings, in either format, of multiples of the generator to the compressed encoding of their sum *)
Theorem C69_aggregate_bytes : forall r bnx cru bd hash pts ks, In (r, bnx, cru) g1_roms -> pts <> [] -> Forall2 (fun b k => 0 <= k /\ exists A, encodes b A /\ times G1 k A) pts ks ->
  exists A, times G1 (fold_right Z.add 0 ks) A /\ aggregate (g1_grp r bnx cru bd hash) pts = Some (Ok (compress1 P381 48 A)).
Proof. intros r bnx cru bd hash pts ks HI. exact (agg1 r bnx cru HI bd hash pts ks). Qed.
Print Assumptions C69_aggregate_bytes.
(** verification of a G1 signature (core.rs:525-557), for any second group and pairing with the stated laws: accepted exactly when the public key
    denotes l times the generator of the other group and the signature is an encoding, in either format, of l times the hash of the message *)
Theorem C69_verify_exact : forall r bnx cru bd hash K sK repK pairs pk msg sg dst H B, In (r, bnx, cru) g1_roms ->
  grp_ok (r_cfg r) n381 sK K repK -> @pairs_ok K (g1_grp r bnx cru bd hash) n381 repK (in_rep r) pairs -> bytes pk -> bytes sg -> hash msg dst = Some H -> w_point r H B -> in_G1 B ->
  exists ans, core_verify SigG1 (g1_grp r bnx cru bd hash) K pairs pk msg sg dst = Some ans /\
    (ans = true <-> exists l A, denotes K repK pk l /\ 0 <= l /\ encodes sg A /\ times B l A).
Proof. intros r bnx cru bd hash K sK repK pairs pk msg sg dst H B HI. exact (verify1 r bnx cru HI bd hash K sK repK pairs pk msg sg dst H B). Qed.
Print Assumptions C69_verify_exact.

(** Non-vacuity *)
Example C69_configs : In (rom_bls381_64, bnx_bls381_64, cru_bls381_64) g1_roms /\ In (rom_bls381_32, bnx_bls381_32, cru_bls381_32) g1_roms.
Proof. split; [left|right; left]; reflexivity. Qed.
Example C69_secret : bytes (i2osp 5 32) /\ length (i2osp 5 32) = 32%nat /\ os2ip (i2osp 5 32) < n381.
Proof. split; [apply i2osp_bytes|]. split; [apply i2osp_length|vm_compute; reflexivity]. Qed.
Example C69_point : times G1 1 G1 /\ encodes (compress1 P381 48 G1) G1.
Proof. split; [|left; reflexivity]. apply (wt_S P381 0 _ 0 Inf); [constructor|constructor]. Qed.
Example C69_public_key_of_one : forall hash, secret_key_to_public_key rom_bls381_64 (g1_grp rom_bls381_64 bnx_bls381_64 cru_bls381_64 Release hash) (i2osp 1 32) = Some (Ok (compress1 P381 48 G1)).
Proof.
  intros hash. destruct (C69_public_key_bytes _ _ _ Release hash (i2osp 1 32) (proj1 C69_configs) (i2osp_bytes _ _) (i2osp_length _ _) ltac:(vm_compute; reflexivity)) as [A [T E]]. rewrite E. do 3 f_equal.
  change (os2ip (i2osp 1 32)) with 1 in T. pose (HI := proj1 C69_configs). apply (times_sp _ _ _ HI 1 A ltac:(discriminate)) in T. rewrite T. symmetry. apply (times_sp _ _ _ HI 1 G1 ltac:(discriminate)). exact (proj1 C69_point).
Qed.
(** a second group and a pairing with the laws assumed by the verification theorem: G1 itself, pairing by discrete logarithms found by search *)
Section Dlog.
Variables (r : rom) (bnx cru : list Z).
Hypothesis HI : In (r, bnx, cru) g1_roms.
Let HR : In r bls_roms := g1_bls r bnx cru HI.
Let Hw : w_ok r := bls_w r HR.
Let Hp : prime (pmod r) := bls_prime r HR.
Let Hn := bls_no2 r HR.
Notation zt := (ztimes (apt (pmod r)) (AInf (pmod r)) (asum (pmod r) (mk (pmod r) (cA r))) (aneg (pmod r))).
Notation Gp := (ak (pmod r) (Aff (gx r) (gy r))).
Definition is_log (P : ecp) (k : Z) : Prop := serialize_g1 r Release P = Some (compress1 P381 48 (sp (pmod r) (zt k Gp))).
Lemma is_log_dec P k : {is_log P k} + {~ is_log P k}.
Proof. unfold is_log. destruct (serialize_g1 r Release P) as [b|]; [|right; discriminate]. destruct (bytes_dec b (compress1 P381 48 (sp (pmod r) (zt k Gp)))) as [->|N]; [left; reflexivity|right; congruence]. Qed.
Definition dlog (P : ecp) : Z := match zsearch _ (is_log_dec P) n381 with inleft (exist _ k _) => k | inright _ => 0 end.
Lemma dlog_ok P k : in_rep r P k -> dlog P mod n381 = k mod n381.
Proof.
  intros H. destruct (ser_rep r bnx cru HI Release P k H) as [A [T [W E]]]. apply (times_sp r bnx cru HI _ _ (proj1 (n_mod k))) in T. unfold dlog. destruct (zsearch _ (is_log_dec P) n381) as [[k' [K' L]]|NO].
  - unfold is_log in L. rewrite E in L. assert (EC : compress1 P381 48 A = compress1 P381 48 (sp (pmod r) (zt k' Gp))) by (injection L as L; exact L). clear L.
    destruct (des_rep r bnx cru HI _ A (proj1 W) (or_introl eq_refl)) as [Q [Q1 Q2]].
    assert (O' : on_w (pmod r) (cA r) (cB r) (sp (pmod r) (zt k' Gp))) by (apply on_sp; [exact Hp|]; apply (ztimes_on _ _ _ _ _ (w_group r Hw Hp Hn)); apply on_ak; [exact Hp|exact (g_on r bnx cru HI)]).
    destruct (des_rep r bnx cru HI _ _ O' (or_introl EC)) as [Q' [Q3 Q4]]. rewrite Q1 in Q3. injection Q3 as <-.
    apply (w_point_den r Hw Hp) in Q2, Q4. destruct Q2 as [_ D1], Q4 as [_ D2]. pose proof (wden_uniq r bnx cru HI Q _ _ D1 D2) as EQ. rewrite T, !(ak_sp _ Hp), (zt_mod r bnx cru HI) in EQ. symmetry. apply (zt_inj r bnx cru HI). exact EQ.
  - exfalso. apply (NO (k mod n381) (n_mod k)). unfold is_log. rewrite E, T. reflexivity.
Qed.
Definition dpairs (l : list (ecp * ecp)) : option bool := Some (fold_right (fun q s => dlog (fst q) * dlog (snd q) + s) 0 l mod n381 =? 0).
Lemma dpairs_ok hash : @pairs_ok (g1_grp r bnx cru Release hash) (g1_grp r bnx cru Release hash) n381 (in_rep r) (in_rep r) dpairs.
Proof.
  intros l es H. unfold dpairs. do 2 f_equal. induction H as [|[a b] [x y] l es [H1 H2] H IH]; [reflexivity|]. cbn [fold_right fst snd] in *.
  assert (N0 : n381 <> 0) by discriminate. rewrite Z.add_mod, IH, (Z.mul_mod (dlog a)), (dlog_ok a x H1), (dlog_ok b y H2), <- Z.mul_mod, <- Z.add_mod by exact N0. reflexivity.
Qed.
End Dlog.
Example C69_other_group : forall hash, exists K sK repK pairs, grp_ok (r_cfg rom_bls381_64) n381 sK K repK /\ @pairs_ok K (g1_grp rom_bls381_64 bnx_bls381_64 cru_bls381_64 Release hash) n381 repK (in_rep rom_bls381_64) pairs.
Proof.
  intros hash. exists (g1_grp rom_bls381_64 bnx_bls381_64 cru_bls381_64 Release hash), 48%nat, (in_rep rom_bls381_64), (dpairs rom_bls381_64). split; [exact (C69_G1_satisfies_the_laws _ _ _ Release hash (proj1 C69_configs))|exact (dpairs_ok _ _ _ (proj1 C69_configs) hash)].
Qed.

(** ** C51, for bls381: the generator has exactly the stored order *)
Lemma gen381 r bnx cru : In (r, bnx, cru) g1_roms -> times G1 n381 Inf /\ forall k, 0 < k < n381 -> ~ times G1 k Inf.
Proof.
  intros HI. assert (Z0 : forall k, 0 <= k -> (times G1 k Inf <-> k mod n381 = 0)).
  { intros k K. rewrite (times_sp r bnx cru HI k Inf K). change bls381_n with n381. split; intros E.
    - symmetry in E. assert (X : ztimes (apt (pmod r)) (AInf (pmod r)) (asum (pmod r) (mk (pmod r) (cA r))) (aneg (pmod r)) k (ak (pmod r) (Aff (gx r) (gy r))) = ztimes (apt (pmod r)) (AInf (pmod r)) (asum (pmod r) (mk (pmod r) (cA r))) (aneg (pmod r)) 0 (ak (pmod r) (Aff (gx r) (gy r)))).
      { match type of E with sp _ ?T = _ => destruct T end; [reflexivity|discriminate E]. }
      apply (zt_inj r bnx cru HI) in X. change bls381_n with n381 in X. rewrite X. reflexivity.
    - rewrite <- (zt_mod r bnx cru HI), E. reflexivity. }
  split; [apply Z0; [discriminate|reflexivity]|]. intros k K T. apply Z0 in T; [|apply Z.lt_le_incl; apply K]. rewrite Z.mod_small in T by (split; [apply Z.lt_le_incl|]; apply K). rewrite T in K. destruct K as [K _]. discriminate K.
Qed.
Theorem C51_bls381_point_order : forall r, In r [rom_bls381_32; rom_bls381_64] ->
  let p := bval (r_cfg r) (r_MODULUS r) in let n := bval (r_cfg r) (r_ORDER r) in let G := Aff (bval (r_cfg r) (r_GX r)) (bval (r_cfg r) (r_GY r)) in
  w_times p (r_CURVE_A r) G (Z.to_nat n) Inf /\ forall k, 0 < k < n -> ~ w_times p (r_CURVE_A r) G (Z.to_nat k) Inf.
Proof.
  intros r HR. cbv zeta. assert (E : bval (r_cfg r) (r_MODULUS r) = P381 /\ bval (r_cfg r) (r_ORDER r) = n381 /\ Aff (bval (r_cfg r) (r_GX r)) (bval (r_cfg r) (r_GY r)) = G1 /\ r_CURVE_A r = 0).
  { destruct HR as [<-|[<-|[]]]; (split; [apply Z.eqb_eq; vm_compute; reflexivity|split; [apply Z.eqb_eq; vm_compute; reflexivity|split; [|reflexivity]]]); unfold G1; f_equal; apply Z.eqb_eq; vm_compute; reflexivity. }
  destruct E as [-> [-> [-> ->]]]. exact (gen381 _ _ _ (proj1 C69_configs)).
Qed.
Print Assumptions C51_bls381_point_order.

(** ** C70: key pair generation *)
Lemma ikm_ok bd : forall m rng, sane rng -> exists b rng', getbytes bd m rng = Some (b, rng') /\ length b = m /\ bytes b /\ sane rng'.
Proof.
  induction m as [|m IH]; intros rng S; cbn [getbytes]; [exists [], rng; repeat split; try apply S; constructor|].
  destruct (getbyte_sane bd rng S) as [x [r1 [E [X S1]]]]. rewrite E. cbn [bind fst snd]. destruct (IH r1 S1) as [b [r2 [E2 [L [B S2]]]]]. rewrite E2. cbn [bind fst snd]. exists (x :: b), r2.
  split; [reflexivity|]. split; [cbn [length]; congruence|]. split; [constructor; assumption|exact S2].
Qed.
Lemma room32 bd : key_room bd 32 0.
Proof. unfold key_room, XmdSpec.hash_room. destruct bd; split; (left; reflexivity) || (right; vm_compute; reflexivity). Qed.
Lemma kg_range ikm info : 0 <= KeyGen n381 ikm info < n381.
Proof. unfold KeyGen. apply Z.mod_pos_bound. reflexivity. Qed.
Lemma kg_valid ikm info : valid_key (i2osp (KeyGen n381 ikm info) 32) /\ os2ip (i2osp (KeyGen n381 ikm info) 32) = KeyGen n381 ikm info.
Proof.
  pose proof (kg_range ikm info) as R. assert (E : os2ip (i2osp (KeyGen n381 ikm info) 32) = KeyGen n381 ikm info).
  { rewrite os2ip_i2osp. apply Z.mod_small. split; [apply R|]. eapply Z.lt_trans; [apply R|]. vm_compute. reflexivity. }
  split; [|exact E]. split; [apply i2osp_bytes|]. split; [apply i2osp_length|]. rewrite E. apply R.
Qed.
(** From any generator in a usable state: 32 of its bytes are drawn, the secret key is the draft's KeyGen of them with no key info, the public key
    is the matching multiple of the generator of K, and the call never panics (the [expect] cannot fail).  K is any group with the laws. *)
Theorem C70_key_pair : forall r bd K sK repK rng, In r bls_roms -> grp_ok (r_cfg r) n381 sK K repK -> sane rng ->
  exists ikm rng' pk, getbytes bd 32 rng = Some (ikm, rng') /\ sane rng' /\ length ikm = 32%nat /\ bytes ikm /\
    bls_key_pair_generate r bd K rng = Some ((i2osp (KeyGen n381 ikm []) 32, pk), rng') /\ length pk = sK /\ bytes pk /\ denotes K repK pk (KeyGen n381 ikm []).
Proof.
  intros r bd K sK repK rng HR HK S. destruct (ikm_ok bd 32 rng S) as [ikm [rng' [E [L [B S']]]]]. destruct (kg_valid ikm []) as [V VE].
  destruct (pk_ok r HR K sK repK HK _ V) as [pk [P1 [P2 [P3 P4]]]]. exists ikm, rng', pk. unfold bls_key_pair_generate. change SECRET_KEY_BYTES with 32%nat. rewrite E. cbn [bind fst snd].
  rewrite (keygen r HR bd ikm [] B (Forall_nil _)) by (rewrite L; exact (room32 bd)). cbn [bind]. change bls381_n with n381. rewrite P1. cbn [bind]. rewrite VE in P4. exact (conj eq_refl (conj S' (conj L (conj B (conj eq_refl (conj P2 (conj P3 P4))))))).
Qed.
Print Assumptions C70_key_pair.
(** public keys in G1 (key_pair_generate_g2): the exact bytes *)
Theorem C70_key_pair_g1_bytes : forall r bnx cru bd hash rng, In (r, bnx, cru) g1_roms -> sane rng ->
  exists ikm rng' A, getbytes bd 32 rng = Some (ikm, rng') /\ sane rng' /\ times G1 (KeyGen n381 ikm []) A /\
    bls_key_pair_generate r bd (g1_grp r bnx cru bd hash) rng = Some ((i2osp (KeyGen n381 ikm []) 32, compress1 P381 48 A), rng').
Proof.
  intros r bnx cru bd hash rng HI S. destruct (ikm_ok bd 32 rng S) as [ikm [rng' [E [L [B S']]]]]. destruct (kg_valid ikm []) as [V VE].
  destruct (pk1 r bnx cru HI bd hash _ V) as [A [T P1]]. exists ikm, rng', A. unfold bls_key_pair_generate. change SECRET_KEY_BYTES with 32%nat. rewrite E. cbn [bind fst snd].
  rewrite (keygen r (g1_bls r bnx cru HI) bd ikm [] B (Forall_nil _)) by (rewrite L; exact (room32 bd)). cbn [bind]. change bls381_n with n381. rewrite P1. cbn [bind]. rewrite VE in T. exact (conj eq_refl (conj S' (conj T eq_refl))).
Qed.
Print Assumptions C70_key_pair_g1_bytes.
(** Non-vacuity: a seeded generator is usable *)
Example C70_seeded : forall bd raw g, bytes raw -> length raw = 64%nat -> exists rng, rnd_seed bd g 64 raw = Some rng /\ sane rng.
Proof. intros bd raw g B L. apply (seed_sane bd g 64 raw); [lia|exact B|]. destruct bd; [unfold Sha2Stream.fits; vm_compute; reflexivity|exact I]. Qed.
