(** map_to_curve_g1 and hash_to_curve_g1 (64-bit limbs). *)
From Verif Require Import Base.Word Base.Arr Model.Big Model.Roms Model.Sha2 Model.Fp Model.Fp2 Model.Ecp Model.HashToCurve Model.Sswu Model.Iso
  Spec.Bytes Spec.BigSpec Spec.RomSpec Spec.FpSpec Spec.Sha2Spec Spec.XmdSpec Spec.CurveSpec Spec.EcpSpec Spec.SswuSpec Spec.IsoSpec Spec.HashG1Spec Spec.TowerRep
  Proof.NumTheory Proof.BigVal Proof.BigInv Proof.BigMod Proof.FpBase Proof.FpOps Proof.FpSqrt Proof.FpIv Proof.FieldP Proof.Weier Proof.EcpOps Proof.EcpW Proof.EcpBridge Proof.EcpMul Proof.EcpInst Proof.EcpCodec Proof.EcpCodec3 Proof.Primes Proof.BlsRoms Proof.BlsInst
  Proof.TowerInv Proof.Sha2Block Proof.H2cProof Proof.SswuMath Proof.SswuFp Proof.IsoMath Proof.IsoProof Proof.SswuInst.
From Coq Require Import Lia Znumtheory.
Notation q := bls381_p.
Notation r4 := rom_bls381_64.
Lemma in4 : In r4 bls_roms. Proof. left. reflexivity. Qed.
Lemma p4 : pmod r4 = q. Proof. exact (bls_p r4 in4). Qed.
Section Pure.
Variable p : Z.
Hypothesis Hp : prime p.
Lemma frac_curve v b a d e i j g : 0 < p -> (d * i) mod p = 1 mod p -> (e * j) mod p = 1 mod p -> (e * e) mod p = (d * d * d) mod p -> (v * v) mod p = g mod p ->
  (g * (b * b)) mod p = (a * a * a + 4 * (d * d * d)) mod p -> (v * b * j * (v * b * j)) mod p = (a * i * (a * i) * (a * i) + 4) mod p.
Proof.
  intros P0 Hi Hj He Hv Hg.
  transitivity ((g * (b * b) * (j * j)) mod p). { replace (v * b * j * (v * b * j)) with (v * v * (b * b) * (j * j)) by ring. apply FpOps.cg_mul; [|reflexivity]. apply FpOps.cg_mul; [exact Hv|reflexivity]. }
  transitivity (((a * a * a + 4 * (d * d * d)) * (j * j)) mod p). { apply FpOps.cg_mul; [exact Hg|reflexivity]. }
  assert (E : (j * j) mod p = (i * i * i) mod p).
  { transitivity ((j * j * (d * i * (d * i) * (d * i))) mod p). { rewrite <- (Z.mul_1_r (j * j)) at 1. apply FpOps.cg_mul; [reflexivity|]. symmetry. replace 1 with (1 * 1 * 1) by ring. apply FpOps.cg_mul; [apply FpOps.cg_mul|]; exact Hi. }
    transitivity ((j * j * (e * e) * (i * i * i)) mod p). { replace (j * j * (d * i * (d * i) * (d * i))) with (j * j * (d * d * d) * (i * i * i)) by ring. apply FpOps.cg_mul; [|reflexivity]. apply FpOps.cg_mul; [reflexivity|]. symmetry. exact He. }
    replace (j * j * (e * e) * (i * i * i)) with (e * j * (e * j) * (i * i * i)) by ring. rewrite <- (Z.mul_1_l (i * i * i)) at 2. apply FpOps.cg_mul; [|reflexivity]. replace 1 with (1 * 1) by ring. apply FpOps.cg_mul; exact Hj. }
  transitivity (((a * a * a + 4 * (d * d * d)) * (i * i * i)) mod p). { apply FpOps.cg_mul; [reflexivity|exact E]. }
  replace ((a * a * a + 4 * (d * d * d)) * (i * i * i)) with (a * i * (a * i) * (a * i) + 4 * (d * i * (d * i) * (d * i))) by ring.
  apply FpOps.cg_add; [reflexivity|]. replace 4 with (4 * (1 * 1 * 1)) at 2 by ring. apply FpOps.cg_mul; [reflexivity|]. apply FpOps.cg_mul; [apply FpOps.cg_mul|]; exact Hi.
Qed.
End Pure.
Lemma q1 : 1 mod q = 1. Proof. reflexivity. Qed.
Lemma q3 : 3 < q. Proof. reflexivity. Qed.
Lemma iso11_curve u v : peval E2_x_den u mod q <> 0 -> (v * v) mod q = (u ^ 3 + E11_A * u + E11_B) mod q -> on_w q 0 4 (iso11 u v).
Proof.
  intros Hd Hc. unfold iso11. destruct (Z.eqb_spec (peval E2_x_den u mod q) 0) as [E|_]; [contradiction|]. pose proof q_pos as Q0. cbn [on_w].
  split; [apply Z.mod_pos_bound; exact Q0|]. split; [apply Z.mod_pos_bound; exact Q0|]. unfold cong. rewrite <- Z.mul_mod by lia.
  pose proof (ev_iso u) as EI. pose proof (ev_den u) as ED. pose proof (yd_zero u) as YD.
  pose proof (inv0_ok q prime_bls381_p eq_refl _ Hd) as I. assert (He : peval E2_y_den u mod q <> 0) by (intros E; apply Hd; apply YD; exact E). pose proof (inv0_ok q prime_bls381_p eq_refl _ He) as J.
  replace (u ^ 3 + E11_A * u + E11_B) with (u * u * u + E11_A * u + E11_B) in Hc by ring.
  revert EI ED I J Hc. generalize (inv0 q (peval E2_x_den u)) (inv0 q (peval E2_y_den u)). intros i j. generalize (peval E2_x_den u) (peval E2_y_den u) (peval E2_x_num u) (peval E2_y_num u). generalize (u * u * u + E11_A * u + E11_B).
  intros g d e a b EI ED I J Hc.
  rewrite (frac_curve q v b a d e i j g Q0 ltac:(rewrite q1; exact I) ltac:(rewrite q1; exact J) ED Hc EI).
  apply FpOps.cg_add; [|reflexivity]. rewrite Z.mul_0_l, Z.add_0_r. symmetry. apply FpOps.cg_mul; [apply FpOps.cg_mul|]; apply Z.mod_mod; lia.
Qed.
Section Iso64.
Let Hf : fp_ok r4 := bls_fp_ok r4 in4.
Lemma iso64 e1 e2 x y u v : frep r4 0 1 e1 x u -> frep r4 1 1 e2 y v ->
  exists P, iso11_to_ecp r4 x y = Some P /\
    frep r4 0 1 2 (ex P) (peval E2_x_num u * peval E2_y_den u) /\ frep r4 0 1 2 (ey P) (peval E2_y_num u * v * peval E2_x_den u) /\ frep r4 0 1 2 (ez P) (peval E2_x_den u * peval E2_y_den u).
Proof. apply (iso_ok r4 Hf (bls_ns r4 in4) (bls_mb r4 in4) (i_fe r4 in4) (i_w r4 in4) (i_kok r4 in4) i_w22). Qed.
Theorem iso_point e1 e2 x y u v : frep r4 0 1 e1 x u -> frep r4 1 1 e2 y v -> (v * v) mod q = (u ^ 3 + E11_A * u + E11_B) mod q ->
  exists P, iso11_to_ecp r4 x y = Some P /\ (iso11 u v <> Inf -> w_point r4 P (iso11 u v)) /\
    (iso11 u v = Inf -> fp_rep r4 1 (ex P) 0 /\ fp_rep r4 1 (ey P) 0 /\ fp_rep r4 1 (ez P) 0).
Proof.
  intros Hx Hy Hc. destruct (iso64 e1 e2 x y u v Hx Hy) as [P [E [C1 [C2 C3]]]]. exists P. split; [exact E|].
  assert (FR : forall f w, frep r4 0 1 2 f w -> fp_rep r4 1 f w) by (intros f w; apply (frep_rep r4 Hf 0 1 2); lia).
  pose proof q_pos as Q0. pose proof (yd_zero u) as YD. split.
  - intros Hn. pose proof (iso11_curve u v) as OC. unfold iso11 in Hn, OC |- *. destruct (Z.eqb_spec (peval E2_x_den u mod q) 0) as [Ed|Ed]; [congruence|]. specialize (OC Ed Hc).
    destruct (bls_AB r4 in4) as [EA EB]. split; [rewrite EA, EB, p4; exact OC|]. eexists _, _, _. split; [split; [apply FR; exact C1|split; [apply FR; exact C2|apply FR; exact C3]]|]. rewrite p4. unfold cong. clear OC Hn C1 C2 C3 FR E Hx Hy.
    pose proof (inv0_ok q prime_bls381_p eq_refl _ Ed) as I. assert (He : peval E2_y_den u mod q <> 0) by (intros E; apply Ed; apply YD; exact E). pose proof (inv0_ok q prime_bls381_p eq_refl _ He) as J. clear YD Hc.
    revert I J Ed He. generalize (inv0 q (peval E2_x_den u)) (inv0 q (peval E2_y_den u)). intros i j. generalize (peval E2_x_den u) (peval E2_y_den u) (peval E2_x_num u) (peval E2_y_num u). intros d e a b I J Hd He.
    split. { rewrite Z.mod_0_l by lia. intros Z0. apply (prime_mul_zero q _ _ prime_bls381_p) in Z0. destruct Z0; contradiction. }
    rewrite !Z.mul_mod_idemp_l by lia. split.
    + replace (a * i * (d * e)) with (d * i * (a * e)) by ring. rewrite <- (Z.mul_1_l (a * e)) at 2. apply FpOps.cg_mul; [rewrite q1; exact I|reflexivity].
    + replace (v * b * j * (d * e)) with (e * j * (b * v * d)) by ring. rewrite <- (Z.mul_1_l (b * v * d)) at 2. apply FpOps.cg_mul; [rewrite q1; exact J|reflexivity].
  - unfold iso11. destruct (Z.eqb_spec (peval E2_x_den u mod q) 0) as [Ed|Ed]; [|discriminate]. intros _. pose proof (proj2 YD Ed) as He.
    assert (ZR : forall f a b, frep r4 0 1 2 f (a * b) -> b mod q = 0 -> fp_rep r4 1 f 0). { intros f a b H H0. apply FR. apply (frep_cong r4 0 1 2 f (a * b)); [|exact H]. rewrite p4, Z.mul_mod, H0, Z.mul_0_r by lia. reflexivity. }
    split; [exact (ZR _ _ _ C1 He)|]. split; [exact (ZR _ _ _ C2 Ed)|exact (ZR _ _ _ C3 He)].
Qed.
Theorem map_point e f u : frep r4 0 1 e f u -> (u mod q <> 0 \/ bval (r_cfg r4) (fx f) < q) ->
  exists P, map_to_curve_g1 r4 f = Some P /\ (map_g1 u <> Inf -> w_point r4 P (map_g1 u)) /\
    (map_g1 u = Inf -> fp_rep r4 1 (ex P) 0 /\ fp_rep r4 1 (ey P) 0 /\ fp_rep r4 1 (ez P) 0).
Proof.
  intros Hu Hc. unfold map_to_curve_g1, map_g1. cbv zeta. destruct (bls_sswu r4 in4 e f u Hu Hc) as [x [y [E [Qx Qy]]]]. rewrite E. cbn [bind fst snd].
  pose proof (bls_sswu_curve u) as [C _]. apply (iso_point 2 (FEXCESS r4) x y _ _ Qx Qy C).
Qed.
Let Hw : w_ok r4 := bls_w r4 in4.
Let Hp : prime (pmod r4) := bls_prime r4 in4.
Let Hn : no_order2 (pmod r4) (cA r4) (cB r4) := bls_no2 r4 in4.
Lemma add64 P Q A B : w_point r4 P A -> w_point r4 Q B -> exists R C, ecp_add r4 P Q = Some R /\ w_sum (pmod r4) (cA r4) A B C /\ w_point r4 R C.
Proof.
  intros H1 H2. apply (w_point_den r4 Hw Hp) in H1. apply (w_point_den r4 Hw Hp) in H2. destruct H1 as [O1 H1], H2 as [O2 H2].
  pose proof (p_gt3 r4 (proj1 Hw)) as H3. destruct (w_add r4 Hw Hp Hn P Q _ _ H1 H2) as [R [R1 R2]]. exists R, (sp (pmod r4) (asum (pmod r4) (mk (pmod r4) (cA r4)) (ak (pmod r4) A) (ak (pmod r4) B))).
  split; [exact R1|]. split; [apply (spec_sum_iff _ Hp H3 _ (cB r4)); [exact O1|exact O2|reflexivity]|]. apply den_w_point; assumption.
Qed.
Lemma mul64 P A e : w_point r4 P A -> big_wf (r_cfg r4) e -> scalar_ok r4 (bval (r_cfg r4) e) ->
  exists R C, ecp_mul r4 P e = Some R /\ w_times (pmod r4) (cA r4) A (Z.to_nat (bval (r_cfg r4) e)) C /\ w_point r4 R C.
Proof.
  intros H1 He Hm. apply (w_point_den r4 Hw Hp) in H1. destruct H1 as [O1 H1]. pose proof (ff_ok r4 (fp_ok_facts r4 (proj1 Hw))) as Hok.
  assert (Hnm : is_mont r4 = false) by (unfold is_mont; rewrite (proj1 (proj2 (proj2 (proj2 Hw)))); reflexivity).
  destruct (mul_ok r4 Hok Hnm _ _ _ _ _ (w_group r4 Hw Hp Hn) _ _ (w_pops r4 Hw Hp Hn) P _ e H1 He Hm) as [R [R1 [R2 R3]]].
  assert (V0 : 0 <= bval (r_cfg r4) e) by (unfold bval; pose proof (BigInv.brange _ Hok e He); lia). unfold bval in *. rewrite ztimes_nat in R2 by exact V0.
  eexists R, _. split; [exact R1|]. split; [apply (w_times_iff r4 Hw Hp Hn); [exact O1|reflexivity]|]. apply (den_w_point r4 Hw Hp); exact R2.
Qed.
Lemma heff : exists h, H_EFF_G1 r4 = Some h /\ big_wf (r_cfg r4) h /\ bval (r_cfg r4) h = h_eff_G1.
Proof.
  eexists. split; [vm_compute; reflexivity|]. split; [|vm_compute; reflexivity]. split; [reflexivity|]. repeat constructor; vm_compute; congruence.
Qed.
Lemma zst4 : zst r4.
Proof. intros f H. assert (E : exists g, fp_new_big r4 (repeat 0 (NLEN (r_cfg r4))) = Some g /\ (val (BASEBITS (r_cfg r4)) (fx g) <? pmod r4) = true) by (eexists; split; [vm_compute; reflexivity|vm_compute; reflexivity]). destruct E as [g [E1 E2]]. rewrite E1 in H. injection H as <-. apply Z.ltb_lt. exact E2. Qed.
Theorem hash64 bd msg dst : bytes msg -> bytes dst ->
  hash_room bd SHA256 (Z.of_nat (Sha2Spec.B SHA256) + Z.of_nat (length msg) + 259) -> hash_room bd SHA256 (17 + Z.of_nat (length dst)) ->
  exists u0 u1, HTF_SHA2 SHA256 q 64 1 msg 2 dst = Some [[u0]; [u1]] /\
    (map_g1 u0 <> Inf -> map_g1 u1 <> Inf -> exists P Q, hash_to_curve_g1 r4 sha256 bd msg dst = Some P /\ hash_g1 msg dst Q /\ w_point r4 P Q).
Proof.
  intros Bm Bd R1 R2. assert (M32 : 32 <= MODBYTES (r_cfg r4)) by (rewrite (bls_mb r4 in4); lia).
  pose proof (htf1_strong sha256 SHA256 m256 bd (length msg) (length dst) R1 R2 r4 Hf (bls_ns r4 in4) M32 msg 2 dst eq_refl eq_refl Bm Bd ltac:(change (outlen SHA256) with 32%nat; lia)) as T.
  rewrite p4 in T. fold (HTF_SHA2 SHA256) in T. change (HTF (SHA2 SHA256) (outlen SHA256) (Sha2Spec.B SHA256)) with (HTF_SHA2 SHA256) in T.
  destruct (HTF_SHA2 SHA256 q 64 1 msg 2 dst) as [vs|] eqn:EH.
  2:{ exfalso. revert EH. unfold HTF_SHA2, HTF, XMD. change (ell (outlen SHA256) (2 * 1 * 64) <=? 255)%nat with true. cbv iota. discriminate. }
  assert (Lv : length vs = 2%nat). { revert EH. unfold HTF_SHA2, HTF. destruct (XMD _ _ _ _ _ _); [|discriminate]. intros EH. assert (E : length vs = length (seq 0 2)) by (rewrite <- (map_length (fun i => map (coordinate q 64 1 l i) (seq 0 1))); congruence). exact E. }
  destruct T as [us [T1 T2]]. inversion T2 as [|f0 v0 us0 vs0 [u0 [E0 [L0 [G0 Z0]]]] T3 EQ1 EQ2]; subst; [discriminate Lv|]. inversion T3 as [|f1 v1 us1 vs1 [u1 [E1 [L1 [G1 Z1]]]] T4 EQ1 EQ2]; subst; [discriminate Lv|].
  inversion T4; subst; [|discriminate Lv]. exists u0, u1. split; [reflexivity|]. intros N0 N1. unfold hash_to_curve_g1. change (Z.of_nat 2) with 2 in T1. rewrite T1. cbn [bind].
  assert (C : forall u f, 0 <= u < pmod r4 -> (zst r4 -> u = 0 -> val (BASEBITS (r_cfg r4)) (fx f) < pmod r4) -> u mod q <> 0 \/ bval (r_cfg r4) (fx f) < q).
  { intros u f G Z. rewrite p4 in *. destruct (Z.eq_dec u 0) as [E|E]; [right; exact (Z zst4 E)|left; rewrite Z.mod_small by exact G; exact E]. }
  destruct (map_point 2 f0 u0 (proj1 (el1_frep r4 Hf 2 f0 u0) L0) (C u0 f0 G0 Z0)) as [P0 [M0 [W0 _]]]. destruct (map_point 2 f1 u1 (proj1 (el1_frep r4 Hf 2 f1 u1) L1) (C u1 f1 G1 Z1)) as [P1 [M1 [W1 _]]].
  rewrite M0, M1. cbn [bind]. destruct (add64 P0 P1 _ _ (W0 N0) (W1 N1)) as [S [A [S1 [S2 S3]]]]. rewrite S1. cbn [bind]. destruct heff as [h [H1 [H2 H3]]]. rewrite H1. cbn [bind].
  destruct (mul64 S A h S3 H2) as [P [D [P1' [P2 P3]]]]. { rewrite H3. vm_compute. reflexivity. }
  exists P, D. split; [exact P1'|]. split; [|exact P3]. rewrite p4 in S2, P2. rewrite (proj1 (bls_AB r4 in4)) in S2, P2. rewrite H3 in P2. exists u0, u1, A. split; [exact EH|]. split; assumption.
Qed.
End Iso64.
