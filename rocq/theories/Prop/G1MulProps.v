(** C63: G1 scalar multiplication with the curve endomorphism (pair::g1mul) and the G1 subgroup check, for the two bls381 configurations. *)
From Verif Require Import Base.Word Base.Arr Model.Big Model.Roms Model.Fp Model.Ecp Model.G1Mul Spec.BigSpec Spec.RomSpec Spec.FpSpec Spec.CurveSpec Spec.EcpSpec
  Proof.BigInv Proof.FieldP Proof.Weier Proof.FpBase Proof.Primes Proof.EcpW Proof.EcpBridge Proof.EcpMul Proof.EcpInst Proof.EcGroupInst Proof.EcpCodec Proof.EcpCodec3 Proof.BlsRoms Proof.BlsInst Proof.Glv Proof.G1Cert Proof.G1MulProof.
From Coq Require Import Lia Znumtheory.

(** BLS12-381: the field, the standard generator of G1, its order, and |x| *)
Definition P381 : Z := 0x1a0111ea397fe69a4b1ba7b6434bacd764774b84f38512bf6730d2a0f6b0f6241eabfffeb153ffffb9feffffffffaaab.
Definition G1 : point := Aff 0x17f1d3a73197d7942695638c4fa9ac0fc3688c4f9774b905a14e3a3f171bac586c55e83ff97a1aeffb3af00adb22c6bb
  0x08b3f481e3aaa0f1a09e30ed741d8ae4fcf5e095d5d00af600db18cb2c04b3edd03cc744a2888ae40caa232946c5e7e1.
Definition n381 : Z := 0x73eda753299d7d483339d80809a1d80553bda402fffe5bfeffffffff00000001.
Definition X381 : Z := 0xd201000000010000.
(** k A = C, on y^2 = x^3 + 4 over the integers modulo P381, by repeated addition; and the subgroup of G1 *)
Definition times (A : point) (k : Z) (C : point) : Prop := w_times P381 0 A (Z.to_nat k) C.
Definition in_G1 (A : point) : Prop := exists k, 0 <= k /\ times G1 k A.

Section S.
Variables (r : rom) (bnx cru : list Z).
Hypothesis HI : In (r, bnx, cru) g1_roms.
Let HR : In r bls_roms := g1_bls r bnx cru HI.
Let Hw : w_ok r := bls_w r HR.
Let Hp : prime (pmod r) := bls_prime r HR.
Let Hn := bls_no2 r HR.
Let WG := w_group r Hw Hp Hn.
Lemma pP : pmod r = P381. Proof. exact (bls_p r HR). Qed.
Lemma aA : cA r = 0. Proof. exact (proj1 (bls_AB r HR)). Qed.
Lemma G1g : G1 = Aff (gx r) (gy r). Proof. destruct (g_xy r bnx cru HI) as [-> ->]. reflexivity. Qed.
Notation zt := (ztimes (apt (pmod r)) (AInf (pmod r)) (asum (pmod r) (mk (pmod r) (cA r))) (aneg (pmod r))).
Lemma times_zt A k C : on_w (pmod r) (cA r) (cB r) A -> 0 <= k -> (times A k C <-> C = sp (pmod r) (zt k (ak (pmod r) A))).
Proof. intros O K. unfold times. pose proof (w_times_iff r Hw Hp Hn A (Z.to_nat k) C O) as W. rewrite pP, aA in W. rewrite W. rewrite ztimes_nat by exact K. rewrite pP, aA. reflexivity. Qed.
Lemma in_zt A : in_G1 A -> on_w (pmod r) (cA r) (cB r) A /\ exists k, ak (pmod r) A = zt k (ak (pmod r) (Aff (gx r) (gy r))).
Proof.
  intros [k [K T]]. rewrite G1g in T. pose proof (g_on r bnx cru HI) as OG. apply (times_zt _ k A OG K) in T. subst A. split.
  - apply on_sp; [exact Hp|]. apply (ztimes_on _ _ _ _ _ WG). apply on_ak; [exact Hp|exact OG].
  - exists k. apply ak_sp. exact Hp.
Qed.
Lemma nrm_out R C : wnrm r R C -> forall x y, sp (pmod r) C = Aff x y -> coords r R x y 1.
Proof.
  intros N x y E. destruct C as [|x' y']; [discriminate E|]. injection E as <- <-. destruct N as [v [V1 V2]]. apply nrm_coords with (v := v); try assumption; [exact (proj1 Hw)|]. rewrite !mk_fz by exact Hp. exact V2.
Qed.
Lemma g1mul_any P A e : in_G1 A -> w_point r P A -> big_wf (r_cfg r) e -> bval (r_cfg r) e < (n381 + 1) * X381 ^ 2 ->
  exists R C, g1mul r bnx cru P e = Some R /\ times A (bval (r_cfg r) e) C /\ w_point r R C /\ (forall x y, C = Aff x y -> coords r R x y 1).
Proof.
  intros HG HPt He HL. destruct (in_zt A HG) as [OA [k EA]]. apply (w_point_den r Hw Hp) in HPt. destruct HPt as [_ HD].
  destruct (g1mul_sub r bnx cru HI P _ e k EA HD He HL) as [R [R1 [R2 R3]]].
  assert (V0 : 0 <= bval (r_cfg r) e) by (unfold bval; pose proof (brange _ (ff_ok r (fp_ok_facts r (proj1 Hw))) e He); lia).
  exists R, (sp (pmod r) (zt (bval (r_cfg r) e) (ak (pmod r) A))). split; [exact R1|]. split; [apply times_zt; auto|]. split; [apply (den_w_point r Hw Hp); exact R2|exact (nrm_out _ _ R3)].
Qed.
Lemma sub_any P A : w_point r P A -> exists b, subgroup_check_g1 r bnx cru P = Some b /\ (in_G1 A -> b = true) /\ (b = true -> times A n381 Inf).
Proof.
  intros HPt. apply (w_point_den r Hw Hp) in HPt. destruct HPt as [OA HD]. destruct (sub_check r bnx cru HI P _ HD) as [b [B1 _]]. exists b. split; [exact B1|]. split.
  - intros HG. destruct (in_zt A HG) as [_ [k EA]]. rewrite (sub_complete r bnx cru HI P _ k EA HD) in B1. congruence.
  - intros ->. apply times_zt; [exact OA|discriminate|]. change n381 with bls381_n. rewrite (sub_sound r bnx cru HI P _ HD B1). reflexivity.
Qed.
(** the point (0, 2), of order 3 *)
Notation T3 := (Aff 0 2).
Lemma t3_on : on_w (pmod r) (cA r) (cB r) T3.
Proof. rewrite pP, aA, (proj2 (bls_AB r HR)). vm_compute. intuition discriminate. Qed.
Lemma t3_dbl : zt 2 (ak (pmod r) T3) = aneg (pmod r) (ak (pmod r) T3).
Proof.
  pose proof (on_ak _ Hp _ _ _ t3_on) as O. rewrite (ztimes_2 _ _ _ _ _ WG) by exact O. pose proof (spec_sum_iff _ Hp (p_gt3 r (proj1 Hw)) (cA r) (cB r) T3 T3 (w_neg (pmod r) T3) t3_on t3_on) as S.
  rewrite <- (ak_neg _ Hp (cA r) (cB r) T3 t3_on). assert (E : w_sum (pmod r) (cA r) T3 T3 (w_neg (pmod r) T3)).
  { rewrite pP, aA. change (w_neg P381 T3) with (Aff ((0 * 0 - 0 - 0) mod P381) ((0 * (0 - (0 * 0 - 0 - 0)) - 2) mod P381)). apply ws_tangent; vm_compute; [discriminate|reflexivity]. }
  apply S in E. rewrite E. symmetry. apply ak_sp. exact Hp.
Qed.
Lemma t3_order : zt 3 (ak (pmod r) T3) = AInf (pmod r).
Proof.
  pose proof (on_ak _ Hp _ _ _ t3_on) as O. change 3 with (2 + 1). rewrite (ztimes_add _ _ _ _ _ WG), t3_dbl, (ztimes_1 _ _ _ _ _ WG) by exact O. apply (inv_l _ _ _ _ _ WG). exact O.
Qed.
Lemma t3_phi : phi (pmod r) (mk (pmod r) g1_beta) (ak (pmod r) T3) = ak (pmod r) T3.
Proof. cbn [ak phi]. f_equal. rewrite <- mk_mul by exact Hp. rewrite Z.mul_0_r. reflexivity. Qed.
Lemma t3_mod k : zt k (ak (pmod r) T3) = zt (k mod 3) (ak (pmod r) T3).
Proof.
  pose proof (on_ak _ Hp _ _ _ t3_on) as O. rewrite (Z.div_mod k 3) at 1 by discriminate. rewrite Z.mul_comm, (ztimes_add _ _ _ _ _ WG), <- (ztimes_mul _ _ _ _ _ WG), t3_order, (zt_zero _ _ _ _ _ WG) by exact O. reflexivity.
Qed.
Lemma t3_reject P : w_point r P T3 -> subgroup_check_g1 r bnx cru P = Some false.
Proof.
  intros H. destruct (sub_any P T3 H) as [[] [B1 [_ B2]]]; [|exact B1]. specialize (B2 eq_refl). apply times_zt in B2; [|exact t3_on|discriminate]. rewrite t3_mod in B2. change (n381 mod 3) with 1 in B2.
  rewrite (ztimes_1 _ _ _ _ _ WG) in B2 by (apply on_ak; [exact Hp|exact t3_on]). discriminate B2.
Qed.
Lemma t3_wrong P e : w_point r P T3 -> big_wf (r_cfg r) e -> bval (r_cfg r) e = 2 -> exists R, g1mul r bnx cru P e = Some R /\ w_point r R Inf.
Proof.
  intros H He E2. apply (w_point_den r Hw Hp) in H. destruct H as [_ HD]. destruct (g1mul_den r bnx cru HI P _ e HD He) as [R [R1 [R2 _]]]; [unfold bval in E2; rewrite E2; reflexivity|].
  exists R. split; [exact R1|]. unfold bval in E2. rewrite E2, t3_phi in R2. change (sh bls381_n (2 mod g1_x2)) with 2 in R2. change (sh bls381_n (bls381_n - 2 / g1_x2)) with bls381_n in R2.
  rewrite (t3_mod bls381_n) in R2. change (bls381_n mod 3) with 1 in R2. pose proof (on_ak _ Hp _ _ _ t3_on) as O. rewrite <- (ztimes_add _ _ _ _ _ WG) in R2 by exact O.
  change (2 + 1) with 3 in R2. rewrite t3_order in R2. apply (den_w_point r Hw Hp) in R2. exact R2.
Qed.
End S.

(** Multiplying a point of the subgroup by any integer of up to about 380 bits gives that multiple, with affine coordinates when it is not the
    point at infinity.  In particular every scalar below the group order, or below 2^256, is covered. *)
Theorem C63_g1mul : forall r bnx cru P A e, In (r, bnx, cru) g1_roms -> in_G1 A -> w_point r P A -> big_wf (r_cfg r) e -> bval (r_cfg r) e < (n381 + 1) * X381 ^ 2 ->
  exists R C, g1mul r bnx cru P e = Some R /\ times A (bval (r_cfg r) e) C /\ w_point r R C /\ (forall x y, C = Aff x y -> coords r R x y 1).
Proof. intros r bnx cru P A e HI. exact (g1mul_any r bnx cru HI P A e). Qed.
Print Assumptions C63_g1mul.
(** The subgroup check never panics on a curve point; it accepts every point of the subgroup generated by the standard generator ... *)
Theorem C63_subgroup_accepts : forall r bnx cru P A, In (r, bnx, cru) g1_roms -> in_G1 A -> w_point r P A -> subgroup_check_g1 r bnx cru P = Some true.
Proof. intros r bnx cru P A HI HA H. destruct (sub_any r bnx cru HI P A H) as [b [B1 [B2 _]]]. rewrite B1, (B2 HA). reflexivity. Qed.
Print Assumptions C63_subgroup_accepts.
(** ... and whatever curve point it accepts is killed by the group order. *)
Theorem C63_subgroup_sound : forall r bnx cru P A, In (r, bnx, cru) g1_roms -> w_point r P A ->
  exists b, subgroup_check_g1 r bnx cru P = Some b /\ (b = true -> times A n381 Inf).
Proof. intros r bnx cru P A HI H. destruct (sub_any r bnx cru HI P A H) as [b [B1 [_ B2]]]. exists b. auto. Qed.
Print Assumptions C63_subgroup_sound.
(** the generator has order n: all of the subgroup is killed by it *)
Theorem C63_generator_order : times G1 n381 Inf.
Proof.
  pose (HI := or_introl eq_refl : In (rom_bls381_64, bnx_bls381_64, cru_bls381_64) g1_roms). pose proof (g_on _ _ _ HI) as OG. rewrite (G1g _ _ _ HI). apply (times_zt _ _ _ HI); [exact OG|discriminate|].
  change n381 with bls381_n. rewrite (g_order _ _ _ HI). reflexivity.
Qed.
Print Assumptions C63_generator_order.
(** Curve points outside the subgroup: (0, 2), of order three, is rejected, ... *)
Theorem C63_order_three_rejected : forall r bnx cru P, In (r, bnx, cru) g1_roms -> w_point r P (Aff 0 2) -> subgroup_check_g1 r bnx cru P = Some false.
Proof. intros r bnx cru P HI. exact (t3_reject r bnx cru HI P). Qed.
Print Assumptions C63_order_three_rejected.
(** ... and there [g1mul] is not scalar multiplication: it gives infinity for 2 (0, 2), which is (0, -2). *)
Theorem C63_outside_subgroup_refuted : forall r bnx cru P e, In (r, bnx, cru) g1_roms -> w_point r P (Aff 0 2) -> big_wf (r_cfg r) e -> bval (r_cfg r) e = 2 ->
  (exists R, g1mul r bnx cru P e = Some R /\ w_point r R Inf) /\ times (Aff 0 2) 2 (Aff 0 (P381 - 2)).
Proof.
  intros r bnx cru P e HI H1 H2 H3. split; [exact (t3_wrong r bnx cru HI P e H1 H2 H3)|].
  unfold times. change (Z.to_nat 2) with 2%nat. apply (wt_S P381 0 _ 1 (Aff 0 2)); [apply (wt_S P381 0 _ 0 Inf); [constructor|constructor]|].
  change (Aff 0 (P381 - 2)) with (Aff ((0 * 0 - 0 - 0) mod P381) ((0 * (0 - (0 * 0 - 0 - 0)) - 2) mod P381)). apply ws_tangent; vm_compute; [discriminate|reflexivity].
Qed.
Print Assumptions C63_outside_subgroup_refuted.

(** Non-vacuity: point objects made by the code for the generator and for (0, 2), a scalar, and a multiple of the generator *)
Example C63_configs : In (rom_bls381_64, bnx_bls381_64, cru_bls381_64) g1_roms /\ In (rom_bls381_32, bnx_bls381_32, cru_bls381_32) g1_roms.
Proof. split; [left|right; left]; reflexivity. Qed.
Example C63_generator_in : in_G1 G1.
Proof. exists 1. split; [discriminate|]. apply (wt_S P381 0 _ 0 Inf); [constructor|constructor]. Qed.
Example C63_infinity_in : in_G1 Inf.
Proof. exists n381. split; [discriminate|]. exact C63_generator_order. Qed.
Example C63_scalar_ok : big_wf (r_cfg rom_bls381_64) (big_new_int (r_cfg rom_bls381_64) 2) /\ bval (r_cfg rom_bls381_64) (big_new_int (r_cfg rom_bls381_64) 2) = 2.
Proof. split; [apply RomCheck.big_wfb_ok|]; vm_compute; reflexivity. Qed.
Example C63_objects : forall A, In A [G1; Aff 0 2] -> exists P, w_point rom_bls381_64 P A.
Proof.
  pose (HI := or_introl eq_refl : In (rom_bls381_64, bnx_bls381_64, cru_bls381_64) g1_roms). pose proof (or_introl eq_refl : In rom_bls381_64 bls_roms) as HR.
  intros A [<-|[<-|[]]].
  - rewrite (G1g _ _ _ HI). destruct (w_decode _ _ _ (bls_w _ HR) (bls_codec _ HR) (g_on _ _ _ HI)) as [P [_ [H _]]]. exists P. exact H.
  - destruct (w_decode _ _ _ (bls_w _ HR) (bls_codec _ HR) (t3_on _ _ _ HI)) as [P [_ [H _]]]. exists P. exact H.
Qed.
