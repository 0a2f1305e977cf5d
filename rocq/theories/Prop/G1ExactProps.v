(** C68: on BLS12-381 the G1 subgroup check decides membership in the group generated by the standard generator, exactly. *)
From Verif Require Import Base.Word Base.Arr Model.Big Model.Roms Model.Fp Model.Ecp Model.G1Mul Spec.BigSpec Spec.RomSpec Spec.FpSpec Spec.CurveSpec Spec.EcpSpec
  Proof.BigInv Proof.FieldP Proof.Weier Proof.FpBase Proof.Primes Proof.EcpW Proof.EcpBridge Proof.EcpMul Proof.EcpInst Proof.EcGroupInst Proof.EcpCodec Proof.EcpCodec3 Proof.PrimeBlsN Proof.BlsRoms Proof.BlsInst Proof.Glv Proof.G1Cert Proof.G1MulProof Proof.G1Exact.
From Coq Require Import Lia Znumtheory.

(** BLS12-381: the field, the standard generator of G1, its order, and |x| *)
Definition P381 : Z := 0x1a0111ea397fe69a4b1ba7b6434bacd764774b84f38512bf6730d2a0f6b0f6241eabfffeb153ffffb9feffffffffaaab.
Definition G1 : point := Aff 0x17f1d3a73197d7942695638c4fa9ac0fc3688c4f9774b905a14e3a3f171bac586c55e83ff97a1aeffb3af00adb22c6bb
  0x08b3f481e3aaa0f1a09e30ed741d8ae4fcf5e095d5d00af600db18cb2c04b3edd03cc744a2888ae40caa232946c5e7e1.
Definition n381 : Z := 0x73eda753299d7d483339d80809a1d80553bda402fffe5bfeffffffff00000001.
Definition X381 : Z := 0xd201000000010000.
(** k A = C, on y^2 = x^3 + 4 over the integers modulo P381, by repeated addition; and the subgroup of G1 *)
Definition times (A : point) (k : Z) (C : point) : Prop := w_times P381 0 A (Z.to_nat k) C.
Definition in_G1 (A : point) : Prop := exists k, 0 <= k /\ times G1 k A.

Section S.
Variables (r : rom) (bnx cru : list Z).
Hypothesis HI : In (r, bnx, cru) g1_roms.
Let HR : In r bls_roms := g1_bls r bnx cru HI.
Let Hw : w_ok r := bls_w r HR.
Let Hp : prime (pmod r) := bls_prime r HR.
Let Hn := bls_no2 r HR.
Let WG := w_group r Hw Hp Hn.
Lemma pP : pmod r = P381. Proof. exact (bls_p r HR). Qed.
Lemma aA : cA r = 0. Proof. exact (proj1 (bls_AB r HR)). Qed.
Lemma G1g : G1 = Aff (gx r) (gy r). Proof. destruct (g_xy r bnx cru HI) as [-> ->]. reflexivity. Qed.
Notation zt := (ztimes (apt (pmod r)) (AInf (pmod r)) (asum (pmod r) (mk (pmod r) (cA r))) (aneg (pmod r))).
Lemma times_zt A k C : on_w (pmod r) (cA r) (cB r) A -> 0 <= k -> (times A k C <-> C = sp (pmod r) (zt k (ak (pmod r) A))).
Proof. intros O K. unfold times. pose proof (w_times_iff r Hw Hp Hn A (Z.to_nat k) C O) as W. rewrite pP, aA in W. rewrite W. rewrite ztimes_nat by exact K. rewrite pP, aA. reflexivity. Qed.
Lemma in_zt A : in_G1 A -> on_w (pmod r) (cA r) (cB r) A /\ exists k, ak (pmod r) A = zt k (ak (pmod r) (Aff (gx r) (gy r))).
Proof.
  intros [k [K T]]. rewrite G1g in T. pose proof (g_on r bnx cru HI) as OG. apply (times_zt _ k A OG K) in T. subst A. split.
  - apply on_sp; [exact Hp|]. apply (ztimes_on _ _ _ _ _ WG). apply on_ak; [exact Hp|exact OG].
  - exists k. apply ak_sp. exact Hp.
Qed.
Lemma nrm_out R C : wnrm r R C -> forall x y, sp (pmod r) C = Aff x y -> coords r R x y 1.
Proof.
  intros N x y E. destruct C as [|x' y']; [discriminate E|]. injection E as <- <-. destruct N as [v [V1 V2]]. apply nrm_coords with (v := v); try assumption; [exact (proj1 Hw)|]. rewrite !mk_fz by exact Hp. exact V2.
Qed.
Lemma g1mul_any P A e : in_G1 A -> w_point r P A -> big_wf (r_cfg r) e -> bval (r_cfg r) e < (n381 + 1) * X381 ^ 2 ->
  exists R C, g1mul r bnx cru P e = Some R /\ times A (bval (r_cfg r) e) C /\ w_point r R C /\ (forall x y, C = Aff x y -> coords r R x y 1).
Proof.
  intros HG HPt He HL. destruct (in_zt A HG) as [OA [k EA]]. apply (w_point_den r Hw Hp) in HPt. destruct HPt as [_ HD].
  destruct (g1mul_sub r bnx cru HI P _ e k EA HD He HL) as [R [R1 [R2 R3]]].
  assert (V0 : 0 <= bval (r_cfg r) e) by (unfold bval; pose proof (brange _ (ff_ok r (fp_ok_facts r (proj1 Hw))) e He); lia).
  exists R, (sp (pmod r) (zt (bval (r_cfg r) e) (ak (pmod r) A))). split; [exact R1|]. split; [apply times_zt; auto|]. split; [apply (den_w_point r Hw Hp); exact R2|exact (nrm_out _ _ R3)].
Qed.
Lemma zt_in A k : on_w (pmod r) (cA r) (cB r) A -> ak (pmod r) A = zt k (ak (pmod r) (Aff (gx r) (gy r))) -> in_G1 A /\ exists k', 0 <= k' < n381 /\ times G1 k' A.
Proof.
  intros O E. pose proof (g_on r bnx cru HI) as OG. assert (T : 0 <= k mod bls381_n < bls381_n) by (apply Z.mod_pos_bound; reflexivity).
  assert (K : times G1 (k mod bls381_n) A).
  { rewrite G1g. apply times_zt; [exact OG|exact (proj1 T)|]. pose proof (on_ak _ Hp _ _ _ OG) as OK. transitivity (sp (pmod r) (ak (pmod r) A)); [symmetry; exact (sp_ak _ _ _ A O)|]. f_equal.
    rewrite E. rewrite (Z.div_mod k bls381_n) at 1 by discriminate. rewrite Z.mul_comm, (ztimes_add _ _ _ _ _ WG), <- (ztimes_mul _ _ _ _ _ WG (k / bls381_n)), (g_order r bnx cru HI), (zt_zero _ _ _ _ _ WG) by exact OK.
    apply (cg_id _ _ _ _ _ WG). apply (ztimes_on _ _ _ _ _ WG). exact OK. }
  split; [exists (k mod bls381_n); split; [exact (proj1 T)|exact K]|exists (k mod bls381_n); split; [exact T|exact K]].
Qed.
Lemma zt_inj k k' : 0 <= k < bls381_n -> 0 <= k' < bls381_n -> zt k (ak (pmod r) (Aff (gx r) (gy r))) = zt k' (ak (pmod r) (Aff (gx r) (gy r))) -> k = k'.
Proof.
  intros K K' E. pose proof (on_ak _ Hp _ _ _ (g_on r bnx cru HI)) as OK. destruct (Z.eq_dec k k') as [->|N]; [reflexivity|exfalso].
  pose proof (g_order r bnx cru HI) as GO.
  assert (D0 : zt (k - k') (ak (pmod r) (Aff (gx r) (gy r))) = AInf (pmod r)).
  { unfold Z.sub. rewrite (ztimes_add _ _ _ _ _ WG), (ztimes_opp _ _ _ _ _ WG), E by exact OK. apply (cg_inv _ _ _ _ _ WG). apply (ztimes_on _ _ _ _ _ WG). exact OK. }
  pose proof prime_bls381_order as Pn. change bls381_n with bls381_order in *. revert Pn K K' GO. generalize bls381_order as n. intros n Pn K K' GO.
  assert (RP : rel_prime (k - k') n).
  { apply rel_prime_sym, prime_rel_prime; [exact Pn|]. intros [q Q]. assert (q = 0) by nia. subst q. lia. }
  destruct (rel_prime_bezout _ _ RP) as [u v B].
  assert (Z1 : zt 1 (ak (pmod r) (Aff (gx r) (gy r))) = AInf (pmod r)).
  { rewrite <- B, (ztimes_add _ _ _ _ _ WG), <- (ztimes_mul _ _ _ _ _ WG u), <- (ztimes_mul _ _ _ _ _ WG v), D0, GO, !(zt_zero _ _ _ _ _ WG) by exact OK. reflexivity. }
  rewrite (ztimes_1 _ _ _ _ _ WG) in Z1 by exact OK. discriminate Z1.
Qed.
Lemma check_iff P A : w_point r P A -> exists b, subgroup_check_g1 r bnx cru P = Some b /\ (b = true <-> in_G1 A).
Proof.
  intros HPt. apply (w_point_den r Hw Hp) in HPt. destruct HPt as [OA HD]. destruct (sub_check r bnx cru HI P _ HD) as [b [B1 _]]. exists b. split; [exact B1|]. split.
  - intros ->. destruct (sub_exact r bnx cru HI P _ HD B1) as [k K]. exact (proj1 (zt_in A k OA K)).
  - intros HG. destruct (in_zt A HG) as [_ [k EA]]. rewrite (sub_complete r bnx cru HI P _ k EA HD) in B1. congruence.
Qed.
Lemma check_mul P A e : w_point r P A -> subgroup_check_g1 r bnx cru P = Some true -> big_wf (r_cfg r) e -> bval (r_cfg r) e < (n381 + 1) * X381 ^ 2 ->
  exists R C, g1mul r bnx cru P e = Some R /\ times A (bval (r_cfg r) e) C /\ w_point r R C /\ (forall x y, C = Aff x y -> coords r R x y 1).
Proof.
  intros HPt HS He HL. destruct (check_iff P A HPt) as [b [B1 B2]]. rewrite HS in B1. injection B1 as <-. pose proof (proj1 B2 eq_refl) as HG. destruct (in_zt A HG) as [OA [k EA]]. apply (w_point_den r Hw Hp) in HPt. destruct HPt as [_ HD].
  destruct (g1mul_sub r bnx cru HI P _ e k EA HD He HL) as [R [R1 [R2 R3]]].
  assert (V0 : 0 <= bval (r_cfg r) e) by (unfold bval; pose proof (brange _ (ff_ok r (fp_ok_facts r (proj1 Hw))) e He); lia).
  exists R, (sp (pmod r) (zt (bval (r_cfg r) e) (ak (pmod r) A))). split; [exact R1|]. split; [apply times_zt; auto|]. split; [apply (den_w_point r Hw Hp); exact R2|exact (nrm_out _ _ R3)].
Qed.
Lemma index_exists A : in_G1 A -> exists k, 0 <= k < n381 /\ times G1 k A.
Proof. intros HG. destruct (in_zt A HG) as [O [k E]]. exact (proj2 (zt_in A k O E)). Qed.
Lemma index_unique A k k' : 0 <= k < n381 -> 0 <= k' < n381 -> times G1 k A -> times G1 k' A -> k = k'.
Proof.
  intros K K' T T'. rewrite G1g in T, T'. pose proof (g_on r bnx cru HI) as OG. apply (times_zt _ _ _ OG (proj1 K)) in T. apply (times_zt _ _ _ OG (proj1 K')) in T'.
  apply zt_inj; [exact K|exact K'|]. rewrite T in T'. apply (f_equal (ak (pmod r))) in T'. rewrite !(ak_sp _ Hp) in T'. exact T'.
Qed.
End S.

(** For every point of the curve (any projective representation), the check returns, without panicking, whether the point is in G1: the group
    generated by the standard generator.  Nothing is assumed about the number of points of the curve. *)
Theorem C68_check_decides_G1 : forall r bnx cru P A, In (r, bnx, cru) g1_roms -> w_point r P A ->
  exists b, subgroup_check_g1 r bnx cru P = Some b /\ (b = true <-> in_G1 A).
Proof. intros r bnx cru P A HI. exact (check_iff r bnx cru HI P A). Qed.
Print Assumptions C68_check_decides_G1.
(** so that the endomorphism multiplication is right on every point that passed the check *)
Theorem C68_checked_points_multiply : forall r bnx cru P A e, In (r, bnx, cru) g1_roms -> w_point r P A -> subgroup_check_g1 r bnx cru P = Some true ->
  big_wf (r_cfg r) e -> bval (r_cfg r) e < (n381 + 1) * X381 ^ 2 ->
  exists R C, g1mul r bnx cru P e = Some R /\ times A (bval (r_cfg r) e) C /\ w_point r R C /\ (forall x y, C = Aff x y -> coords r R x y 1).
Proof. intros r bnx cru P A e HI. exact (check_mul r bnx cru HI P A e). Qed.
Print Assumptions C68_checked_points_multiply.
(** G1 has exactly n points: each is k times the generator for exactly one k below n *)
Theorem C68_G1_index : forall A, in_G1 A -> exists k, (0 <= k < n381 /\ times G1 k A) /\ forall k', 0 <= k' < n381 -> times G1 k' A -> k' = k.
Proof.
  pose (HI := or_introl eq_refl : In (rom_bls381_64, bnx_bls381_64, cru_bls381_64) g1_roms).
  intros A HG. destruct (index_exists _ _ _ HI A HG) as [k [K T]]. exists k. split; [split; assumption|]. intros k' K' T'. exact (index_unique _ _ _ HI A k' k K' K T' T).
Qed.
Print Assumptions C68_G1_index.

(** Non-vacuity: objects for the generator (in G1) and for (0, 2) (on the curve, not in G1) *)
Example C68_configs : In (rom_bls381_64, bnx_bls381_64, cru_bls381_64) g1_roms /\ In (rom_bls381_32, bnx_bls381_32, cru_bls381_32) g1_roms.
Proof. split; [left|right; left]; reflexivity. Qed.
Example C68_generator_in : in_G1 G1.
Proof. exists 1. split; [discriminate|]. apply (wt_S P381 0 _ 0 Inf); [constructor|constructor]. Qed.
Example C68_accepts : exists P, w_point rom_bls381_64 P G1 /\ subgroup_check_g1 rom_bls381_64 bnx_bls381_64 cru_bls381_64 P = Some true.
Proof.
  pose (HI := or_introl eq_refl : In (rom_bls381_64, bnx_bls381_64, cru_bls381_64) g1_roms). pose proof (or_introl eq_refl : In rom_bls381_64 bls_roms) as HR.
  destruct (w_decode _ _ _ (bls_w _ HR) (bls_codec _ HR) (g_on _ _ _ HI)) as [P [_ [H _]]]. exists P. rewrite (G1g _ _ _ HI). split; [exact H|]. rewrite <- (G1g _ _ _ HI) in H.
  destruct (C68_check_decides_G1 _ _ _ P G1 HI H) as [b [B1 B2]]. rewrite B1. f_equal. exact (proj2 B2 C68_generator_in).
Qed.
