(** C21 (group law), C23 (scalar multiplication) and the ECP part of C49.

    [w_point r P A]: the object P stands for the affine point A (or the point at infinity) of y^2 = x^3 + ax + b;
    [e_point r P A]: for the point A of ax^2 + y^2 = 1 + dx^2y^2 (Spec/EcpSpec.v).  [w_sum p a A B C] and [e_sum p a d A B C] are
    the textbook addition laws over the integers modulo p (Spec/CurveSpec.v).  Each theorem also says that no
    intermediate word overflows ([Some _]). *)
From Verif Require Import Base.Word Model.Big Model.Roms Model.Fp Model.Ecp Spec.BigSpec Spec.RomSpec Spec.FpSpec Spec.CurveSpec Spec.EcpSpec
  Proof.BigVal Proof.NumTheory Proof.RomCheck Proof.FpBase Proof.FpOps Proof.FpExp Proof.FpIv Proof.FieldP Proof.Weier Proof.Edw Proof.EcpOps Proof.EcpW Proof.EcpE Proof.EcpBridge Proof.EcpMul Proof.EcpInst Proof.EcpCheck Proof.EcpCodec Proof.EcpCodec2 Proof.EcpCodec3 Proof.Pocklington Proof.Primes Proof.CurveFacts.
From Coq Require Import Znumtheory.

(** ** the conditions *)
(** the computable part of the conditions holds for these configurations *)
Definition w_roms : list rom :=
  [rom_anssi_32; rom_anssi_64; rom_bls24_32; rom_bls24_64; rom_bls381_32; rom_bls381_64; rom_bls383_32; rom_bls383_64; rom_bls461_32; rom_bls461_64; rom_bls48_32; rom_bls48_64;
   rom_bn254_32; rom_bn254_64; rom_bn254cx_32; rom_bn254cx_64; rom_brainpool_32; rom_brainpool_64; rom_fp256bn_32; rom_fp256bn_64; rom_fp512bn_64;
   rom_nist256_32; rom_nist256_64; rom_nist384_64; rom_nist521_32; rom_nist521_64; rom_nums256w_32; rom_nums256w_64; rom_nums384w_64; rom_nums512w_64; rom_secp256k1_32; rom_secp256k1_64].
Theorem w_roms_ok : Forall w_ok w_roms.
Proof. unfold w_roms. repeat (apply Forall_cons; [apply w_okb_ok; vm_compute; reflexivity|]). apply Forall_nil. Qed.
Print Assumptions w_roms_ok.
Definition e_roms : list rom :=
  [rom_c41417_32; rom_c41417_64; rom_ed25519_32; rom_ed25519_64; rom_hifive_32; rom_hifive_64; rom_nums256e_32; rom_nums256e_64; rom_nums384e_64; rom_nums512e_32; rom_nums512e_64].
Theorem e_roms_ok : Forall e_ok e_roms.
Proof. unfold e_roms. repeat (apply Forall_cons; [apply e_okb_ok; vm_compute; reflexivity|]). apply Forall_nil. Qed.
Print Assumptions e_roms_ok.

(** ** C21: the textbook laws are commutative group laws *)
Theorem C21_weierstrass_law : forall p a b, prime p -> 3 < p -> no_order2 p a b ->
  (forall A B, on_w p a b A -> on_w p a b B -> exists C, w_sum p a A B C /\ on_w p a b C /\ (forall D, w_sum p a A B D -> D = C)) /\
  (forall A B C, on_w p a b A -> on_w p a b B -> w_sum p a A B C -> w_sum p a B A C) /\
  (forall A, on_w p a b A -> w_sum p a Inf A A /\ on_w p a b (w_neg p A) /\ w_sum p a A (w_neg p A) Inf) /\
  (forall A B C AB BC S, on_w p a b A -> on_w p a b B -> on_w p a b C -> w_sum p a A B AB -> w_sum p a B C BC -> w_sum p a AB C S -> w_sum p a A BC S).
Proof.
  intros p a b Hp H3 Hn. split; [|split; [|split]].
  - intros A B HA HB. destruct (spec_sum_total p Hp H3 a b Hn A B HA HB) as [C [C1 C2]]. exists C. split; [exact C1|]. split; [exact C2|]. intros D HD. exact (spec_sum_fun p Hp H3 a b A B D C HA HB HD C1).
  - intros A B C HA HB HC. exact (spec_sum_comm p Hp H3 a b A B C HA HB HC).
  - intros A HA. split; [constructor|]. split; [apply spec_neg_on; assumption|apply (spec_sum_neg p Hp H3 a b); assumption].
  - intros A B C AB BC S HA HB HC. apply (spec_sum_assoc p Hp H3 a b Hn); assumption.
Qed.
Print Assumptions C21_weierstrass_law.
Theorem C21_edwards_law : forall p a d, prime p -> 3 < p -> is_square p a -> ~ cong p a 0 -> ~ is_square p d ->
  (forall A B, on_e p a d A -> on_e p a d B -> exists C, e_sum p a d A B C /\ on_e p a d C /\ (forall D, on_e p a d D -> e_sum p a d A B D -> D = C)) /\
  (forall A B C, on_e p a d A -> on_e p a d B -> on_e p a d C -> e_sum p a d A B C -> e_sum p a d B A C) /\
  (forall A, on_e p a d A -> e_sum p a d A e_zero A /\ on_e p a d (e_neg p A) /\ e_sum p a d A (e_neg p A) e_zero) /\
  (forall A B C AB BC S, on_e p a d A -> on_e p a d B -> on_e p a d C -> on_e p a d AB -> on_e p a d BC -> on_e p a d S ->
     e_sum p a d A B AB -> e_sum p a d B C BC -> e_sum p a d AB C S -> e_sum p a d A BC S).
Proof.
  intros p a d Hp H3 H1 H2 Hn. split; [|split; [|split]].
  - intros A B HA HB. destruct (spec_esum_total p Hp H3 a d H1 H2 Hn A B HA HB) as [C [C1 C2]]. exists C. split; [exact C2|]. split; [exact C1|]. intros D HD HS. exact (spec_esum_fun p Hp H3 a d H1 H2 Hn A B D C HA HB HD C1 HS C2).
  - intros A B C HA HB HC. apply (spec_esum_comm p Hp H3 a d H1 H2 Hn); assumption.
  - intros A HA. split; [apply (spec_esum_zero p Hp H3 a d H1 H2 Hn); exact HA|]. split; [apply spec_eneg_on; assumption|apply (spec_esum_neg p Hp H3 a d H1 H2 Hn); assumption].
  - intros A B C AB BC S HA HB HC HD HE HS. apply (spec_esum_assoc p Hp H3 a d H1 H2 Hn); assumption.
Qed.
Print Assumptions C21_edwards_law.

Ltac wpt := repeat match goal with H : w_point ?r ?P ?A, K : w_ok ?r, L : prime _, N : no_order2 _ _ _ |- _ => apply (w_point_den r K L) in H; destruct H as [? H] end.

(** ** C21: the code computes them, with no exceptional cases *)
Theorem C21_add : forall r P Q A B, weierstrass r -> w_point r P A -> w_point r Q B ->
  exists R C, ecp_add r P Q = Some R /\ w_sum (pmod r) (cA r) A B C /\ w_point r R C.
Proof.
  intros r P Q A B [Hw [Hp Hn]] H1 H2. apply (w_point_den r Hw Hp) in H1. apply (w_point_den r Hw Hp) in H2. destruct H1 as [O1 H1], H2 as [O2 H2].
  pose proof (p_gt3 r (proj1 Hw)) as H3. destruct (w_add r Hw Hp Hn P Q _ _ H1 H2) as [R [R1 R2]]. exists R, (sp (pmod r) (asum (pmod r) (mk (pmod r) (cA r)) (ak (pmod r) A) (ak (pmod r) B))).
  split; [exact R1|]. split; [apply (spec_sum_iff _ Hp H3 _ (cB r)); [exact O1|exact O2|reflexivity]|]. apply den_w_point; assumption.
Qed.
Print Assumptions C21_add.
Theorem C21_dbl : forall r P A, weierstrass r -> w_point r P A ->
  exists R C, ecp_dbl r P = Some R /\ w_sum (pmod r) (cA r) A A C /\ w_point r R C.
Proof.
  intros r P A [Hw [Hp Hn]] H1. apply (w_point_den r Hw Hp) in H1. destruct H1 as [O1 H1].
  pose proof (p_gt3 r (proj1 Hw)) as H3. destruct (w_dbl r Hw Hp Hn P _ H1) as [R [R1 R2]]. exists R, (sp (pmod r) (asum (pmod r) (mk (pmod r) (cA r)) (ak (pmod r) A) (ak (pmod r) A))).
  split; [exact R1|]. split; [apply (spec_sum_iff _ Hp H3 _ (cB r)); [exact O1|exact O1|reflexivity]|]. apply den_w_point; assumption.
Qed.
Print Assumptions C21_dbl.
Theorem C21_neg : forall r P A, weierstrass r -> w_point r P A -> exists R, ecp_neg r P = Some R /\ w_point r R (w_neg (pmod r) A).
Proof.
  intros r P A [Hw [Hp Hn]] H1. apply (w_point_den r Hw Hp) in H1. destruct H1 as [O1 H1].
  destruct (w_negate r Hw Hp P _ H1) as [R [R1 R2]]. exists R. split; [exact R1|]. apply (den_w_point r Hw Hp) in R2. rewrite <- w_neg_sp, (sp_ak _ _ _ A O1) in R2. exact R2.
Qed.
Print Assumptions C21_neg.
Theorem C21_sub : forall r P Q A B, weierstrass r -> w_point r P A -> w_point r Q B ->
  exists R C, ecp_sub r P Q = Some R /\ w_sum (pmod r) (cA r) A (w_neg (pmod r) B) C /\ w_point r R C.
Proof.
  intros r P Q A B Hr H1 H2. unfold ecp_sub. destruct (C21_neg r Q B Hr H2) as [N [N1 N2]]. rewrite N1. cbn [bind]. apply C21_add; assumption.
Qed.
Print Assumptions C21_sub.
Theorem C21_is_infinity : forall r P A, weierstrass r -> w_point r P A -> exists b, ecp_is_infinity r P = Some b /\ (b = true <-> A = Inf).
Proof.
  intros r P A [Hw [Hp Hn]] H1. apply (w_point_den r Hw Hp) in H1. destruct H1 as [O1 H1]. destruct (w_is_inf r Hw Hp P _ H1) as [b [B1 B2]]. exists b. split; [exact B1|]. rewrite B2.
  destruct A as [|x y]; cbn [ak]; split; congruence.
Qed.
Print Assumptions C21_is_infinity.
Theorem C21_equals : forall r P Q A B, weierstrass r -> w_point r P A -> w_point r Q B -> exists b, ecp_equals r P Q = Some b /\ (b = true <-> A = B).
Proof.
  intros r P Q A B [Hw [Hp Hn]] H1 H2. apply (w_point_den r Hw Hp) in H1. apply (w_point_den r Hw Hp) in H2. destruct H1 as [O1 H1], H2 as [O2 H2].
  destruct (w_equals r Hw Hp P Q _ _ H1 H2) as [b [B1 B2]]. exists b. split; [exact B1|]. rewrite B2. split; [|congruence].
  intros E. rewrite <- (sp_ak _ _ _ A O1), <- (sp_ak _ _ _ B O2), E. reflexivity.
Qed.
Print Assumptions C21_equals.
(** affine() keeps the point and makes the third coordinate 1 *)
Theorem C21_affine : forall r P A, weierstrass r -> w_point r P A ->
  exists R, ecp_affine r P = Some R /\ w_point r R A /\ (forall x y, A = Aff x y -> coords r R x y 1).
Proof.
  intros r P A [Hw [Hp Hn]] H1. apply (w_point_den r Hw Hp) in H1. destruct H1 as [O1 H1]. destruct (w_affine r Hw Hp P _ H1) as [R [R1 [R2 R3]]].
  exists R. split; [exact R1|]. split; [apply (w_point_den r Hw Hp); auto|]. intros x y ->. cbn [ak] in R3. destruct R3 as [v [V1 V2]]. apply nrm_coords with (v := v); try assumption. exact (proj1 Hw).
Qed.
Print Assumptions C21_affine.
Theorem C21_new : forall r, weierstrass r -> exists R, ecp_new r = Some R /\ w_point r R Inf.
Proof. intros r [Hw [Hp Hn]]. destruct (w_new r Hw Hp) as [R [R1 R2]]. exists R. split; [exact R1|]. apply (den_w_point r Hw Hp) in R2. exact R2. Qed.
Print Assumptions C21_new.

(** ** the same for Edwards curves *)
Theorem C21_edwards_add : forall r P Q A B, edwards r -> e_point r P A -> e_point r Q B ->
  exists R C, ecp_add r P Q = Some R /\ e_sum (pmod r) (cA r) (cB r) A B C /\ e_point r R C.
Proof.
  intros r P Q A B [Hw [Hp [Hs Hn]]] H1 H2. apply (e_point_den r Hw Hp) in H1. apply (e_point_den r Hw Hp) in H2. destruct H1 as [O1 H1], H2 as [O2 H2].
  pose proof (p_gt3 r (proj1 Hw)) as H3. destruct (e_add r Hw Hp Hs Hn P Q _ _ H1 H2) as [R [R1 R2]]. eexists R, _. split; [exact R1|].
  apply (den_e_point r Hw Hp) in R2. split; [|exact R2]. eapply (e_sum_iff _ Hp H3 _ _ Hs (Ha0 r Hw Hp) Hn); [exact O1|exact O2|reflexivity].
Qed.
Print Assumptions C21_edwards_add.
Theorem C21_edwards_dbl : forall r P A, edwards r -> e_point r P A ->
  exists R C, ecp_dbl r P = Some R /\ e_sum (pmod r) (cA r) (cB r) A A C /\ e_point r R C.
Proof.
  intros r P A [Hw [Hp [Hs Hn]]] H1. apply (e_point_den r Hw Hp) in H1. destruct H1 as [O1 H1].
  pose proof (p_gt3 r (proj1 Hw)) as H3. destruct (e_dbl r Hw Hp Hs Hn P _ H1) as [R [R1 R2]]. eexists R, _. split; [exact R1|].
  apply (den_e_point r Hw Hp) in R2. split; [|exact R2]. eapply (e_sum_iff _ Hp H3 _ _ Hs (Ha0 r Hw Hp) Hn); [exact O1|exact O1|reflexivity].
Qed.
Print Assumptions C21_edwards_dbl.
Theorem C21_edwards_neg : forall r P A, edwards r -> e_point r P A -> exists R, ecp_neg r P = Some R /\ e_point r R (e_neg (pmod r) A).
Proof.
  intros r P A [Hw [Hp [Hs Hn]]] H1. apply (e_point_den r Hw Hp) in H1. destruct H1 as [O1 H1].
  destruct (e_negate r Hw Hp P _ H1) as [R [R1 R2]]. exists R. split; [exact R1|]. apply (den_e_point r Hw Hp) in R2. rewrite <- e_neg_spe, (spe_ake _ _ _ A O1) in R2. exact R2.
Qed.
Print Assumptions C21_edwards_neg.
Theorem C21_edwards_sub : forall r P Q A B, edwards r -> e_point r P A -> e_point r Q B ->
  exists R C, ecp_sub r P Q = Some R /\ e_sum (pmod r) (cA r) (cB r) A (e_neg (pmod r) B) C /\ e_point r R C.
Proof.
  intros r P Q A B Hr H1 H2. unfold ecp_sub. destruct (C21_edwards_neg r Q B Hr H2) as [N [N1 N2]]. rewrite N1. cbn [bind]. apply C21_edwards_add; assumption.
Qed.
Print Assumptions C21_edwards_sub.
Theorem C21_edwards_is_infinity : forall r P A, edwards r -> e_point r P A -> exists b, ecp_is_infinity r P = Some b /\ (b = true <-> A = e_zero).
Proof.
  intros r P A [Hw [Hp [Hs Hn]]] H1. apply (e_point_den r Hw Hp) in H1. destruct H1 as [O1 H1]. destruct (e_is_inf r Hw Hp P _ H1) as [b [B1 B2]]. exists b. split; [exact B1|]. rewrite B2.
  pose proof (p_gt3 r (proj1 Hw)) as H3. split; [|intros ->; reflexivity]. intros E. rewrite <- (spe_ake _ _ _ A O1), E. rewrite <- ake_zero. apply (spe_ake _ (cA r) (cB r)). apply e_zero_on. exact H3.
Qed.
Print Assumptions C21_edwards_is_infinity.
Theorem C21_edwards_equals : forall r P Q A B, edwards r -> e_point r P A -> e_point r Q B -> exists b, ecp_equals r P Q = Some b /\ (b = true <-> A = B).
Proof.
  intros r P Q A B [Hw [Hp [Hs Hn]]] H1 H2. apply (e_point_den r Hw Hp) in H1. apply (e_point_den r Hw Hp) in H2. destruct H1 as [O1 H1], H2 as [O2 H2].
  destruct (e_equals r Hw Hp P Q _ _ H1 H2) as [b [B1 B2]]. exists b. split; [exact B1|]. rewrite B2. split; [|congruence].
  intros E. rewrite <- (spe_ake _ _ _ A O1), <- (spe_ake _ _ _ B O2), E. reflexivity.
Qed.
Print Assumptions C21_edwards_equals.
(** affine() does not normalise the neutral element, whose coordinates may then be (0 : y : y) for any y *)
Theorem C21_edwards_affine : forall r P A, edwards r -> e_point r P A ->
  exists R, ecp_affine r P = Some R /\ e_point r R A /\ (A <> e_zero -> coords r R (fst A) (snd A) 1).
Proof.
  intros r P A [Hw [Hp [Hs Hn]]] H1. apply (e_point_den r Hw Hp) in H1. destruct H1 as [O1 H1]. destruct (e_affine r Hw Hp P _ H1) as [R [R1 [R2 R3]]].
  exists R. split; [exact R1|]. split; [apply (e_point_den r Hw Hp); auto|]. intros NE. destruct R3 as [v [V1 V2]].
  - intros E. apply NE. rewrite <- (spe_ake _ _ _ A O1), E. rewrite <- ake_zero. apply (spe_ake _ (cA r) (cB r)). apply e_zero_on. exact (p_gt3 r (proj1 Hw)).
  - apply nrm_coords with (v := v); try assumption. exact (proj1 Hw).
Qed.
Print Assumptions C21_edwards_affine.
Theorem C21_edwards_new : forall r, edwards r -> exists R, ecp_new r = Some R /\ e_point r R e_zero.
Proof.
  intros r [Hw [Hp [Hs Hn]]]. destruct (e_new r Hw Hp) as [R [R1 R2]]. exists R. split; [exact R1|]. apply (e_point_den r Hw Hp). rewrite ake_zero. split; [|exact R2].
  apply e_zero_on. exact (p_gt3 r (proj1 Hw)).
Qed.
Print Assumptions C21_edwards_new.

(** ** C23: scalar multiplication *)
Theorem C23_mul : forall r P A e, weierstrass r -> w_point r P A -> big_wf (r_cfg r) e -> scalar_ok r (bval (r_cfg r) e) ->
  exists R C, ecp_mul r P e = Some R /\ w_times (pmod r) (cA r) A (Z.to_nat (bval (r_cfg r) e)) C /\ w_point r R C /\ (forall x y, C = Aff x y -> coords r R x y 1).
Proof.
  intros r P A e [Hw [Hp Hn]] H1 He Hm. apply (w_point_den r Hw Hp) in H1. destruct H1 as [O1 H1]. pose proof (ff_ok r (fp_ok_facts r (proj1 Hw))) as Hok.
  assert (Hnm : is_mont r = false) by (unfold is_mont; rewrite (proj1 (proj2 (proj2 (proj2 Hw)))); reflexivity).
  destruct (mul_ok r Hok Hnm _ _ _ _ _ (w_group r Hw Hp Hn) _ _ (w_pops r Hw Hp Hn) P _ e H1 He Hm) as [R [R1 [R2 R3]]].
  assert (V0 : 0 <= bval (r_cfg r) e) by (unfold bval; pose proof (BigInv.brange _ Hok e He); lia). unfold bval in *. rewrite ztimes_nat in R2, R3 by exact V0.
  eexists R, _. split; [exact R1|]. split; [apply (w_times_iff r Hw Hp Hn); [exact O1|reflexivity]|]. split; [apply (den_w_point r Hw Hp); exact R2|].
  intros x y E. destruct (ntimes _ _ _ _ _) as [|x' y']; [discriminate E|]. injection E as <- <-. destruct R3 as [v [V1 V2]]. apply nrm_coords with (v := v); try assumption; [exact (proj1 Hw)|]. rewrite !mk_fz by exact Hp. exact V2.
Qed.
Print Assumptions C23_mul.
Theorem C23_mul2 : forall r P A e Q B f, weierstrass r -> w_point r P A -> w_point r Q B -> big_wf (r_cfg r) e -> big_wf (r_cfg r) f ->
  scalar_ok r (bval (r_cfg r) e + bval (r_cfg r) f + 2) ->
  exists R C D S, ecp_mul2 r P e Q f = Some R /\ w_times (pmod r) (cA r) A (Z.to_nat (bval (r_cfg r) e)) C /\ w_times (pmod r) (cA r) B (Z.to_nat (bval (r_cfg r) f)) D /\
    w_sum (pmod r) (cA r) C D S /\ w_point r R S /\ (forall x y, S = Aff x y -> coords r R x y 1).
Proof.
  intros r P A e Q B f [Hw [Hp Hn]] H1 H2 He Hf Hm. apply (w_point_den r Hw Hp) in H1. destruct H1 as [O1 H1]. apply (w_point_den r Hw Hp) in H2. destruct H2 as [O2 H2]. pose proof (ff_ok r (fp_ok_facts r (proj1 Hw))) as Hok.
  destruct (mul2_ok r Hok _ _ _ _ _ (w_group r Hw Hp Hn) _ _ (w_pops r Hw Hp Hn) P _ e Q _ f H1 H2 He Hf) as [R [R1 [R2 R3]]].
  { unfold scalar_ok, bval in Hm. unfold NBITS. lia. }
  assert (V0 : 0 <= bval (r_cfg r) e) by (unfold bval; pose proof (BigInv.brange _ Hok e He); lia). assert (V1 : 0 <= bval (r_cfg r) f) by (unfold bval; pose proof (BigInv.brange _ Hok f Hf); lia).
  unfold bval in *. rewrite !ztimes_nat in R2, R3 by assumption. pose proof (w_group r Hw Hp Hn) as WG. pose proof (p_gt3 r (proj1 Hw)) as P3.
  set (C := ntimes _ _ _ (Z.to_nat (val _ e)) _) in *. set (D := ntimes _ _ _ (Z.to_nat (val _ f)) _) in *.
  assert (OC : aon (pmod r) (mk (pmod r) (cA r)) (mk (pmod r) (cB r)) C) by (apply (ntimes_on _ _ _ _ _ WG); apply on_ak; assumption).
  assert (OD : aon (pmod r) (mk (pmod r) (cA r)) (mk (pmod r) (cB r)) D) by (apply (ntimes_on _ _ _ _ _ WG); apply on_ak; assumption).
  eexists R, (sp (pmod r) C), (sp (pmod r) D), _. split; [exact R1|]. split; [apply (w_times_iff r Hw Hp Hn); [exact O1|reflexivity]|]. split; [apply (w_times_iff r Hw Hp Hn); [exact O2|reflexivity]|].
  split; [|split; [apply (den_w_point r Hw Hp); exact R2|]].
  - apply (sum_ex _ Hp P3 (cA r) (cB r)); assumption.
  - intros x y E. destruct (asum _ _ C D) as [|x' y']; [discriminate E|]. injection E as <- <-. destruct R3 as [v [W1 W2]]. apply nrm_coords with (v := v); try assumption; [exact (proj1 Hw)|]. rewrite !mk_fz by exact Hp. exact W2.
Qed.
Print Assumptions C23_mul2.
Theorem C23_pinmul : forall r P A e n, weierstrass r -> w_point r P A -> 0 <= e < 2 ^ Z.of_nat n ->
  exists R C, ecp_pinmul r P e n = Some R /\ w_times (pmod r) (cA r) A (Z.to_nat e) C /\ w_point r R C /\ (forall x y, C = Aff x y -> coords r R x y 1).
Proof.
  intros r P A e n [Hw [Hp Hn]] H1 He. apply (w_point_den r Hw Hp) in H1. destruct H1 as [O1 H1].
  assert (Hnm : is_mont r = false) by (unfold is_mont; rewrite (proj1 (proj2 (proj2 (proj2 Hw)))); reflexivity).
  destruct (pinmul_ok r Hnm _ _ _ _ _ (w_group r Hw Hp Hn) _ _ (w_pops r Hw Hp Hn) P _ e n H1 He) as [R [R1 [R2 R3]]].
  rewrite ztimes_nat in R2, R3 by apply He.
  eexists R, _. split; [exact R1|]. split; [apply (w_times_iff r Hw Hp Hn); [exact O1|reflexivity]|]. split; [apply (den_w_point r Hw Hp); exact R2|].
  intros x y E. destruct (ntimes _ _ _ _ _) as [|x' y']; [discriminate E|]. injection E as <- <-. destruct R3 as [v [V1 V2]]. apply nrm_coords with (v := v); try assumption; [exact (proj1 Hw)|]. rewrite !mk_fz by exact Hp. exact V2.
Qed.
Print Assumptions C23_pinmul.

(** ** the same for Edwards curves *)
Theorem C23_edwards_mul : forall r P A e, edwards r -> e_point r P A -> big_wf (r_cfg r) e -> scalar_ok r (bval (r_cfg r) e) ->
  exists R C, ecp_mul r P e = Some R /\ e_times (pmod r) (cA r) (cB r) A (Z.to_nat (bval (r_cfg r) e)) C /\ e_point r R C /\ (C <> e_zero -> coords r R (fst C) (snd C) 1).
Proof.
  intros r P A e [Hw [Hp [Hs Hn]]] H1 He Hm. apply (e_point_den r Hw Hp) in H1. destruct H1 as [O1 H1]. pose proof (ff_ok r (fp_ok_facts r (proj1 Hw))) as Hok.
  destruct (mul_ok r Hok (e_not_mont r Hw) _ _ _ _ _ (e_group r Hw Hp Hs Hn) _ _ (e_pops r Hw Hp Hs Hn) P _ e H1 He Hm) as [R [R1 [R2 R3]]].
  assert (V0 : 0 <= bval (r_cfg r) e) by (unfold bval; pose proof (BigInv.brange _ Hok e He); lia). unfold bval in *. rewrite ztimes_nat_g in R2, R3 by exact V0.
  eexists R, _. split; [exact R1|]. split; [apply (e_times_iff r Hw Hp Hs Hn); [exact O1|reflexivity]|]. split; [apply (den_e_point r Hw Hp); exact R2|].
  intros NE. apply (enrm_coords r Hw Hp _ _ R3). exact NE.
Qed.
Print Assumptions C23_edwards_mul.
Theorem C23_edwards_mul2 : forall r P A e Q B f, edwards r -> e_point r P A -> e_point r Q B -> big_wf (r_cfg r) e -> big_wf (r_cfg r) f ->
  scalar_ok r (bval (r_cfg r) e + bval (r_cfg r) f + 2) ->
  exists R C D S, ecp_mul2 r P e Q f = Some R /\ e_times (pmod r) (cA r) (cB r) A (Z.to_nat (bval (r_cfg r) e)) C /\ e_times (pmod r) (cA r) (cB r) B (Z.to_nat (bval (r_cfg r) f)) D /\
    e_sum (pmod r) (cA r) (cB r) C D S /\ e_point r R S /\ (S <> e_zero -> coords r R (fst S) (snd S) 1).
Proof.
  intros r P A e Q B f [Hw [Hp [Hs Hn]]] H1 H2 He Hf Hm. apply (e_point_den r Hw Hp) in H1. destruct H1 as [O1 H1]. apply (e_point_den r Hw Hp) in H2. destruct H2 as [O2 H2]. pose proof (ff_ok r (fp_ok_facts r (proj1 Hw))) as Hok.
  destruct (mul2_ok r Hok _ _ _ _ _ (e_group r Hw Hp Hs Hn) _ _ (e_pops r Hw Hp Hs Hn) P _ e Q _ f H1 H2 He Hf) as [R [R1 [R2 R3]]].
  { unfold scalar_ok, bval in Hm. unfold NBITS. lia. }
  assert (V0 : 0 <= bval (r_cfg r) e) by (unfold bval; pose proof (BigInv.brange _ Hok e He); lia). assert (V1 : 0 <= bval (r_cfg r) f) by (unfold bval; pose proof (BigInv.brange _ Hok f Hf); lia).
  unfold bval in *. rewrite !ztimes_nat_g in R2, R3 by assumption. pose proof (e_group r Hw Hp Hs Hn) as WG. pose proof (p_gt3 r (proj1 Hw)) as P3.
  set (C := ntimes _ _ _ (Z.to_nat (val _ e)) _) in *. set (D := ntimes _ _ _ (Z.to_nat (val _ f)) _) in *.
  assert (OC : eon (pmod r) (mk (pmod r) (cA r)) (mk (pmod r) (cB r)) C) by (apply (ntimes_on _ _ _ _ _ WG); apply on_ake; assumption).
  assert (OD : eon (pmod r) (mk (pmod r) (cA r)) (mk (pmod r) (cB r)) D) by (apply (ntimes_on _ _ _ _ _ WG); apply on_ake; assumption).
  eexists R, (spe (pmod r) C), (spe (pmod r) D), _. split; [exact R1|]. split; [apply (e_times_iff r Hw Hp Hs Hn); [exact O1|reflexivity]|]. split; [apply (e_times_iff r Hw Hp Hs Hn); [exact O2|reflexivity]|].
  split; [|split; [apply (den_e_point r Hw Hp); exact R2|]].
  - eapply (e_sum_iff _ Hp P3 _ _ Hs (Ha0 r Hw Hp) Hn); [apply on_spe; assumption|apply on_spe; assumption|]. rewrite !ake_spe by exact Hp. reflexivity.
  - intros NE. apply (enrm_coords r Hw Hp _ _ R3). exact NE.
Qed.
Print Assumptions C23_edwards_mul2.
Theorem C23_edwards_pinmul : forall r P A e n, edwards r -> e_point r P A -> 0 <= e < 2 ^ Z.of_nat n ->
  exists R C, ecp_pinmul r P e n = Some R /\ e_times (pmod r) (cA r) (cB r) A (Z.to_nat e) C /\ e_point r R C /\ (C <> e_zero -> coords r R (fst C) (snd C) 1).
Proof.
  intros r P A e n [Hw [Hp [Hs Hn]]] H1 He. apply (e_point_den r Hw Hp) in H1. destruct H1 as [O1 H1].
  destruct (pinmul_ok r (e_not_mont r Hw) _ _ _ _ _ (e_group r Hw Hp Hs Hn) _ _ (e_pops r Hw Hp Hs Hn) P _ e n H1 He) as [R [R1 [R2 R3]]].
  rewrite ztimes_nat_g in R2, R3 by apply He.
  eexists R, _. split; [exact R1|]. split; [apply (e_times_iff r Hw Hp Hs Hn); [exact O1|reflexivity]|]. split; [apply (den_e_point r Hw Hp); exact R2|].
  intros NE. apply (enrm_coords r Hw Hp _ _ R3). exact NE.
Qed.
Print Assumptions C23_edwards_pinmul.

(** ** concrete curves meeting the conditions *)
Lemma cA_val r a : (cA r =? a) = true -> cA r = a. Proof. apply Z.eqb_eq. Qed.
Lemma cB_val r b : (cB r =? b) = true -> cB r = b. Proof. apply Z.eqb_eq. Qed.
Lemma weier0 r q b : w_okb r = true -> (cA r =? 0) = true -> (cB r =? b) = true -> pmod r = q -> prime q -> no_order2 q 0 b -> weierstrass r.
Proof. intros H1 H2 H3 H4 Hp Hn. split; [apply w_okb_ok; exact H1|]. rewrite H4. split; [exact Hp|]. rewrite (cA_val _ _ H2), (cB_val _ _ H3). exact Hn. Qed.
Example secp256k1_64_ok : weierstrass rom_secp256k1_64.
Proof. apply (weier0 _ secp256k1_p 7); [vm_compute; reflexivity|vm_compute; reflexivity|vm_compute; reflexivity|exact p_secp256k1_64|exact prime_secp256k1_p|exact no2_secp256k1]. Qed.
Example bls381_64_ok : weierstrass rom_bls381_64.
Proof. apply (weier0 _ bls381_p 4); [vm_compute; reflexivity|vm_compute; reflexivity|vm_compute; reflexivity|exact p_bls381_64|exact prime_bls381_p|exact no2_bls381]. Qed.
Lemma edw_ed25519 r : e_okb r = true -> (cA r =? -1) = true -> (cB r =? ed25519_d) = true -> pmod r = ed25519_p -> edwards r.
Proof.
  intros H1 H2 H3 H4. split; [apply e_okb_ok; exact H1|]. rewrite H4, (cA_val _ _ H2), (cB_val _ _ H3).
  split; [exact prime_ed25519_p|]. split; [exact sq_ed25519|exact ns_ed25519].
Qed.
Example ed25519_64_ok : edwards rom_ed25519_64.
Proof. apply edw_ed25519; [vm_compute; reflexivity|vm_compute; reflexivity|vm_compute; reflexivity|exact p_ed25519_64]. Qed.
Print Assumptions ed25519_64_ok.

(** ** scalars of full range are not supported: the windowed multiplication indexes past its table *)
Theorem C23_full_range_refuted : exists e, big_wf (r_cfg rom_nist256_64) e /\ bval (r_cfg rom_nist256_64) e = 2 ^ 279 /\ (G <- ecp_generator rom_nist256_64 ;; ecp_mul rom_nist256_64 G e) = None.
Proof.
  exists [0; 0; 0; 0; 2 ^ 55]. split; [split; [reflexivity|]; repeat (apply Forall_cons; [split; [intros H; discriminate H|reflexivity]|]); apply Forall_nil|]. split; [vm_compute; reflexivity|vm_compute; reflexivity].
Qed.
Print Assumptions C23_full_range_refuted.

(** ** C49: branch-free selection of points *)
Theorem C49_ecp_cmove : forall r P Q A B d, weierstrass r -> w_point r P A -> w_point r Q B -> d = 0 \/ d = 1 -> ecp_cmove r P Q d = Some (if d =? 1 then Q else P).
Proof. intros r P Q A B d [Hw [Hp Hn]] H1 H2 Hd. apply (w_point_den r Hw Hp) in H1. apply (w_point_den r Hw Hp) in H2. destruct H1 as [_ H1], H2 as [_ H2]. exact (w_cmove r Hw P Q _ _ d H1 H2 Hd). Qed.
Print Assumptions C49_ecp_cmove.
Theorem C49_ecp_cswap : forall r P Q A B d, weierstrass r -> w_point r P A -> w_point r Q B -> d = 0 \/ d = 1 -> ecp_cswap r P Q d = Some (if d =? 1 then (Q, P) else (P, Q)).
Proof. intros r P Q A B d [Hw [Hp Hn]] H1 H2 Hd. apply (w_point_den r Hw Hp) in H1. apply (w_point_den r Hw Hp) in H2. destruct H1 as [_ H1], H2 as [_ H2]. exact (w_cswap r Hw P Q _ _ d H1 H2 Hd). Qed.
Print Assumptions C49_ecp_cswap.
Theorem C49_ecp_edwards_cmove : forall r P Q A B d, edwards r -> e_point r P A -> e_point r Q B -> d = 0 \/ d = 1 -> ecp_cmove r P Q d = Some (if d =? 1 then Q else P).
Proof. intros r P Q A B d [Hw [Hp Hn]] H1 H2 Hd. apply (e_point_den r Hw Hp) in H1. apply (e_point_den r Hw Hp) in H2. destruct H1 as [_ H1], H2 as [_ H2]. exact (e_cmove r Hw P Q _ _ d H1 H2 Hd). Qed.
Print Assumptions C49_ecp_edwards_cmove.
Theorem C49_ecp_edwards_cswap : forall r P Q A B d, edwards r -> e_point r P A -> e_point r Q B -> d = 0 \/ d = 1 -> ecp_cswap r P Q d = Some (if d =? 1 then (Q, P) else (P, Q)).
Proof. intros r P Q A B d [Hw [Hp Hn]] H1 H2 Hd. apply (e_point_den r Hw Hp) in H1. apply (e_point_den r Hw Hp) in H2. destruct H1 as [_ H1], H2 as [_ H2]. exact (e_cswap r Hw P Q _ _ d H1 H2 Hd). Qed.
Print Assumptions C49_ecp_edwards_cswap.
