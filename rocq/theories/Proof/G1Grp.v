(** The group G1 of BLS12-381 behind the BLS schemes: point objects as multiples of the generator *)
From Verif Require Import Base.Word Base.Arr Model.Big Model.Roms Model.Fp Model.Ecp Model.G1Mul Model.HashToCurve Model.Bls Model.BlsScheme Model.BlsG1Grp Spec.Bytes Spec.BigSpec Spec.RomSpec Spec.FpSpec Spec.CurveSpec Spec.EcpSpec Spec.BlsSpec
  Proof.NumTheory Proof.FieldP Proof.Weier Proof.FpBase Proof.FpIv Proof.Primes Proof.EcpW Proof.EcpBridge Proof.EcpMul Proof.EcpInst Proof.EcGroupInst Proof.EcpCodec Proof.EcpCodec2 Proof.EcpCodec3 Proof.RomCheck Proof.PrimeBlsN Proof.BlsRoms Proof.BlsInst Proof.BlsG1 Proof.Glv Proof.G1Cert Proof.G1MulProof Proof.G1Exact.
From Coq Require Import Lia Znumtheory.

(** bounded search *)
Lemma zsearch (Q : Z -> Prop) (dec : forall z, {Q z} + {~ Q z}) n : {z | 0 <= z < n /\ Q z} + {forall z, 0 <= z < n -> ~ Q z}.
Proof.
  assert (F : forall N : nat, {z | 0 <= z < Z.of_nat N /\ Q z} + {forall z, 0 <= z < Z.of_nat N -> ~ Q z}).
  { induction N as [|N [[z [Hz H]]|NO]]; [right; intros; lia|left; exists z; split; [lia|exact H]|]. destruct (dec (Z.of_nat N)) as [D|D]; [left; exists (Z.of_nat N); split; [lia|exact D]|].
    right. intros z Hz. destruct (Z.eq_dec z (Z.of_nat N)) as [->|NE]; [exact D|apply NO; lia]. }
  destruct (F (Z.to_nat n)) as [[z [Hz H]]|NO]; [left; exists z; split; [lia|exact H]|right; intros z Hz; apply NO; lia].
Qed.
Lemma on_dec p a b x y : {on_w p a b (Aff x y)} + {~ on_w p a b (Aff x y)}.
Proof.
  unfold on_w, residue, cong. destruct (Z_le_dec 0 x), (Z_lt_dec x p), (Z_le_dec 0 y), (Z_lt_dec y p), (Z.eq_dec ((y * y) mod p) ((x * x * x + a * x + b) mod p)); try (right; tauto); left; tauto.
Qed.
Lemma bytes_dec (a b : list Z) : {a = b} + {a <> b}. Proof. apply list_eq_dec, Z.eq_dec. Qed.

Section S.
Variables (r : rom) (bnx cru : list Z).
Hypothesis HI : In (r, bnx, cru) g1_roms.
Notation c := (r_cfg r).
Notation V := (bval c).
Notation p := (pmod r).
Let HR : In r bls_roms := g1_bls r bnx cru HI.
Let Hw : w_ok r := bls_w r HR.
Let Hf : fp_ok r := bls_fp_ok r HR.
Let Hp : prime p := bls_prime r HR.
Let Hn : no_order2 p (cA r) (cB r) := bls_no2 r HR.
Notation ka := (mk p (cA r)).
Notation kb := (mk p (cB r)).
Let WG := w_group r Hw Hp Hn.
Let WP := w_pops r Hw Hp Hn.
Notation zt := (ztimes (apt p) (AInf p) (asum p ka) (aneg p)).
Notation Gp := (ak p (Aff (gx r) (gy r))).
Notation N := (mbytes r).
Let Og : aon p ka kb Gp := on_ak p Hp _ _ _ (g_on r bnx cru HI).
Lemma gwf : big_wf c (r_GX r) /\ big_wf c (r_GY r).
Proof. pose proof HR as H. clear - H. destruct H as [<-|[<-|[]]]; split; apply big_wfb_ok; vm_compute; reflexivity. Qed.
Lemma gen1 : exists G, ecp_generator r = Some G /\ wden r G Gp.
Proof.
  unfold ecp_generator. pose proof (w_nm r Hw) as nm. rewrite nm. destruct gwf as [W1 W2]. pose proof (g_on r bnx cru HI) as [R1 [R2 R3]]. unfold residue, gx, gy, bval in *.
  pose proof Hw as [_ [HMX [Hfp [Hct _]]]].
  destruct (new_bigs_ok r Hf HMX (w_rhs r) (rhs_w r Hw) nm (r_GX r) (r_GY r) W1 W2 ltac:(lia) ltac:(lia)) as [P [E D]]. exists P. split; [exact E|].
  destruct D as [[_ [PR _]]|[NE _]]; [|contradiction NE; exact R3].
  apply (w_point_den r Hw Hp). split; [exact (g_on r bnx cru HI)|]. exists (V (r_GX r)), (V (r_GY r)), 1. destruct PR as [P1 [P2 P3']]. cbn [fst snd] in *.
  split; [split; [|split]; eapply (frep_rep r Hf 0 1 (FEXCESS r)); try lia; eassumption|]. cbv iota; rewrite !Z.mul_1_r. split; [apply not1; exact (p_gt3 r Hf)|]. split; reflexivity.
Qed.
Lemma zt_inj k k' : zt k Gp = zt k' Gp <-> k mod bls381_n = k' mod bls381_n.
Proof.
  pose proof (g_order r bnx cru HI) as GO. pose proof prime_bls381_order as Pn. change bls381_order with bls381_n in Pn. revert Pn GO. generalize bls381_n as n. intros n Pn GO. pose proof (prime_ge_2 _ Pn) as N2. split; intros E.
  - assert (D0 : zt (k - k') Gp = AInf p).
    { unfold Z.sub. rewrite (ztimes_add _ _ _ _ _ WG), (ztimes_opp _ _ _ _ _ WG), E by exact Og. apply (cg_inv _ _ _ _ _ WG). apply (ztimes_on _ _ _ _ _ WG). exact Og. }
    destruct (Zdivide_dec n (k - k')) as [[q Q]|ND]; [replace k with (k' + q * n) by lia; apply Z.mod_add; lia|exfalso].
    assert (RP : rel_prime (k - k') n) by (apply rel_prime_sym, prime_rel_prime; assumption). destruct (rel_prime_bezout _ _ RP) as [u v B].
    assert (Z1 : zt 1 Gp = AInf p).
    { rewrite <- B, (ztimes_add _ _ _ _ _ WG), <- (ztimes_mul _ _ _ _ _ WG u), <- (ztimes_mul _ _ _ _ _ WG v), D0, GO, !(zt_zero _ _ _ _ _ WG) by exact Og. reflexivity. }
    rewrite (ztimes_1 _ _ _ _ _ WG) in Z1 by exact Og. discriminate Z1.
  - assert (R : forall k, zt k Gp = zt (k mod n) Gp).
    { intros z. rewrite (Z.div_mod z n) at 1 by lia. rewrite Z.mul_comm, (ztimes_add _ _ _ _ _ WG), <- (ztimes_mul _ _ _ _ _ WG (z / n)), GO, (zt_zero _ _ _ _ _ WG) by exact Og.
      apply (cg_id _ _ _ _ _ WG). apply (ztimes_on _ _ _ _ _ WG). exact Og. }
    rewrite (R k), (R k'), E. reflexivity.
Qed.
Lemma mul1 P k e : wden r P (zt k Gp) -> big_wf c e -> V e < bls381_n -> exists R, g1mul r bnx cru P e = Some R /\ wden r R (zt (k * V e) Gp).
Proof.
  intros HP We Le. destruct (g1mul_sub r bnx cru HI P _ e k eq_refl HP We) as [R [R1 [R2 _]]].
  { eapply Z.lt_le_trans; [exact Le|]. vm_compute. discriminate. }
  exists R. split; [exact R1|]. rewrite (ztimes_mul _ _ _ _ _ WG) in R2 by exact Og. rewrite Z.mul_comm. exact R2.
Qed.
Lemma add1 P Q k l : wden r P (zt k Gp) -> wden r Q (zt l Gp) -> exists R, ecp_add r P Q = Some R /\ wden r R (zt (k + l) Gp).
Proof. intros HP HQ. destruct (po_add _ _ _ _ _ _ _ _ WP P Q _ _ HP HQ) as [R [R1 R2]]. exists R. split; [exact R1|]. rewrite (ztimes_add _ _ _ _ _ WG) by exact Og. exact R2. Qed.
Lemma neg1 P k : wden r P (zt k Gp) -> exists R, ecp_neg r P = Some R /\ wden r R (zt (- k) Gp).
Proof. intros HP. destruct (po_neg _ _ _ _ _ _ _ _ WP P _ HP) as [R [R1 R2]]. exists R. split; [exact R1|]. rewrite (ztimes_opp _ _ _ _ _ WG) by exact Og. exact R2. Qed.
(** no point of the group has x = 0: such points have order 3 *)
Notation kbt := (mk p g1_beta).
Let HkA : ka = f0 p. Proof. rewrite (proj1 (bls_AB r HR)). reflexivity. Qed.
Let K2 : (kbt * kbt + kbt + f1 p)%F = f0 p.
Proof. unfold f1, f0. rewrite <- !mk_mul, <- !mk_add by exact Hp. apply mk_eq. rewrite (bls_p r HR). vm_compute. reflexivity. Qed.
Lemma x_nz k x y : zt k Gp = AAff p x y -> x <> f0 p.
Proof.
  intros E ->. assert (OA : aon p ka kb (zt k Gp)) by (apply (ztimes_on _ _ _ _ _ WG); exact Og). assert (P3 : 3 < p) by (exact (p_gt3 r Hf)).
  pose proof (phi_three p Hp P3 ka kb kbt HkA (kno2' p Hp P3 (cA r) (cB r) Hn) K2 _ OA) as T.
  assert (PH : phi p kbt (zt k Gp) = zt k Gp). { rewrite E. cbn [phi]. f_equal. unfold f0. rewrite <- mk_mul by exact Hp. rewrite Z.mul_0_r. reflexivity. }
  rewrite !PH in T. assert (T3 : zt (3 * k) Gp = AInf p).
  { rewrite <- (ztimes_mul _ _ _ _ _ WG) by exact Og. change 3 with (1 + 1 + 1). rewrite !(ztimes_add _ _ _ _ _ WG), !(ztimes_1 _ _ _ _ _ WG), T by exact OA. apply (inv_l _ _ _ _ _ WG). exact OA. }
  change (AInf p) with (zt 0 Gp) in T3. apply zt_inj in T3. rewrite Z.mod_0_l in T3 by discriminate.
  assert (K0 : k mod bls381_n = 0 mod bls381_n).
  { replace k with (3 * k * - (bls381_n / 3) + k * bls381_n) by (assert (Q : bls381_n = 3 * (bls381_n / 3) + 1) by (vm_compute; reflexivity); rewrite Q at 2; ring).
    rewrite Z.mod_add by discriminate. rewrite Z.mul_mod, T3 by discriminate. rewrite Z.mul_0_l. reflexivity. }
  apply zt_inj in K0. rewrite K0 in E. discriminate E.
Qed.
Lemma ser1 bd P k : wden r P (zt k Gp) -> serialize_g1 r bd P = Some (compress1 p N (sp p (zt k Gp))).
Proof.
  intros HP. pose proof (den_w_point r Hw Hp P _ HP) as W. rewrite (bls_N r HR). rewrite <- (bls_N r HR) at 1.
  apply serialize_ok; eauto using bls_w, bls_codec, bls_ns, bls_no2, bls_bits; [rewrite (bls_N r HR); lia|].
  intros x y E. right; right. destruct (zt k Gp) as [|X Y] eqn:EZ; [discriminate E|]. pose proof (x_nz k X Y EZ) as NZ. cbn [sp] in E. injection E as <- <-. intros Q. apply NZ. rewrite <- (mk_fz p Hp X), Q. reflexivity.
Qed.
(** a byte string is decoded to a curve point or refused *)
Lemma deser1 b : bytes b -> (exists e, deserialize_g1 r b = Some (Err e)) \/ (exists A P, on_w p (cA r) (cB r) A /\ (b = compress1 p N A \/ b = plain1 N A) /\ deserialize_g1 r b = Some (Ok P) /\ w_point r P A).
Proof.
  intros Hb. assert (D : {A | on_w p (cA r) (cB r) A /\ (b = compress1 p N A \/ b = plain1 N A)} + {forall A, on_w p (cA r) (cB r) A -> b <> compress1 p N A /\ b <> plain1 N A}).
  { assert (E : forall A, {b = compress1 p N A \/ b = plain1 N A} + {b <> compress1 p N A /\ b <> plain1 N A}) by (intros A; destruct (bytes_dec b (compress1 p N A)), (bytes_dec b (plain1 N A)); tauto).
    destruct (E Inf) as [EI|EI]; [left; exists Inf; split; [exact I|exact EI]|].
    assert (D2 : forall x, {exists y, 0 <= y < p /\ on_w p (cA r) (cB r) (Aff x y) /\ (b = compress1 p N (Aff x y) \/ b = plain1 N (Aff x y))} + {~ exists y, 0 <= y < p /\ on_w p (cA r) (cB r) (Aff x y) /\ (b = compress1 p N (Aff x y) \/ b = plain1 N (Aff x y))}).
    { intros x. destruct (zsearch (fun y => on_w p (cA r) (cB r) (Aff x y) /\ (b = compress1 p N (Aff x y) \/ b = plain1 N (Aff x y)))) with (n := p) as [[y [Y1 Y2]]|NO].
      - intros y. destruct (on_dec p (cA r) (cB r) x y), (E (Aff x y)); [left; tauto|right; tauto|right; tauto|right; tauto].
      - left. exists y. tauto.
      - right. intros [y [Y1 Y2]]. exact (NO y Y1 Y2). }
    destruct (zsearch _ D2 p) as [[x [X1 X2]]|NO].
    - destruct (zsearch (fun y => on_w p (cA r) (cB r) (Aff x y) /\ (b = compress1 p N (Aff x y) \/ b = plain1 N (Aff x y)))) with (n := p) as [[y [Y1 Y2]]|NO].
      + intros y. destruct (on_dec p (cA r) (cB r) x y), (E (Aff x y)); [left; tauto|right; tauto|right; tauto|right; tauto].
      + left. exists (Aff x y). exact Y2.
      + exfalso. destruct X2 as [y [Y1 Y2]]. exact (NO y Y1 Y2).
    - right. intros [|x y] O; [exact EI|]. destruct (E (Aff x y)) as [Q|Q]; [|exact Q]. exfalso. pose proof O as [RX [RY _]]. unfold residue in *. apply (NO x RX). exists y. tauto. }
  destruct D as [[A [O Q]]|NO].
  - right. assert (X : exists P, deserialize_g1 r b = Some (Ok P) /\ w_point r P A) by (apply decode_g1_ok; auto using bls_w, bls_codec, bls_ns, bls_no2, bls_bits; rewrite (bls_N r HR); lia).
    destruct X as [P [P1 P2]]. exists A, P. auto.
  - left. eexists. apply decode_g1_err; auto using bls_w, bls_codec, bls_ns, bls_no2, bls_bits. rewrite (bls_N r HR); lia.
Qed.
End S.
Section U.
Variables (r : rom) (bnx cru : list Z).
Hypothesis HI : In (r, bnx, cru) g1_roms.
Notation p := (pmod r).
Let HR : In r bls_roms := g1_bls r bnx cru HI.
Let Hw : w_ok r := bls_w r HR.
Let Hp : prime p := bls_prime r HR.
Let Hn : no_order2 p (cA r) (cB r) := bls_no2 r HR.
Let WG := w_group r Hw Hp Hn.
Let WP := w_pops r Hw Hp Hn.
(** an object stands for one point only *)
Lemma wden_uniq P A C : wden r P A -> wden r P C -> A = C.
Proof.
  intros HA HC. pose proof (wden_on _ _ _ HA) as OA. pose proof (wden_on _ _ _ HC) as OC.
  destruct (po_neg _ _ _ _ _ _ _ _ WP P A HA) as [N [N1 N2]]. destruct (po_neg _ _ _ _ _ _ _ _ WP P C HC) as [N' [N3 N4]]. rewrite N1 in N3. injection N3 as <-.
  destruct (po_add _ _ _ _ _ _ _ _ WP P N _ _ HA N2) as [R [R1 R2]]. destruct (po_add _ _ _ _ _ _ _ _ WP P N _ _ HA N4) as [R' [R3 R4]]. rewrite R1 in R3. injection R3 as <-.
  destruct (po_inf _ _ _ _ _ _ _ _ WP R _ R2) as [b [B1 B2]]. destruct (po_inf _ _ _ _ _ _ _ _ WP R _ R4) as [b' [B3 B4]]. rewrite B1 in B3. injection B3 as <-.
  pose proof (proj2 B2 (cg_inv _ _ _ _ _ WG A OA)) as ->. pose proof (proj1 B4 eq_refl) as E.
  pose proof (neg_uniq _ _ _ _ _ WG A _ OA (cg_neg _ _ _ _ _ WG C OC) E) as Q.
  transitivity (aneg p (aneg p A)); [symmetry; exact (neg_neg _ _ _ _ _ WG A OA)|]. rewrite <- Q. exact (neg_neg _ _ _ _ _ WG C OC).
Qed.
End U.
