(** The hypotheses of Proof/Ecp2Group.v and Proof/Ecp2MulG.v bundled, and the curves bls381 and bn254. *)
From Verif Require Import Base.Word Base.Arr Model.Big Model.Roms Model.Fp Model.Fp2 Model.Fp12 Model.Ecp Model.Ecp2 Model.Ecp2Mul
  Spec.BigSpec Spec.RomSpec Spec.FpSpec Spec.EcpSpec Spec.TowerSpec Spec.TowerRep Spec.G2Spec Spec.G2Sum Spec.G2Curve Spec.Ecp2Spec
  Proof.NumTheory Proof.Pocklington Proof.BigVal Proof.FpBase Proof.TowerRing Proof.TowerInv Proof.Fp2Ops Proof.CurveFacts Proof.BigInv Proof.EcpMul Proof.EcpInst Proof.Primes Proof.BlsRoms Proof.BlsInst Proof.BlsG2 Proof.BlsG2Dec Proof.MpinInst Proof.SlopesMpin
  Proof.Ecp2Ops Proof.Ecp2Add Proof.WeierK Proof.Field2 Proof.G2Bridge Proof.Ecp2Group Proof.Ecp2MulG.
From Coq Require Import Lia Znumtheory.

Section I.
Variable r : rom.
Variable tw : twist.
Variable bt : Z2.
Hypothesis HG : g2_curve r tw bt.
Notation p := (pmod r).
Notation bi := (r_CURVE_B_I r).
Notation FE := (FEXCESS r).
Let Hf : fp_ok r. Proof. exact (proj1 HG). Qed.
Let HT : tower_ok r. Proof. exact (proj1 (proj2 HG)). Qed.
Let Hs : special r = false. Proof. exact (proj1 HT). Qed.
Let Hp : prime p. Proof. exact (proj1 (proj2 (proj2 HG))). Qed.
Let H34 : p mod 4 = 3. Proof. exact (proj1 (proj2 (proj2 (proj2 HG)))). Qed.
Let Hbi : 0 < 3 * bi <= 60. Proof. exact (proj1 (proj2 (proj2 (proj2 (proj2 HG))))). Qed.
Let Hbc : bi mod p = cB r mod p. Proof. exact (proj1 (proj2 (proj2 (proj2 (proj2 (proj2 HG)))))). Qed.
Let Hbt : match tw with MType => eq2 p bt (mul2 xi (k2 (cB r))) | DType => eq2 p (mul2 xi bt) (k2 (cB r)) end. Proof. exact (proj1 (proj2 (proj2 (proj2 (proj2 (proj2 (proj2 HG))))))). Qed.
Let Hno2 : no_order2_2 p bt. Proof. exact (proj2 (proj2 (proj2 (proj2 (proj2 (proj2 (proj2 HG))))))). Qed.
Let Hp3 : 3 < p. Proof. exact (p_gt3 r Hf). Qed.
Let HFE : 16383 <= FE. Proof. exact (proj1 (proj2 HT)). Qed.
Notation obj := (e2_point r bt).
Notation AK := (ak2 p). Notation SP := (sp2 p).
Notation gsum := (sum2 p).
Lemma i_D e P A : obj e P A -> on_e2 p bt A /\ D r bt e P (AK A). Proof. apply (point_D r Hf Hp H34 bt). Qed.
Lemma i_obj e P A : D r bt e P A -> obj e P (SP A). Proof. apply (D_point r Hf Hp H34 bt). Qed.
Lemma i_obj' e P A : on_e2 p bt A -> D r bt e P (AK A) -> obj e P A. Proof. intros O H. apply (point_D r Hf Hp H34 bt). auto. Qed.
Lemma obj_mono e e' P A : e <= e' -> obj e P A -> obj e' P A.
Proof. intros He H. destruct (i_D _ _ _ H) as [O H1]. apply i_obj'; [exact O|]. exact (D_mono r Hf bt e e' P _ He H1). Qed.
Lemma i_sum A B : on_e2 p bt A -> on_e2 p bt B -> e2_sum p A B (SP (gsum (AK A) (AK B))).
Proof. intros O1 O2. apply (spec_iff p Hp Hp3 H34 bt); auto. Qed.
Theorem i_add P Q A B : obj 16200 P A -> obj 16200 Q B -> exists R C, ecp2_add r tw bi P Q = Some R /\ e2_sum p A B C /\ obj 30 R C.
Proof.
  intros HA HB. destruct (i_D _ _ _ HA) as [OA DA]. destruct (i_D _ _ _ HB) as [OB DB].
  destruct (g_add r Hf Hs HT Hp H34 tw bt bi Hbi Hbc Hbt Hno2 P Q _ _ DA DB) as [R [R1 R2]]. exists R, (SP (gsum (AK A) (AK B))). split; [exact R1|]. split; [apply i_sum; assumption|apply i_obj; exact R2].
Qed.
Theorem i_dbl P A : obj 16200 P A -> exists R C, ecp2_dbl r tw bi P = Some R /\ e2_sum p A A C /\ obj 30 R C.
Proof.
  intros HA. destruct (i_D _ _ _ HA) as [OA DA].
  destruct (g_dbl r Hf Hs HT Hp H34 tw bt bi Hbi Hbc Hbt Hno2 P _ DA) as [R [R1 R2]]. exists R, (SP (gsum (AK A) (AK A))). split; [exact R1|]. split; [apply i_sum; assumption|apply i_obj; exact R2].
Qed.
Theorem i_neg e P A : 9 * e <= FE -> obj e P A -> exists R, ecp2_neg r P = Some R /\ obj (9 * e) R (e2_neg p A).
Proof.
  intros He HA. destruct (i_D _ _ _ HA) as [OA DA]. destruct (g_neg r Hf Hp H34 bt Hno2 e P _ He DA) as [R [R1 R2]]. exists R. split; [exact R1|].
  apply i_obj'; [apply (spec_neg_on p Hp Hp3 H34 bt Hno2); exact OA|]. rewrite (ak_neg p Hp bt A OA). exact R2.
Qed.
Theorem i_sub P Q A B : obj 16200 P A -> obj 1800 Q B -> exists R C, ecp2_sub r tw bi P Q = Some R /\ e2_sum p A (e2_neg p B) C /\ obj 30 R C.
Proof.
  intros HA HB. unfold ecp2_sub. destruct (i_neg 1800 Q B ltac:(lia) HB) as [N [N1 N2]]. rewrite N1. cbn [bind]. apply i_add; assumption.
Qed.
Theorem i_equals e P Q A B : e <= 524288 -> obj e P A -> obj e Q B -> exists b, ecp2_equals r P Q = Some b /\ (b = true <-> A = B).
Proof.
  intros He HA HB. destruct (i_D _ _ _ HA) as [OA DA]. destruct (i_D _ _ _ HB) as [OB DB]. destruct (g_equals r Hf Hs HT Hp H34 bt e P Q _ _ He DA DB) as [b [B1 B2]]. exists b. split; [exact B1|]. rewrite B2.
  split; [intros E; rewrite <- (sp_ak p bt A OA), <- (sp_ak p bt B OB), E; reflexivity|intros ->; reflexivity].
Qed.
Theorem i_is_inf e P A : obj e P A -> ecp2_is_infinity r P = Some (match A with Inf2 => true | _ => false end).
Proof.
  intros HA. destruct (i_D _ _ _ HA) as [OA DA]. destruct (g_inf r Hf bt e P _ DA) as [b [B1 B2]]. rewrite B1. f_equal. destruct A as [|x y]; cbn [ak2] in B2.
  - apply B2. reflexivity.
  - destruct b; [|reflexivity]. discriminate (proj1 B2 eq_refl).
Qed.
(** affine form: z is one *)
Definition aff_obj (P : ecp2) (A : point2) : Prop := match A with Inf2 => True | Aff2 x y => el2 r 16200 (x2 P) x /\ el2 r 16200 (y2 P) y /\ el2 r 16200 (z2 P) one2 end.
Lemma nrm_aff P A : on_e2 p bt A -> nrm r P (AK A) -> aff_obj P A.
Proof.
  destruct A as [|x y]; [trivial|]. intros _ [u [v [H1 [H2 [H3 [E1 E2]]]]]]. apply (mk2_eq p) in E1. apply (mk2_eq p) in E2.
  split; [|split]; apply (el2r r Hf); [eapply rep2_cong; [exact E1|exact H1]|eapply rep2_cong; [exact E2|exact H2]|exact H3].
Qed.
Theorem i_affine e P A : 2 <= e <= 16200 -> obj e P A -> exists R, ecp2_affine r P = Some R /\ obj e R A /\ aff_obj R A.
Proof.
  intros He HA. destruct (i_D _ _ _ HA) as [OA DA]. destruct (g_affine r Hf Hs HT Hp H34 bt e P _ He DA) as [R [R1 [R2 R3]]]. exists R. split; [exact R1|]. split; [apply i_obj'; assumption|apply nrm_aff; assumption].
Qed.
Lemma i_pops : pops2 r tw bi (PT p) (pinf p) (sum2 p) (opp2 p) (on2 p bt) (D r bt 1800) (D r bt 16200) (nrm r).
Proof.
  split.
  - intros P A. apply D_on.
  - intros P A. apply (D_mono r Hf bt). lia.
  - intros P Q A C H1 H2. destruct (g_add r Hf Hs HT Hp H34 tw bt bi Hbi Hbc Hbt Hno2 P Q _ _ H1 H2) as [R [R1 R2]]. exists R. split; [exact R1|]. eapply (D_mono r Hf bt); [|exact R2]. lia.
  - intros P A H1. destruct (g_dbl r Hf Hs HT Hp H34 tw bt bi Hbi Hbc Hbt Hno2 P _ H1) as [R [R1 R2]]. exists R. split; [exact R1|]. eapply (D_mono r Hf bt); [|exact R2]. lia.
  - intros P A H1. apply (g_neg r Hf Hp H34 bt Hno2 1800 P A ltac:(lia) H1).
  - intros P Q A C d H1 H2. apply (g_cmove r Hf bt 16200 16200 P Q A C d H1 H2).
  - intros P A. apply (g_inf r Hf bt 1800 P A).
  - destruct (g_new r Hf Hp bt) as [R [R1 R2]]. exists R. split; [exact R1|]. split; [eapply (D_mono r Hf bt); [|exact R2]; lia|exact I].
  - intros P A. apply (g_affine r Hf Hs HT Hp H34 bt 1800 P A). lia.
Qed.
Lemma i_times A n : on_e2 p bt A -> e2_times p A n (SP (ntimes (PT p) (pinf p) (sum2 p) n (AK A))).
Proof. intros O. apply (times_iff p Hp Hp3 H34 bt Hno2); [exact O|reflexivity]. Qed.
Theorem i_mul P A e : obj 1800 P A -> big_wf (r_cfg r) e -> bval (r_cfg r) e + 2 < 2 ^ (NBITS r - 4) ->
  exists R B, ecp2_mul r tw bi P e = Some R /\ e2_times p A (Z.to_nat (bval (r_cfg r) e)) B /\ obj 1800 R B /\ aff_obj R B.
Proof.
  intros HA He Hm. destruct (i_D _ _ _ HA) as [OA DA]. pose proof (ff_ok r (fp_ok_facts r Hf)) as Hok.
  destruct (mul2_ok r tw bi Hok (PT p) (pinf p) (sum2 p) (opp2 p) (on2 p bt) (group2 p Hp Hp3 H34 bt Hno2) _ _ _ i_pops P (AK A) e DA He Hm) as [R [R1 [R2 R3]]].
  set (T := ztimes _ _ _ _ _ _) in *. exists R, (SP T). split; [exact R1|].
  assert (OT : on_e2 p bt (SP T)) by (apply (on_sp p Hp H34); exact (D_on _ _ _ _ _ R2)).
  pose proof (brange (r_cfg r) Hok e He) as Re.
  split; [|split; [apply i_obj; exact R2|apply nrm_aff; [exact OT|rewrite (ak_sp p Hp); exact R3]]].
  unfold T. rewrite ztimes_nat_g by (unfold bval; lia). apply i_times. exact OA.
Qed.
(** the specification is a commutative group *)
Theorem i_total A B : on_e2 p bt A -> on_e2 p bt B -> exists C, e2_sum p A B C /\ on_e2 p bt C. Proof. exact (spec_total p Hp Hp3 H34 bt Hno2 A B). Qed.
Theorem i_fun A B C C' : on_e2 p bt A -> on_e2 p bt B -> e2_sum p A B C -> e2_sum p A B C' -> C = C'.
Proof. intros O1 O2 S1 S2. apply (spec_iff p Hp Hp3 H34 bt A B C O1 O2) in S1. apply (spec_iff p Hp Hp3 H34 bt A B C' O1 O2) in S2. congruence. Qed.
Theorem i_comm A B C : on_e2 p bt A -> on_e2 p bt B -> e2_sum p A B C -> e2_sum p B A C. Proof. exact (spec_comm p Hp Hp3 H34 bt Hno2 A B C). Qed.
Theorem i_assoc A B C AB BC S : on_e2 p bt A -> on_e2 p bt B -> on_e2 p bt C -> e2_sum p A B AB -> e2_sum p B C BC -> e2_sum p AB C S -> e2_sum p A BC S. Proof. exact (spec_assoc p Hp Hp3 H34 bt Hno2 A B C AB BC S). Qed.
Theorem i_inverse A : on_e2 p bt A -> on_e2 p bt (e2_neg p A) /\ e2_sum p A (e2_neg p A) Inf2.
Proof. intros O. split; [exact (spec_neg_on p Hp Hp3 H34 bt Hno2 A O)|exact (spec_neg p Hp Hp3 H34 bt Hno2 A O)]. Qed.
Theorem i_times_on A n B : on_e2 p bt A -> e2_times p A n B -> on_e2 p bt B. Proof. exact (times_on p Hp Hp3 H34 bt Hno2 A n B). Qed.
Theorem i_times_fun A n B B' : on_e2 p bt A -> e2_times p A n B -> e2_times p A n B' -> B = B'.
Proof. intros O H1 H2. apply (times_iff p Hp Hp3 H34 bt Hno2 A n B O) in H1. apply (times_iff p Hp Hp3 H34 bt Hno2 A n B' O) in H2. congruence. Qed.
Theorem i_times_total A n : on_e2 p bt A -> exists B, e2_times p A n B. Proof. intros O. eexists. apply i_times. exact O. Qed.
Let GR := group2 p Hp Hp3 H34 bt Hno2.
Theorem i_times_mul A n m B C : on_e2 p bt A -> e2_times p A n B -> e2_times p B m C -> e2_times p A (m * n) C.
Proof.
  intros O H1 H2. pose proof (i_times_on _ _ _ O H1) as O1. apply (times_iff p Hp Hp3 H34 bt Hno2 A n B O) in H1. apply (times_iff p Hp Hp3 H34 bt Hno2 B m C O1) in H2. apply (times_iff p Hp Hp3 H34 bt Hno2 A (m * n) C O).
  rewrite H2, H1, (ak_sp p Hp). f_equal. pose proof (on_ak p Hp H34 bt A O) as OA.
  rewrite <- (Nat2Z.id m), <- (Nat2Z.id n). rewrite <- Z2Nat.inj_mul by lia. rewrite <- !(ztimes_nat_g (PT p) (pinf p) (sum2 p) (opp2 p)) by lia. exact (EcpMul.ztimes_mul (PT p) (pinf p) (sum2 p) (opp2 p) (on2 p bt) GR _ _ _ OA).
Qed.
Theorem i_times_add A n m B C S : on_e2 p bt A -> e2_times p A n B -> e2_times p A m C -> e2_sum p B C S -> e2_times p A (n + m) S.
Proof.
  intros O H1 H2 H3. pose proof (i_times_on _ _ _ O H1) as O1. pose proof (i_times_on _ _ _ O H2) as O2. apply (times_iff p Hp Hp3 H34 bt Hno2 A n B O) in H1. apply (times_iff p Hp Hp3 H34 bt Hno2 A m C O) in H2. apply (spec_iff p Hp Hp3 H34 bt B C S O1 O2) in H3. apply (times_iff p Hp Hp3 H34 bt Hno2 A (n + m) S O).
  rewrite H3, H1, H2, !(ak_sp p Hp). f_equal. pose proof (on_ak p Hp H34 bt A O) as OA.
  rewrite <- (Nat2Z.id m), <- (Nat2Z.id n). rewrite <- Z2Nat.inj_add by lia. rewrite <- !(ztimes_nat_g (PT p) (pinf p) (sum2 p) (opp2 p)) by lia. symmetry. exact (EcpMul.ztimes_add (PT p) (pinf p) (sum2 p) (opp2 p) (on2 p bt) GR _ _ _ OA).
Qed.
(** constructor from two coordinates *)
Theorem i_new e x y u v : big_wf (r_cfg r) (r_CURVE_B r) -> 2 <= e <= 16200 -> el2 r e x u -> el2 r e y v ->
  exists P, ecp2_new_fp2s r tw x y = Some P /\
   ((eq2 p (mul2 v v) (add2 (mul2 (mul2 u u) u) bt) /\ obj e P (Aff2 (red2 p u) (red2 p v))) \/ (~ eq2 p (mul2 v v) (add2 (mul2 (mul2 u u) u) bt) /\ obj e P Inf2)).
Proof.
  intros HB He Hx Hy. apply (el2_rep r Hf) in Hx. apply (el2_rep r Hf) in Hy.
  destruct (new_fp2s_ok r Hf Hs HT tw bt HB Hbt e x y u v ltac:(lia) Hx Hy) as [P [P1 P2]]. exists P. split; [exact P1|].
  assert (pn : p <> 0) by lia.
  assert (RE : forall w, eq2 p (red2 p w) w) by (intros [a b]; split; cbn [fst snd red2]; apply Z.mod_mod; lia).
  assert (RR : forall w, res2 p (red2 p w)) by (intros [a b]; split; cbn [fst snd red2]; apply Z.mod_pos_bound; lia).
  destruct P2 as [[E [[A [B C]] _]]|[E [A [B C]]]]; [left|right]; (split; [exact E|]).
  - split.
    + split; [apply RR|]. split; [apply RR|]. eapply eq2_trans; [apply eq2_mul; [exact pn|apply RE|apply RE]|]. eapply eq2_trans; [exact E|]. apply eq2_sym. apply eq2_add; [exact pn| |apply eq2_refl].
      apply eq2_mul; [exact pn|apply eq2_mul; [exact pn|apply RE|apply RE]|apply RE].
    + exists u, v, one2. split; [apply (el2_rep r Hf); exact A|]. split; [apply (el2_rep r Hf); exact B|]. split; [apply (el2_rep r Hf); exact C|]. split; [exact (one_nz r Hf Hp)|]. split.
      * replace (mul2 (red2 p u) one2) with (red2 p u) by ring. apply RE.
      * replace (mul2 (red2 p v) one2) with (red2 p v) by ring. apply RE.
  - apply (obj_mono 2 e); [lia|]. split; [exact I|]. exists zero2, one2, zero2. split; [apply (el2_rep r Hf); exact A|]. split; [apply (el2_rep r Hf); exact B|]. split; [apply (el2_rep r Hf); exact C|]. split; [apply eq2_refl|]. split; [apply eq2_refl|exact (one_nz r Hf Hp)].
Qed.
End I.
(** *** the two curves *)
Lemma no2_norm p (b x : Z2) m : prime p -> 0 <= m -> m mod p <> 0 -> (p - 1) mod 3 = 0 -> powm m ((p - 1) / 3) p <> 1 -> norm2 b = m -> ~ eq2 p (add2 (mul2 (mul2 x x) x) b) zero2.
Proof.
  intros Hp H0 H1 H3 H4 Hb E. pose proof (prime_ge_2 p Hp). assert (pn : p <> 0) by lia.
  assert (Q : eq2 p (mul2 (mul2 x x) x) (neg2 b)).
  { replace (mul2 (mul2 x x) x) with (add2 (add2 (mul2 (mul2 x x) x) b) (neg2 b)) by ring. replace (neg2 b) with (add2 zero2 (neg2 b)) at 2 by ring. apply eq2_add; [exact pn|exact E|apply eq2_refl]. }
  apply (no_cube_root p m (norm2 x) Hp H0 H1 H3 H4). rewrite <- !norm2_mul. replace m with (norm2 (neg2 b)) by (rewrite <- Hb; destruct b; unfold norm2, neg2; cbn [fst snd]; ring).
  destruct Q as [Q1 Q2]. unfold norm2. rewrite Z.add_mod, (Z.mul_mod (fst _)), (Z.mul_mod (snd _)), Q1, Q2 by lia. rewrite <- !Z.mul_mod, <- Z.add_mod by lia. reflexivity.
Qed.
Lemma bls_g2 r : In r bls_roms -> g2_curve r MType (4, 4).
Proof.
  intros HR. split; [exact (bls_fp_ok r HR)|]. split; [exact (g2_tower r HR)|]. split; [exact (bls_prime r HR)|]. split; [rewrite (bls_p r HR); vm_compute; reflexivity|].
  split; [destruct HR as [<-|[<-|[]]]; vm_compute; split; congruence|]. split; [rewrite (bls_p r HR); rewrite (proj2 (bls_AB r HR)); destruct HR as [<-|[<-|[]]]; vm_compute; reflexivity|]. split; [exact (g2_bt r HR)|].
  rewrite (bls_p r HR). intros x. apply (no2_norm bls381_p (4, 4) x 32).
  - rewrite <- (bls_p r HR). exact (bls_prime r HR).
  - lia.
  - vm_compute. discriminate.
  - vm_compute. reflexivity.
  - apply Z.eqb_neq. vm_cast_no_check (eq_refl false).
  - reflexivity.
Qed.
Lemma bn_g2 r : In r bn254_roms -> g2_curve r DType (1, -1).
Proof.
  intros HR. pose proof (bn_w r HR) as W. split; [exact (proj1 (proj1 W))|].
  split. { destruct HR as [<-|[<-|[]]]; (split; [reflexivity|split]); apply Z.leb_le; vm_compute; reflexivity. }
  split; [exact (proj1 (proj2 W))|]. split; [rewrite (bn_p r HR); vm_compute; reflexivity|].
  split; [destruct HR as [<-|[<-|[]]]; vm_compute; split; congruence|]. split; [rewrite (bn_p r HR); rewrite (proj2 (bn_AB r HR)); destruct HR as [<-|[<-|[]]]; vm_compute; reflexivity|].
  split. { rewrite (proj2 (bn_AB r HR)). apply eq2_refl. }
  rewrite (bn_p r HR). intros x. apply (no2_norm bn254_p (1, -1) x 2).
  - exact prime_bn254_p.
  - lia.
  - vm_compute. discriminate.
  - vm_compute. reflexivity.
  - apply Z.eqb_neq. vm_cast_no_check (eq_refl false).
  - reflexivity.
Qed.
