(** ECP::mapit on Weierstrass curves: the first usable abscissa. *)
From Verif Require Import Base.Word Base.Arr Model.Big Model.Roms Model.Fp Model.Ecp Spec.Bytes Spec.BigSpec Spec.RomSpec Spec.FpSpec Spec.CurveSpec Spec.EcpSpec Spec.Sha2Spec Spec.MpinSpec
  Proof.NumTheory Proof.BigVal Proof.BigInv Proof.BigMod Proof.BigMisc Proof.BigBytes Proof.BigMul Proof.FpBase Proof.FpOps Proof.FpExp Proof.FpSqrt Proof.FpIv Proof.FpWide Proof.FieldP Proof.Weier Proof.EcpOps Proof.EcpW Proof.EcpBridge Proof.EcpMul Proof.EcpInst
  Proof.EcpRaw Proof.EcpCodec Proof.EcpCodec2 Proof.EcpCodec3.
From Coq Require Import Lia Znumtheory.
Section MapIt.
Variable r : rom.
Hypothesis Hw : w_ok r.
Hypothesis HW : wide_ok (r_cfg r) 1 1.
Notation c := (r_cfg r).
Notation p := (pmod r).
Hypothesis Hp : prime p.
Hypothesis Hno2 : no_order2 p (cA r) (cB r).
Hypothesis Hs5 : sqrt_ok5 r.
Hypothesis SC : sqrt_canon r.
Hypothesis Hcw : big_wf c (r_COF r).
Hypothesis Hcs : scalar_ok r (bval c (r_COF r)).
Notation ka := (mk p (cA r)).
Notation kb := (mk p (cB r)).
Notation V := (val (BASEBITS c)).
Notation zt := (ztimes (apt p) (AInf p) (asum p ka) (aneg p)).
Notation rd := (rden r).
Let Hf : fp_ok r := proj1 Hw.
Let HMX : MX r = FEXCESS r := proj1 (proj2 Hw).
Let Hfp : fpow_ok r := proj1 (proj2 (proj2 Hw)).
Let Hct : r_CURVETYPE r = Weierstrass := proj1 (proj2 (proj2 (proj2 Hw))).
Let Hp3 : 3 < p := p_gt3 r Hf.
Let Hok : cfg_ok c := ff_ok r (fp_ok_facts r Hf).
Let HG := w_group r Hw Hp Hno2.
Let HP := r_pops r Hw HW Hp Hno2.
Lemma cof_nn : 0 <= cofactor r.
Proof.
  unfold cofactor. destruct ((r_COF_I r =? 1) || (r_COF_I r =? 4) || (r_COF_I r =? 8)) eqn:E; [|pose proof (brange c Hok _ Hcw); unfold bval; lia].
  rewrite !Bool.orb_true_iff, !Z.eqb_eq in E. lia.
Qed.
Lemma cfp_ok P A : rd P A -> exists R, ecp_cfp r P = Some R /\ rd R (zt (cofactor r) A).
Proof.
  intros H. pose proof (po_on _ _ _ _ _ _ _ _ HP _ _ H) as OA. unfold ecp_cfp, cofactor.
  destruct (Z.eqb_spec (r_COF_I r) 1) as [E|E]. { cbn [orb]. exists P. rewrite E, (ztimes_1 _ _ _ _ _ HG) by exact OA. auto. }
  destruct (Z.eqb_spec (r_COF_I r) 4) as [E4|E4].
  { cbn [orb]. destruct (dbln_ok r (apt p) (AInf p) (asum p ka) (aneg p) (aon p ka kb) HG (rden r) (rnrm r) HP 2 P A H) as [R [R1 R2]]. exists R. rewrite E4. split; [exact R1|exact R2]. }
  destruct (Z.eqb_spec (r_COF_I r) 8) as [E8|E8].
  { cbn [orb]. destruct (dbln_ok r (apt p) (AInf p) (asum p ka) (aneg p) (aon p ka kb) HG (rden r) (rnrm r) HP 3 P A H) as [R [R1 R2]]. exists R. rewrite E8. split; [exact R1|exact R2]. }
  cbn [orb]. destruct (mul_ok r Hok (w_nm r Hw) (apt p) (AInf p) (asum p ka) (aneg p) (aon p ka kb) HG (rden r) (rnrm r) HP P A (r_COF r) H Hcw Hcs) as [R [R1 [R2 _]]]. exists R. split; [exact R1|exact R2].
Qed.
(** what new_bigint builds, as a curve point *)
Lemma bigint_w ix s : big_wf c ix -> V ix < p -> s = 0 \/ s = 1 ->
  exists P, ecp_new_bigint r ix s = Some P /\
    ((exists y, on_w p (cA r) (cB r) (Aff (V ix) y) /\ y mod 2 = s /\ rd P (ak p (Aff (V ix) y))) \/
     ((forall y, ~ on_w p (cA r) (cB r) (Aff (V ix) y)) /\ rd P (AInf p))).
Proof.
  intros WX LX Hs. destruct (new_bigint_ok r Hf Hfp Hp Hs5 (w_rhs r) (rhs_w r Hw) (w_nm r Hw) ix s WX LX Hs) as [P [P1 [[w [W1 [W2 [W3 W4]]]]|[W N]]]]; exists P; (split; [exact P1|]).
  - left. exists (w mod p). pose proof (brange c Hok ix WX). pose proof (Z.mod_pos_bound w p ltac:(lia)).
    assert (O : on_w p (cA r) (cB r) (Aff (V ix) (w mod p))). { cbn [on_w]. unfold residue, cong. split; [lia|]. split; [lia|]. rewrite <- Z.mul_mod by lia. exact W1. }
    split; [exact O|]. split; [apply W4; exact SC|]. destruct W3 as [A [B D]]. exists (V ix, w mod p, 1). split.
    + unfold prep1. cbn [fst snd]. split; [exact A|]. split; [|exact D]. eapply frep_cong; [|exact B]. symmetry. apply Z.mod_mod. lia.
    + split; [|apply on_ak; assumption]. cbn [kk kden ak]. split; [intros E; apply mk_0 in E; [rewrite Z.mod_1_l in E by lia; lia|exact Hp]|]. rewrite <- !mk_mul by exact Hp. rewrite !Z.mul_1_r. auto.
  - right. split.
    + intros y [Hx [Hy Hc]]. apply W. unfold residue, cong in *. fold (w_rhs r (V ix)) in Hc. split; [|exists y; exact Hc]. intros E. apply (Hno2 (V ix)). unfold cong. rewrite Z.mod_0_l by lia. exact E.
    + unfold neutral, zi in N. rewrite Hct in N. exists (0, 1, 0). split; [apply prep_1; [exact Hw|exact N]|]. split; [|exact I]. cbn [kk kden ak]. split; [reflexivity|]. split; [reflexivity|]. intros E. apply mk_0 in E; [rewrite Z.mod_1_l in E by lia; lia|exact Hp].
Qed.
Lemma root_even x y y' : on_w p (cA r) (cB r) (Aff x y) -> on_w p (cA r) (cB r) (Aff x y') -> y mod 2 = y' mod 2 -> y = y'.
Proof.
  intros [Hx [Hy Hc]] [_ [Hy' Hc']] E. unfold residue, cong in *. assert (y' <> 0). { intros ->. apply (Hno2 x). unfold cong. rewrite <- Hc'. reflexivity. }
  assert (Q : y mod p = y' mod p). { apply (root_unique r Hf Hp y y'); [rewrite Hc, Hc'; reflexivity|lia|rewrite (Z.mod_small y) by lia; exact E]. }
  rewrite !Z.mod_small in Q by lia. exact Q.
Qed.
Lemma cand_iff x y Q : on_w p (cA r) (cB r) (Aff x y) -> y mod 2 = 0 -> (candidate r x Q <-> Q = sp p (zt (cofactor r) (ak p (Aff x y)))).
Proof.
  intros O E. unfold candidate. pose proof cof_nn as Hn. split.
  - intros [y' [O' [E' T]]]. rewrite (root_even x y y' O O') by lia. apply (w_times_iff r Hw Hp Hno2) in T; [|exact O']. rewrite (ztimes_nat r) by exact Hn. exact T.
  - intros ->. exists y. split; [exact O|]. split; [exact E|]. apply (w_times_iff r Hw Hp Hno2); [exact O|]. rewrite (ztimes_nat r) by exact Hn. reflexivity.
Qed.
(** one round of the trial loop *)
Lemma loop_step f x : big_wf c x -> V x < p ->
  (exists P Q, mapit_loop r (S f) x = Some P /\ candidate r (V x) Q /\ Q <> Inf /\ on_w p (cA r) (cB r) Q /\ rd P (ak p Q)) \/
  ((forall Q, candidate r (V x) Q -> Q = Inf) /\ exists x', mapit_loop r (S f) x = mapit_loop r f x' /\ big_wf c x' /\ V x' = V x + 1).
Proof.
  intros Wx Lx. cbn [mapit_loop]. rewrite (w_nm r Hw). destruct (bigint_w x 0 Wx Lx ltac:(auto)) as [P [P1 P2]]. rewrite P1. cbn [bind].
  pose proof (brange c Hok _ (ff_wf r (fp_ok_facts r Hf))) as Rp. assert (Rx : V x + 1 < bmax c) by (fold (bmax c) in Rp; change (V (r_MODULUS r)) with p in Rp; lia).
  destruct (inc1_wf r Hok x Wx Rx) as [x' [E1 [E2 E3]]]. destruct (inc c x 1) as [t|] eqn:Ei; [|discriminate E1]. cbn [bind] in E1 |- *. rewrite E1. cbn [bind].
  destruct P2 as [[y [O [Ey D]]]|[N D]].
  - destruct (r_is_inf r Hw Hp P _ D) as [b [B1 B2]]. rewrite B1. cbn [bind]. assert (b = false). { destruct b; [|reflexivity]. pose proof (proj1 B2 eq_refl) as Z. discriminate Z. } subst b.
    destruct (cfp_ok P _ D) as [R [R1 R2]]. rewrite R1. cbn [bind]. destruct (r_is_inf r Hw Hp R _ R2) as [b [C1 C2]]. rewrite C1. cbn [bind]. destruct b.
    + right. split; [|exists x'; auto]. intros Q HQ. apply (cand_iff _ _ _ O Ey) in HQ. rewrite HQ, (proj1 C2 eq_refl). reflexivity.
    + left. exists R, (sp p (zt (cofactor r) (ak p (Aff (V x) y)))). split; [reflexivity|]. split; [apply (cand_iff _ _ _ O Ey); reflexivity|].
      assert (OR : aon p ka kb (zt (cofactor r) (ak p (Aff (V x) y)))) by exact (po_on _ _ _ _ _ _ _ _ HP _ _ R2).
      split. { intros E. destruct (zt (cofactor r) (ak p (Aff (V x) y))); [|discriminate E]. assert (false = true) by (apply C2; reflexivity). discriminate. }
      split; [apply on_sp; [exact Hp|exact OR]|]. rewrite ak_sp by exact Hp. exact R2.
  - destruct (r_is_inf r Hw Hp P _ D) as [b [B1 B2]]. rewrite B1. cbn [bind]. rewrite (proj2 B2 eq_refl). right. split; [|exists x'; auto]. intros Q [y [O _]]. exfalso. exact (N y O).
Qed.
Lemma loop_ok n : forall f x Q, (n < f)%nat -> big_wf c x -> first_point r (V x) n Q -> exists P, mapit_loop r f x = Some P /\ on_w p (cA r) (cB r) Q /\ rd P (ak p Q).
Proof.
  induction n as [|n IH]; intros [|f] x Q Hn Wx [L [HC [NI Hb]]]; try lia.
  - rewrite Z.add_0_r in *. destruct (loop_step f x Wx L) as [[P [Q' [E1 [E2 [E3 [E4 E5]]]]]]|[A _]]; [|exfalso; apply NI; apply A; exact HC].
    exists P. split; [exact E1|]. assert (Q = Q'); [|subst; auto]. destruct HC as [y [O [Ey T]]]. assert (HC : candidate r (V x) Q) by (exists y; auto). apply (cand_iff _ _ _ O Ey) in HC. apply (cand_iff _ _ _ O Ey) in E2. congruence.
  - destruct (loop_step f x Wx ltac:(lia)) as [[P [Q' [E1 [E2 [E3 _]]]]]|[_ [x' [E1 [E2 E3]]]]].
    + exfalso. apply E3. apply (Hb 0%nat); [lia|]. rewrite Z.add_0_r. exact E2.
    + rewrite E1. apply IH; [lia|exact E2|]. rewrite E3. unfold first_point. replace (V x + 1 + Z.of_nat n) with (V x + Z.of_nat (S n)) by lia. split; [exact L|]. split; [exact HC|]. split; [exact NI|].
      intros m Hm Q' HQ. apply (Hb (S m)); [lia|]. replace (V x + Z.of_nat (S m)) with (V x + 1 + Z.of_nat m) by lia. exact HQ.
Qed.
Lemma loop_conv f : forall x P, big_wf c x -> V x + Z.of_nat f <= p -> mapit_loop r f x = Some P -> exists n Q, (n < f)%nat /\ first_point r (V x) n Q /\ rd P (ak p Q).
Proof.
  induction f as [|f IH]; intros x P Wx L E; [discriminate E|]. destruct (loop_step f x Wx ltac:(lia)) as [[P' [Q' [E1 [E2 [E3 [E4 E5]]]]]]|[A [x' [E1 [E2 E3]]]]].
  - rewrite E1 in E. injection E as <-. exists 0%nat, Q'. split; [lia|]. split; [|exact E5]. unfold first_point. rewrite Z.add_0_r. split; [lia|]. split; [exact E2|]. split; [exact E3|]. intros; lia.
  - rewrite E1 in E. destruct (IH x' P E2 ltac:(lia) E) as [n [Q [Hn [[L1 [F1 [F2 F3]]] D]]]]. exists (S n), Q. split; [lia|]. split; [|exact D]. unfold first_point. rewrite E3 in *.
    replace (V x + Z.of_nat (S n)) with (V x + 1 + Z.of_nat n) by lia. split; [lia|]. split; [exact F1|]. split; [exact F2|]. intros [|m] Hm Q' HQ.
    + apply A. rewrite Z.add_0_r in HQ. exact HQ.
    + apply (F3 m); [lia|]. replace (V x + 1 + Z.of_nat m) with (V x + Z.of_nat (S m)) by lia. exact HQ.
Qed.
Lemma start_ok h : bytes h -> (mbytes r <= length h)%nat -> exists x0 x, frombytes c h = Some x0 /\ rmod c x0 (r_MODULUS r) = Some x /\ big_wf c x /\ V x = os2ip (firstn (mbytes r) h) mod p.
Proof.
  intros Hb Hl. destruct (frombytearray_spec c Hok h 0 Hb) as [x0 [E1 [E2 E3]]]; [lia|]. exists x0. unfold frombytes. cbn [skipn] in E3. rewrite Nat.min_l in E3 by exact Hl.
  destruct (rmod_spec c Hok x0 (r_MODULUS r) E2 (ff_wf r (fp_ok_facts r Hf))) as [x [F1 [F2 F3]]]. { change (0 < p). lia. }
  exists x. split; [exact E1|]. split; [exact F1|]. split; [exact F2|]. rewrite F3, E3. reflexivity.
Qed.
Theorem mapit_ok fuel h n Q : bytes h -> (mbytes r <= length h)%nat -> maps_to r h n Q -> (n < fuel)%nat -> exists P, ecp_mapit r fuel h = Some P /\ on_w p (cA r) (cB r) Q /\ rd P (ak p Q).
Proof.
  intros Hb Hl HM Hn. destruct (start_ok h Hb Hl) as [x0 [x [E1 [E2 [E3 E4]]]]]. unfold ecp_mapit. rewrite E1. cbn [bind]. rewrite E2. cbn [bind]. apply (loop_ok n); [exact Hn|exact E3|]. rewrite E4. exact HM.
Qed.
Theorem mapit_conv fuel h P : bytes h -> (mbytes r <= length h)%nat -> os2ip (firstn (mbytes r) h) mod p + Z.of_nat fuel <= p -> ecp_mapit r fuel h = Some P -> exists n Q, (n < fuel)%nat /\ maps_to r h n Q /\ rd P (ak p Q).
Proof.
  intros Hb Hl HL. destruct (start_ok h Hb Hl) as [x0 [x [E1 [E2 [E3 E4]]]]]. unfold ecp_mapit. rewrite E1. cbn [bind]. rewrite E2. cbn [bind]. intros E. rewrite <- E4 in HL.
  destruct (loop_conv fuel x P E3 HL E) as [n [Q [Hn [F D]]]]. exists n, Q. split; [exact Hn|]. split; [|exact D]. unfold maps_to. rewrite <- E4. exact F.
Qed.
(** rden as the specification's raw points *)
Lemma rden_raw P A : on_w p (cA r) (cB r) A -> rd P (ak p A) -> w_point_raw r 2 P A.
Proof.
  intros O [v [[PX [PY PZ]] [D _]]]. destruct v as [[X Y] Z]. cbn [fst snd] in *. split; [exact O|]. exists X, Y, Z.
  split; [apply (frep_rep r Hf 0 1 (FEXCESS r)); [lia|lia|exact PX]|]. split; [apply (frep_rep r Hf 1 1 (FEXCESS r)); [lia|lia|exact PY]|]. split; [apply (frep_rep r Hf 0 1 (FEXCESS r)); [lia|lia|exact PZ]|].
  destruct A as [|x y]; cbn [ak kk kden] in D; destruct D as [D1 [D2 D3]]; unfold cong.
  - split; [apply mk_eq; exact D1|]. split; [apply mk_eq; exact D2|]. intros E. apply D3. apply mk_eq. exact E.
  - split; [intros E; apply D1; apply mk_eq; exact E|]. split; apply mk_eq; rewrite mk_mul by exact Hp; symmetry; assumption.
Qed.
End MapIt.
