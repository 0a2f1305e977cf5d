(** Point objects whose y coordinate is the un-normalised output of FP::neg, as built by new_bigint (compressed decoding, mapit). *)
From Verif Require Import Base.Word Model.Big Model.Roms Model.Fp Model.Ecp Spec.BigSpec Spec.RomSpec Spec.FpSpec Spec.CurveSpec Spec.EcpSpec
  Proof.NumTheory Proof.BigVal Proof.BigInv Proof.FpBase Proof.FpOps Proof.FpExp Proof.FpIv Proof.FpWide Proof.FieldP Proof.Weier Proof.EcpOps Proof.EcpW Proof.EcpBridge Proof.EcpMul Proof.EcpInst.
From Coq Require Import Lia Znumtheory.
Ltac rgom r a b := lazymatch goal with Hf : fp_ok r, HM : MX r = FEXCESS r, HW : wide_ok _ 1 1 |- _ => lazymatch goal with HA : frep r ?lo ?hi ?e a ?u |- _ => lazymatch goal with HB : frep r ?lo2 ?hi2 ?e2 b ?v |- _ =>
  let f := fresh "f" in let E := fresh "E" in let Q := fresh "Q" in
  destruct (imulw r Hf 1 1 lo hi e lo2 hi2 e2 a b u v HM HW) as [f [E Q]]; [eside r ..|]; rewrite E; cbn [bind]; clear E end end end.
Ltac rgos r a := lazymatch goal with Hf : fp_ok r, HM : MX r = FEXCESS r, HW : wide_ok _ 1 1 |- _ => lazymatch goal with HA : frep r ?lo ?hi ?e a ?u |- _ =>
  let f := fresh "f" in let E := fresh "E" in let Q := fresh "Q" in
  destruct (isqrw r Hf 1 lo hi e a u HM HW) as [f [E Q]]; [eside r ..|]; rewrite E; cbn [bind]; clear E end end.
Ltac ebstep := lazymatch goal with H : forall e a u, frep _ 0 1 e a u -> Logic.ex (fun g => mulb _ ?b a = Some g /\ _) |- Logic.ex (fun z => bind (mulb ?r ?b ?a) _ = Some z /\ _) =>
  lazymatch goal with HA : frep r 0 1 ?e a ?u |- _ => let f := fresh "f" in let E := fresh "E" in let Q := fresh "Q" in
  destruct (H e a u HA) as [f [E Q]]; rewrite E; cbn [bind]; clear E end end.
Ltac rstep := lazymatch goal with
  | |- Logic.ex (fun z => bind (fp_mul ?r ?a ?b) _ = Some z /\ _) => rgom r a b
  | |- Logic.ex (fun z => bind (fp_sqr ?r ?a) _ = Some z /\ _) => rgos r a
  | _ => first [estep | ebstep]
  end.
Section Raw.
Variable r : rom.
Hypothesis Hw : w_ok r.
Hypothesis HW : wide_ok (r_cfg r) 1 1.
Notation p := (pmod r).
Notation FX := (FEXCESS r).
Notation CBI := (r_CURVE_B_I r).
Hypothesis Hp : prime p.
Notation ka := (mk p (cA r)).
Notation kb := (mk p (cB r)).
Hypothesis Hno2 : no_order2 p (cA r) (cB r).
Let Hf : fp_ok r. Proof. exact (proj1 Hw). Qed.
Let HMX : MX r = FX. Proof. exact (proj1 (proj2 Hw)). Qed.
Let Hfp : fpow_ok r. Proof. exact (proj1 (proj2 (proj2 Hw))). Qed.
Let Hct : r_CURVETYPE r = Weierstrass. Proof. exact (proj1 (proj2 (proj2 (proj2 Hw)))). Qed.
Let Hmg : 4 <= maxg r := maxg_ge r Hf.
Let HC4 : 4 <= CHUNK (r_cfg r). Proof. pose proof (cf_C _ (cfg_ok_facts _ (ff_ok r (fp_ok_facts r Hf)))). pose proof (cf_B _ (cfg_ok_facts _ (ff_ok r (fp_ok_facts r Hf)))). lia. Qed.
Let Hp3 : 3 < p := p_gt3 r Hf.
Add Ring Kring3 : (F_ring p Hp).
Definition prep1 (P : ecp) (v : zpt) : Prop := frep r 0 1 FX (ex P) (fst (fst v)) /\ frep r 1 1 FX (ey P) (snd (fst v)) /\ frep r 0 1 FX (ez P) (snd v).
Lemma prep_1 P v : prep r P v -> prep1 P v.
Proof. intros [A [B C]]. split; [exact A|]. split; [|exact C]. apply (frep_mono r Hf 0 1 FX); [lia|lia|lia|exact B]. Qed.
Lemma add_w0_raw P Q u v : mult_ok r 18 (3 * CBI) -> prep1 P u -> prep1 Q v -> exists z, ecp_add_w0 r P Q = Some z /\ prep r z (rcb 0 CBI u v).
Proof.
  intros HM [PX [PY PZ]] [QX [QY QZ]]. unfold ecp_add_w0. destruct u as [[X1 Y1] Z1], v as [[X2 Y2] Z2]. cbn [fst snd] in *. cbv zeta.
  assert (HM2 : mult_ok r 2 (3 * CBI)).
  { destruct HM as [A [D|[D1 D2]]]; (split; [exact A|]); [left; exact D|right]. split; [exact D1|lia]. }
  clear Hw Hfp Hct HC4 Hp3. repeat rstep. eexists. split; [reflexivity|]. unfold prep, rcb. cbn [ex ey ez fst snd]. cbv zeta. split; [efin|split; efin].
Qed.
Lemma dbl_w0_raw P u : mult_ok r 18 (3 * CBI) -> prep1 P u -> exists R, ecp_dbl_w0 r P = Some R /\ prep r R (dbl0 CBI u).
Proof.
  intros HM [PX [PY PZ]]. unfold ecp_dbl_w0. destruct u as [[X1 Y1] Z1]. cbn [fst snd] in *. cbv zeta.
  assert (HM2 : mult_ok r 2 (3 * CBI)).
  { destruct HM as [A [D|[D1 D2]]]; (split; [exact A|]); [left; exact D|right]. split; [exact D1|lia]. }
  clear Hw Hfp Hct HC4 Hp3. repeat rstep. eexists. split; [reflexivity|]. unfold prep, dbl0. cbn [ex ey ez fst snd]. cbv zeta. split; [efin|split; efin].
Qed.
Lemma add_w3_raw P Q u v b : 8 <= maxg r -> bval3 r b -> prep1 P u -> prep1 Q v -> exists R, ecp_add_w3 r P Q = Some R /\ prep r R (rcb (-3) b u v).
Proof.
  intros H8 Hb [PX [PY PZ]] [QX [QY QZ]]. unfold ecp_add_w3. destruct u as [[X1 Y1] Z1], v as [[X2 Y2] Z2]. cbn [fst snd] in *.
  destruct (getb_ok r Hf HMX b Hb) as [fb [B1 B2]]. rewrite B1. cbn [bind]. clear B1.
  clear Hw Hfp Hct HC4 Hp3. repeat rstep. eexists. split; [reflexivity|]. unfold prep, rcb. cbn [ex ey ez fst snd]. cbv zeta. split; [efin|split; efin].
Qed.
Lemma dbl_w3_raw P u b : 8 <= maxg r -> bval3 r b -> prep1 P u -> exists R, ecp_dbl_w3 r P = Some R /\ prep r R (dbl3 (-3) b u).
Proof.
  intros H8 Hb [PX [PY PZ]]. unfold ecp_dbl_w3. destruct u as [[X1 Y1] Z1]. cbn [fst snd] in *.
  destruct (getb_ok r Hf HMX b Hb) as [fb [B1 B2]]. rewrite B1. cbn [bind]. clear B1.
  clear Hw Hfp Hct HC4 Hp3. repeat rstep. eexists. split; [reflexivity|]. unfold prep, dbl3, rcb. cbn [ex ey ez fst snd]. cbv zeta. split; [efin|split; efin].
Qed.
Definition rden (P : ecp) (A : apt p) : Prop := exists v, prep1 P v /\ kden p (kk p v) A /\ aon p ka kb A.
Notation Asum := (asum p ka).
Lemma wden_r P A : wden r P A -> rden P A.
Proof. intros [v [H1 H2]]. exists v. split; [apply prep_1; exact H1|exact H2]. Qed.
Let kno := kno2 r Hw Hp Hno2.
Lemma prep1_len P v : prep1 P v -> length (fx (ex P)) = NLEN (r_cfg r) /\ length (fx (ey P)) = NLEN (r_cfg r) /\ length (fx (ez P)) = NLEN (r_cfg r).
Proof. intros [[[H1 _] _] [[[H2 _] _] [[H3 _] _]]]. auto. Qed.
Theorem r_add P Q A C : rden P A -> rden Q C -> exists R, ecp_add r P Q = Some R /\ wden r R (Asum A C).
Proof.
  intros [u [PU [DU OA]]] [v [PV [DV OC]]]. unfold ecp_add. rewrite Hct.
  assert (G : exists R b', (if r_CURVE_A r =? 0 then ecp_add_w0 r P Q else ecp_add_w3 r P Q) = Some R /\ mk p b' = kb /\ prep r R (rcb (cA r) b' u v)).
  { pose proof Hw as [_ [_ [_ [_ [WB [LB [[EA [HM HB]]|[EA [H8 HB]]]]]]]]]; unfold cA; rewrite EA.
    - change (0 =? 0) with true. cbv iota. destruct (add_w0_raw P Q u v HM PU PV) as [R [E1 E2]]. exists R, (r_CURVE_B_I r). split; [exact E1|]. split; [apply mk_eq; exact HB|exact E2].
    - change (-3 =? 0) with false. cbv iota. destruct HB as [HB|[HM HB]].
      + destruct (add_w3_raw P Q u v (cB r) H8) as [R [E1 E2]]; [unfold bval3; rewrite HB; change (0 =? 0) with true; cbv iota; auto|exact PU|exact PV|]. exists R, (cB r). auto.
      + destruct (Z.eq_dec (r_CURVE_B_I r) 0) as [Z0|Z0].
        * destruct (add_w3_raw P Q u v (cB r) H8) as [R [E1 E2]]; [unfold bval3; rewrite Z0; change (0 =? 0) with true; cbv iota; auto|exact PU|exact PV|]. exists R, (cB r). auto.
        * destruct (add_w3_raw P Q u v (r_CURVE_B_I r) H8) as [R [E1 E2]]; [unfold bval3; rewrite (proj2 (Z.eqb_neq _ _) Z0); auto|exact PU|exact PV|]. exists R, (r_CURVE_B_I r). split; [exact E1|]. split; [apply mk_eq; exact HB|exact E2]. }
  destruct G as [R [b' [E1 [E2 E3]]]]. exists R. split; [exact E1|]. exists (rcb (cA r) b' u v). split; [exact E3|]. rewrite kk_rcb, E2 by exact Hp.
  split; [apply krcb_ok; auto using kno|apply asum_on; auto using kno].
Qed.
Theorem r_dbl P A : rden P A -> exists R, ecp_dbl r P = Some R /\ wden r R (Asum A A).
Proof.
  intros [u [PU [DU OA]]]. unfold ecp_dbl. rewrite Hct.
  assert (G : exists R w, (if r_CURVE_A r =? 0 then ecp_dbl_w0 r P else ecp_dbl_w3 r P) = Some R /\ prep r R w /\ kk p w = krcb p ka kb (kk p u) (kk p u)).
  { pose proof Hw as [_ [_ [_ [_ [WB [LB [[EA [HM HB]]|[EA [H8 HB]]]]]]]]]; unfold cA in *; rewrite EA in *.
    - change (0 =? 0) with true. cbv iota. destruct (dbl_w0_raw P u HM PU) as [R [E1 E2]]. exists R, (dbl0 (r_CURVE_B_I r) u). split; [exact E1|]. split; [exact E2|].
      apply mk_eq in HB. rewrite <- HB. apply (kk_dbl0 p Hp 0 (r_CURVE_B_I r) u A); [reflexivity|rewrite HB; exact OA|exact DU].
    - change (-3 =? 0) with false. cbv iota.
      assert (G : exists b', bval3 r b' /\ mk p b' = kb).
      { unfold bval3. destruct (Z.eqb_spec (r_CURVE_B_I r) 0) as [Z0|Z0]; [exists (cB r); auto|]. destruct HB as [HB|[HM HB]]; [contradiction|]. exists (r_CURVE_B_I r). split; [auto|apply mk_eq; exact HB]. }
      destruct G as [b' [G1 G2]]. destruct (dbl_w3_raw P u b' H8 G1 PU) as [R [E1 E2]]. exists R, (dbl3 (-3) b' u). split; [exact E1|]. split; [exact E2|].
      rewrite <- G2. apply (kk_dbl3 p Hp (-3) b' u A); [rewrite G2; exact OA|exact DU]. }
  destruct G as [R [w [E1 [E2 E3]]]]. exists R. split; [exact E1|]. exists w. split; [exact E2|]. rewrite E3.
  split; [apply krcb_ok; auto using kno|apply asum_on; auto using kno].
Qed.
Theorem r_negate P A : rden P A -> exists R, ecp_neg r P = Some R /\ wden r R (aneg p A).
Proof.
  intros [u [[PX [PY PZ]] [DU OA]]]. unfold ecp_neg. rewrite Hct. destruct u as [[X1 Y1] Z1]. cbn [fst snd] in *.
  repeat estep. eexists. split; [reflexivity|]. exists (X1, - Y1, Z1). split; [|split].
  - unfold prep. cbn [ex ey ez fst snd]. split; [exact PX|]. split; [|exact PZ]. eapply frep_fx; eassumption.
  - cbn [kk] in *. rewrite mk_opp by exact Hp. destruct A as [|x y]; cbn [kden aneg] in *.
    + destruct DU as [D1 [D2 D3]]. split; [exact D1|]. split; [exact D2|]. intros E. apply D3. transitivity (- - mk p Y1)%F; [ring|rewrite E; ring].
    + destruct DU as [D1 [D2 D3]]. split; [exact D1|]. split; [exact D2|]. rewrite D3. ring.
  - apply aneg_on; auto.
Qed.
Theorem r_cmove P Q A C d : rden P A -> rden Q C -> d = 0 \/ d = 1 -> ecp_cmove r P Q d = Some (if d =? 1 then Q else P).
Proof.
  intros [u [PU _]] [v [PV _]] Hd. destruct (prep1_len _ _ PU) as [L1 [L2 L3]], (prep1_len _ _ PV) as [M1 [M2 M3]]. unfold ecp_cmove, is_mont. rewrite Hct.
  rewrite !fp_cmove_exact by (try exact HC4; try exact Hd; congruence). cbn [bind]. destruct Hd as [-> | ->]; cbn [Z.eqb Pos.eqb]; [destruct P|destruct Q]; reflexivity.
Qed.
Theorem r_cswap P Q A C d : rden P A -> rden Q C -> d = 0 \/ d = 1 -> ecp_cswap r P Q d = Some (if d =? 1 then (Q, P) else (P, Q)).
Proof.
  intros [u [PU _]] [v [PV _]] Hd. destruct (prep1_len _ _ PU) as [L1 [L2 L3]], (prep1_len _ _ PV) as [M1 [M2 M3]]. unfold ecp_cswap, is_mont. rewrite Hct.
  rewrite !fp_cswap_exact by (try exact HC4; try exact Hd; congruence). cbn [bind]. destruct Hd as [-> | ->]; cbn [Z.eqb Pos.eqb fst snd]; destruct P, Q; reflexivity.
Qed.
Theorem r_is_inf P A : rden P A -> exists b, ecp_is_infinity r P = Some b /\ (b = true <-> A = AInf p).
Proof.
  intros [u [[PX [PY PZ]] [DU OA]]]. unfold ecp_is_infinity. rewrite Hct. destruct u as [[X1 Y1] Z1]. cbn [fst snd kk] in *.
  rewrite (iiszilch r Hf 0 1 FX (ex P) X1) by (try lia; exact PX). cbn [bind]. rewrite (iiszilch r Hf 0 1 FX (ez P) Z1) by (try lia; exact PZ).
  destruct A as [|x y]; cbn [kden] in DU.
  - destruct DU as [D1 [D2 _]]. apply mk_0 in D1; [|exact Hp]. apply mk_0 in D2; [|exact Hp]. rewrite D1, D2. exists true. split; [reflexivity|tauto].
  - destruct DU as [D1 _]. assert (N : (Z1 mod p =? 0) = false). { apply Z.eqb_neq. intros E. apply D1. apply mk_0; assumption. } rewrite N. exists false. split; [destruct (X1 mod p =? 0); reflexivity|]. split; [discriminate|intros E; discriminate].
Qed.
Theorem r_affine P A : rden P A -> exists R, ecp_affine r P = Some R /\ rden R A /\
  match A with AInf _ => R = P | AAff _ x y => exists v, prep1 R v /\ kk p v = (x, y, f1 p) end.
Proof.
  intros HP. pose proof HP as [u [[PX [PY PZ]] [DU OA]]]. unfold ecp_affine. destruct (r_is_inf P A HP) as [b [Eb Hb]]. rewrite Eb. cbn [bind].
  destruct b. { exists P. split; [reflexivity|]. split; [exact HP|]. rewrite (proj1 Hb eq_refl). reflexivity. }
  destruct A as [|x y]; [assert (false = true) by (apply Hb; reflexivity); discriminate|]. destruct u as [[X1 Y1] Z1]. cbn [fst snd kk] in *. destruct DU as [D1 [D2 D3]].
  destruct (inewint r Hf 1) as [one [E1 E2]]. { split; [lia|]. pose proof (cf_B _ (cfg_ok_facts _ (ff_ok r (fp_ok_facts r Hf)))). assert (2 ^ 16 <= 2 ^ BASEBITS (r_cfg r)) by (apply pow2_le; lia). change (2 ^ 16) with 65536 in *. lia. }
  rewrite E1. cbn [bind]. rewrite (iequals r Hf 0 1 FX 0 1 2 (ez P) one Z1 1) by (try lia; assumption). cbn [bind].
  destruct (Z.eqb_spec (Z1 mod p) (1 mod p)) as [Q|Q].
  - exists P. split; [reflexivity|]. split; [exact HP|]. exists (X1, Y1, Z1). split; [unfold prep1; auto|]. cbn [kk]. apply mk_eq in Q. rewrite D2, D3, Q. change (mk p 1) with (f1 p). f_equal; f_equal; ring.
  - destruct (inv_ok r Hw Hp (ez P) Z1 PZ) as [z [Z2 [Z3 Z4]]]. { intros E. apply D1. apply mk_0; assumption. }
    rewrite Z2. cbn [bind]. unfold is_mont. rewrite Hct.
    destruct (imulf r Hf FX FX (ex P) z X1 (Z1 ^ (p - 2)) HMX PX Z3) as [x' [X2 X3]]. rewrite X2. cbn [bind].
    destruct (ireduce r Hf 0 1 2 x' _ ltac:(lia) ltac:(lia) ltac:(lia) ltac:(lia) X3) as [x2 [X4 [X5 _]]]. rewrite X4. cbn [bind].
    destruct (imulw r Hf 1 1 1 1 FX 0 1 FX (ey P) z Y1 (Z1 ^ (p - 2)) HMX HW ltac:(lia) ltac:(lia) ltac:(lia) ltac:(lia) ltac:(lia) ltac:(lia) PY Z3) as [y' [Y2 Y3]]. rewrite Y2. cbn [bind].
    destruct (ireduce r Hf 0 1 2 y' _ ltac:(lia) ltac:(lia) ltac:(lia) ltac:(lia) Y3) as [y2 [Y4 [Y5 _]]]. rewrite Y4. cbn [bind].
    eexists. split; [reflexivity|].
    assert (G : exists v, prep1 {| ex := x2; ey := y2; ez := one |} v /\ kk p v = (x, y, f1 p)).
    { exists (X1 * Z1 ^ (p - 2), Y1 * Z1 ^ (p - 2), 1). split; [unfold prep1; cbn [ex ey ez fst snd]; split; [exact (frep_fx r 0 1 _ _ _ X5)|split; [exact (frep_mono r Hf 0 1 1 1 1 FX _ _ ltac:(lia) ltac:(lia) ltac:(unfold FEXCESS; pose proof (SH_pos r Hf); lia) Y5)|exact (frep_fx r 0 1 _ _ _ E2)]]|]. cbn [kk]. rewrite !mk_mul by exact Hp. rewrite D2, D3.
      f_equal. f_equal; [transitivity (x * (mk p Z1 * mk p (Z1 ^ (p - 2))))%F|transitivity (y * (mk p Z1 * mk p (Z1 ^ (p - 2))))%F]; try ring; rewrite Z4; ring. }
    split; [|exact G]. destruct G as [v [G1 G2]]. exists v. split; [exact G1|]. rewrite G2. split; [|exact OA]. cbn. split; [exact (f1_neq_f0 p Hp)|]. split; ring.
Qed.
Theorem r_sub P Q A C : rden P A -> rden Q C -> exists R, ecp_sub r P Q = Some R /\ wden r R (Asum A (aneg p C)).
Proof.
  intros HP HQ. unfold ecp_sub. destruct (r_negate Q C HQ) as [N [E1 E2]]. rewrite E1. cbn [bind]. apply r_add; [exact HP|apply wden_r; exact E2].
Qed.
Definition rnrm (P : ecp) (A : apt p) : Prop := match A with AInf _ => True | AAff _ x y => exists v, prep1 P v /\ kk p v = (x, y, f1 p) end.
Lemma r_pops : pops r (apt p) (AInf p) (asum p ka) (aneg p) (aon p ka kb) rden rnrm.
Proof.
  split.
  - intros P A [v [_ [_ H]]]. exact H.
  - intros P Q A C HA HB. destruct (r_add P Q A C HA HB) as [R [R1 R2]]. exists R. split; [exact R1|apply wden_r; exact R2].
  - intros P A HA. destruct (r_dbl P A HA) as [R [R1 R2]]. exists R. split; [exact R1|apply wden_r; exact R2].
  - intros P A HA. destruct (r_negate P A HA) as [R [R1 R2]]. exists R. split; [exact R1|apply wden_r; exact R2].
  - intros. eapply r_cmove; eassumption.
  - intros. eapply r_cswap; eassumption.
  - intros. apply r_is_inf; assumption.
  - destruct (w_new r Hw Hp) as [R [R1 R2]]. exists R. split; [exact R1|]. split; [apply wden_r; exact R2|exact I].
  - intros P A H. destruct (r_affine P A H) as [R [R1 [R2 R3]]]. exists R. split; [exact R1|]. split; [exact R2|]. destruct A as [|x y]; [exact I|exact R3].
Qed.
End Raw.
