(** Weierstrass point objects: every operation of ecp.rs in terms of the affine group law over the field. *)
From Verif Require Import Base.Word Model.Big Model.Roms Model.Fp Model.Ecp Spec.BigSpec Spec.RomSpec Spec.FpSpec Spec.CurveSpec Spec.EcpSpec
  Proof.BigVal Proof.BigMod Proof.BigShift Proof.BigMonty Proof.BigMul Proof.BigMisc Proof.FpBase Proof.FpRed Proof.FpOps Proof.FpPow Proof.FpExp Proof.FpIv Proof.NumTheory
  Proof.FieldP Proof.Weier Proof.EcpOps.
From Coq Require Import Znumtheory Ring.

Lemma fp_cmove_exact r a b d : 4 <= CHUNK (r_cfg r) -> length (fx a) = length (fx b) -> d = 0 \/ d = 1 -> fp_cmove r a b d = Some (if d =? 1 then b else a).
Proof.
  intros HC HL Hd. unfold fp_cmove. assert (E : cmove (r_cfg r) (fx a) (fx b) d = Some (if d =? 1 then fx b else fx a)).
  { unfold cmove. rewrite chk_ok. 2:{ assert (2 ^ 3 <= 2 ^ (CHUNK (r_cfg r) - 1)) by (apply pow2_le; lia). change (2 ^ 3) with 8 in *. lia. } cbn [bind].
    destruct Hd as [-> | ->]; cbn [Z.opp Z.eqb]; f_equal; [apply cmove_loop_0|apply cmove_loop_m1]; exact HL. }
  rewrite E. cbn [bind]. destruct Hd as [-> | ->]; cbn [Z.eqb]; (rewrite wrap_id by (cbn; lia)); (rewrite chk_ok by (cbn; lia)); cbn [bind].
  - change (- 0) with 0. rewrite Z.land_0_r, Z.lxor_0_r. destruct a; reflexivity.
  - change (- (1)) with (-1). rewrite Z.land_m1_r. rewrite <- Z.lxor_assoc, Z.lxor_nilpotent, Z.lxor_0_l. destruct b; reflexivity.
Qed.
Lemma fp_cswap_exact r a b d : 4 <= CHUNK (r_cfg r) -> length (fx a) = length (fx b) -> d = 0 \/ d = 1 -> fp_cswap r a b d = Some (if d =? 1 then (b, a) else (a, b)).
Proof.
  intros HC HL Hd. unfold fp_cswap.
  assert (E : cswap (r_cfg r) (fx a) (fx b) d = Some (if d =? 1 then (fx b, fx a) else (fx a, fx b))).
  { unfold cswap. assert (2 ^ 3 <= 2 ^ (CHUNK (r_cfg r) - 1)) by (apply pow2_le; lia). change (2 ^ 3) with 8 in *.
    rewrite wrap_id by lia. rewrite chk_ok by lia. cbn [bind].
    destruct Hd as [-> | ->]; f_equal; [change (Z.lnot (0 - 1)) with 0; apply cswap_loop_0|change (Z.lnot (1 - 1)) with (-1); apply cswap_loop_m1]; exact HL. }
  rewrite E. cbn [bind]. destruct Hd as [-> | ->]; cbn [Z.eqb Pos.eqb]; (rewrite wrap_id by (cbn; lia)); (rewrite chk_ok by (cbn; lia)); cbn [bind fst snd].
  - change (Z.lnot (0 - 1)) with 0. rewrite Z.land_0_l, !Z.lxor_0_r. destruct a, b; reflexivity.
  - change (Z.lnot (1 - 1)) with (-1). rewrite Z.land_m1_l. rewrite <- Z.lxor_assoc, Z.lxor_nilpotent, Z.lxor_0_l.
    rewrite (Z.lxor_comm (fxes a)), <- Z.lxor_assoc, Z.lxor_nilpotent, Z.lxor_0_l. destruct a, b; reflexivity.
Qed.

(** ** from integers modulo p to the field *)
Section Hom.
Variable p : Z.
Hypothesis Hp : prime p.
Add Ring Kring : (F_ring p Hp).
Definition kk (v : zpt) : kpt p := let '(x, y, z) := v in (mk p x, mk p y, mk p z).
Lemma kk_rcb a b u v : kk (rcb a b u v) = krcb p (mk p a) (mk p b) (kk u) (kk v).
Proof.
  destruct u as [[X1 Y1] Z1], v as [[X2 Y2] Z2]. cbn [kk rcb krcb]. cbv zeta.
  assert (E3 : mk p 3 = (f1 p + f1 p + f1 p)%F). { change 3 with (1 + 1 + 1). rewrite !mk_add by exact Hp. reflexivity. }
  rewrite ?mk_add, ?mk_sub, ?mk_mul, ?mk_add, ?mk_sub, ?mk_mul, ?mk_add, ?mk_sub, ?mk_mul, ?mk_add, ?mk_sub, ?mk_mul by exact Hp. rewrite E3. reflexivity.
Qed.

Ltac mkpush := rewrite ?mk_add, ?mk_sub, ?mk_mul, ?mk_opp, ?mk_add, ?mk_sub, ?mk_mul, ?mk_opp, ?mk_add, ?mk_sub, ?mk_mul, ?mk_add, ?mk_sub, ?mk_mul by assumption.
Lemma mk3 : mk p 3 = (f1 p + f1 p + f1 p)%F.
Proof. change 3 with (1 + 1 + 1). rewrite !mk_add by exact Hp. reflexivity. Qed.
Lemma mk2 : mk p 2 = (f1 p + f1 p)%F.
Proof. change 2 with (1 + 1). rewrite !mk_add by exact Hp. reflexivity. Qed.
Lemma mk8 : mk p 8 = ((f1 p + f1 p) * (f1 p + f1 p) * (f1 p + f1 p))%F.
Proof. change 8 with (2 * 2 * 2). rewrite !mk_mul by exact Hp. rewrite mk2. reflexivity. Qed.
Lemma mk9 : mk p 9 = ((f1 p + f1 p + f1 p) * (f1 p + f1 p + f1 p))%F.
Proof. change 9 with (3 * 3). rewrite !mk_mul by exact Hp. rewrite mk3. reflexivity. Qed.
Lemma mk24 : mk p 24 = ((f1 p + f1 p) * (f1 p + f1 p) * (f1 p + f1 p) * (f1 p + f1 p + f1 p))%F.
Proof. change 24 with (8 * 3). rewrite !mk_mul by exact Hp. rewrite mk3, mk8. reflexivity. Qed.
Hypothesis Hp3 : 3 < p.
Variables a b : Z.
Lemma kk_dbl3 u A : aon p (mk p a) (mk p b) A -> kden p (kk u) A -> kk (dbl3 a b u) = krcb p (mk p a) (mk p b) (kk u) (kk u).
Proof.
  intros O HA. pose proof (krcb_dbl_z p Hp (mk p a) (mk p b) (kk u) A O HA) as HZ. pose proof (kk_rcb a b u u) as E. destruct u as [[X1 Y1] Z1]. unfold dbl3.
  destruct (rcb a b (X1, Y1, Z1) (X1, Y1, Z1)) as [[X3 Y3] Z3]. rewrite <- E in *. cbn [kk] in *. f_equal. rewrite HZ. rewrite !mk_mul by exact Hp. rewrite mk8. reflexivity.
Qed.
Lemma kk_dbl0 u A : a = 0 -> aon p (mk p a) (mk p b) A -> kden p (kk u) A -> kk (dbl0 b u) = krcb p (mk p a) (mk p b) (kk u) (kk u).
Proof.
  intros Ea O HA. assert (E0 : mk p a = f0 p) by (rewrite Ea; reflexivity). pose proof (krcb_dbl_0 p Hp (mk p a) (mk p b) (kk u) A E0 O HA) as HZ. destruct u as [[X1 Y1] Z1]. cbn [kk dbl0] in *.
  rewrite HZ. mkpush. rewrite mk2, mk8, mk9, mk24, mk3. reflexivity.
Qed.
End Hom.

(** ROM conditions for Weierstrass curves *)
Definition w_ok (r : rom) : Prop :=
  fp_ok r /\ MX r = FEXCESS r /\ fpow_ok r /\ r_CURVETYPE r = Weierstrass /\ big_wf (r_cfg r) (r_CURVE_B r) /\ cB r < pmod r /\
  (r_CURVE_A r = 0 /\ mult_ok r 18 (3 * r_CURVE_B_I r) /\ cong (pmod r) (r_CURVE_B_I r) (cB r) \/
   r_CURVE_A r = -3 /\ 8 <= maxg r /\ (r_CURVE_B_I r = 0 \/ mult_ok r (FEXCESS r) (r_CURVE_B_I r) /\ cong (pmod r) (r_CURVE_B_I r) (cB r))).

Section WPt.
Variable r : rom.
Hypothesis Hw : w_ok r.
Notation p := (pmod r).
Notation FX := (FEXCESS r).
Hypothesis Hp : prime p.
Notation ka := (mk p (cA r)).
Notation kb := (mk p (cB r)).
Hypothesis Hno2 : no_order2 p (cA r) (cB r).
Let Hf : fp_ok r. Proof. exact (proj1 Hw). Qed.
Let HMX : MX r = FX. Proof. exact (proj1 (proj2 Hw)). Qed.
Let Hfp : fpow_ok r. Proof. exact (proj1 (proj2 (proj2 Hw))). Qed.
Let Hct : r_CURVETYPE r = Weierstrass. Proof. exact (proj1 (proj2 (proj2 (proj2 Hw)))). Qed.
Let Hmg : 4 <= maxg r := maxg_ge r Hf.
Let HC4 : 4 <= CHUNK (r_cfg r). Proof. pose proof (cf_C _ (cfg_ok_facts _ (ff_ok r (fp_ok_facts r Hf)))). pose proof (cf_B _ (cfg_ok_facts _ (ff_ok r (fp_ok_facts r Hf)))). lia. Qed.
Let Hp3 : 3 < p. Proof. pose proof (p_big r Hf). assert (2 ^ 3 <= 2 ^ 199) by (apply pow2_le; lia). change (2 ^ 3) with 8 in *. lia. Qed.
Add Ring Kring2 : (F_ring p Hp).

Definition wden (P : ecp) (A : apt p) : Prop := exists v, prep r P v /\ kden p (kk p v) A /\ aon p ka kb A.
Notation Asum := (asum p ka).

Lemma kno2 : forall x : F p, (x * x * x + ka * x + kb)%F <> f0 p.
Proof.
  intros x E. apply (Hno2 (fz x)). rewrite <- (mk_fz p Hp x) in E. rewrite <- !mk_mul, <- !mk_add in E by exact Hp. apply mk_0 in E; [|exact Hp]. unfold cong. rewrite E. symmetry. apply Z.mod_0_l. lia.
Qed.
Lemma wden_on P A : wden P A -> aon p ka kb A. Proof. intros [v [_ [_ H]]]. exact H. Qed.
Lemma prep_len P v : prep r P v -> length (fx (ex P)) = NLEN (r_cfg r) /\ length (fx (ey P)) = NLEN (r_cfg r) /\ length (fx (ez P)) = NLEN (r_cfg r).
Proof. intros [[[H1 _] _] [[[H2 _] _] [[H3 _] _]]]. auto. Qed.
Lemma frep1 e f v : frep r 0 1 e f v -> fp_rep r 1 f v.
Proof. intros H. apply (frep_rep r Hf 0 1 e); [lia|lia|exact H]. Qed.
Lemma rep1f f v : fp_rep r 1 f v -> frep r 0 1 FX f v.
Proof. intros H. apply (rep_frep1 r); [|exact H]. destruct H as [[_ [_ [H _]]] _]. lia. Qed.

Theorem w_add P Q A C : wden P A -> wden Q C -> exists R, ecp_add r P Q = Some R /\ wden R (Asum A C).
Proof.
  intros [u [PU [DU OA]]] [v [PV [DV OC]]]. unfold ecp_add. rewrite Hct.
  assert (G : exists R b', (if r_CURVE_A r =? 0 then ecp_add_w0 r P Q else ecp_add_w3 r P Q) = Some R /\ mk p b' = kb /\ prep r R (rcb (cA r) b' u v)).
  { destruct Hw as [_ [_ [_ [_ [WB [LB [[EA [HM HB]]|[EA [H8 HB]]]]]]]]]; unfold cA; rewrite EA.
    - change (0 =? 0) with true. cbv iota. destruct (add_w0_ok r Hf HMX P Q u v HM PU PV) as [R [E1 E2]]. exists R, (r_CURVE_B_I r). split; [exact E1|]. split; [apply mk_eq; exact HB|exact E2].
    - change (-3 =? 0) with false. cbv iota. destruct HB as [HB|[HM HB]].
      + destruct (add_w3_ok r Hf HMX P Q u v (cB r) H8) as [R [E1 E2]]; [unfold bval3; rewrite HB; change (0 =? 0) with true; cbv iota; auto|exact PU|exact PV|]. exists R, (cB r). auto.
      + destruct (Z.eq_dec (r_CURVE_B_I r) 0) as [Z0|Z0].
        * destruct (add_w3_ok r Hf HMX P Q u v (cB r) H8) as [R [E1 E2]]; [unfold bval3; rewrite Z0; change (0 =? 0) with true; cbv iota; auto|exact PU|exact PV|]. exists R, (cB r). auto.
        * destruct (add_w3_ok r Hf HMX P Q u v (r_CURVE_B_I r) H8) as [R [E1 E2]]; [unfold bval3; rewrite (proj2 (Z.eqb_neq _ _) Z0); auto|exact PU|exact PV|]. exists R, (r_CURVE_B_I r). split; [exact E1|]. split; [apply mk_eq; exact HB|exact E2]. }
  destruct G as [R [b' [E1 [E2 E3]]]]. exists R. split; [exact E1|]. exists (rcb (cA r) b' u v). split; [exact E3|]. rewrite kk_rcb, E2 by exact Hp.
  split; [apply krcb_ok; auto using kno2|apply asum_on; auto using kno2].
Qed.
Theorem w_dbl P A : wden P A -> exists R, ecp_dbl r P = Some R /\ wden R (Asum A A).
Proof.
  intros [u [PU [DU OA]]]. unfold ecp_dbl. rewrite Hct.
  assert (G : exists R w, (if r_CURVE_A r =? 0 then ecp_dbl_w0 r P else ecp_dbl_w3 r P) = Some R /\ prep r R w /\ kk p w = krcb p ka kb (kk p u) (kk p u)).
  { destruct Hw as [_ [_ [_ [_ [WB [LB [[EA [HM HB]]|[EA [H8 HB]]]]]]]]]; unfold cA in *; rewrite EA in *.
    - change (0 =? 0) with true. cbv iota. destruct (dbl_w0_ok r Hf HMX P u HM PU) as [R [E1 E2]]. exists R, (dbl0 (r_CURVE_B_I r) u). split; [exact E1|]. split; [exact E2|].
      apply mk_eq in HB. rewrite <- HB. apply (kk_dbl0 p Hp 0 (r_CURVE_B_I r) u A); [reflexivity|rewrite HB; exact OA|exact DU].
    - change (-3 =? 0) with false. cbv iota.
      assert (G : exists b', bval3 r b' /\ mk p b' = kb).
      { unfold bval3. destruct (Z.eqb_spec (r_CURVE_B_I r) 0) as [Z0|Z0]; [exists (cB r); auto|]. destruct HB as [HB|[HM HB]]; [contradiction|]. exists (r_CURVE_B_I r). split; [auto|apply mk_eq; exact HB]. }
      destruct G as [b' [G1 G2]]. destruct (dbl_w3_ok r Hf HMX P u b' H8 G1 PU) as [R [E1 E2]]. exists R, (dbl3 (-3) b' u). split; [exact E1|]. split; [exact E2|].
      rewrite <- G2. apply (kk_dbl3 p Hp (-3) b' u A); [rewrite G2; exact OA|exact DU]. }
  destruct G as [R [w [E1 [E2 E3]]]]. exists R. split; [exact E1|]. exists w. split; [exact E2|]. rewrite E3.
  split; [apply krcb_ok; auto using kno2|apply asum_on; auto using kno2].
Qed.
Theorem w_negate P A : wden P A -> exists R, ecp_neg r P = Some R /\ wden R (aneg p A).
Proof.
  intros [u [[PX [PY PZ]] [DU OA]]]. unfold ecp_neg. rewrite Hct. destruct u as [[X1 Y1] Z1]. cbn [fst snd] in *.
  repeat estep. eexists. split; [reflexivity|]. exists (X1, - Y1, Z1). split; [|split].
  - unfold prep. cbn [ex ey ez fst snd]. split; [exact PX|]. split; [|exact PZ]. eapply frep_fx; eassumption.
  - cbn [kk] in *. rewrite mk_opp by exact Hp. destruct A as [|x y]; cbn [kden aneg] in *.
    + destruct DU as [D1 [D2 D3]]. split; [exact D1|]. split; [exact D2|]. intros E. apply D3. transitivity (- - mk p Y1)%F; [ring|rewrite E; ring].
    + destruct DU as [D1 [D2 D3]]. split; [exact D1|]. split; [exact D2|]. rewrite D3. ring.
  - apply aneg_on; auto.
Qed.
Theorem w_sub P Q A C : wden P A -> wden Q C -> exists R, ecp_sub r P Q = Some R /\ wden R (Asum A (aneg p C)).
Proof.
  intros HP HQ. unfold ecp_sub. destruct (w_negate Q C HQ) as [N [E1 E2]]. rewrite E1. cbn [bind]. apply w_add; assumption.
Qed.
Theorem w_cmove P Q A C d : wden P A -> wden Q C -> d = 0 \/ d = 1 -> ecp_cmove r P Q d = Some (if d =? 1 then Q else P).
Proof.
  intros [u [PU _]] [v [PV _]] Hd. destruct (prep_len _ _ PU) as [L1 [L2 L3]], (prep_len _ _ PV) as [M1 [M2 M3]]. unfold ecp_cmove, is_mont. rewrite Hct.
  rewrite !fp_cmove_exact by (try exact HC4; try exact Hd; congruence). cbn [bind]. destruct Hd as [-> | ->]; cbn [Z.eqb Pos.eqb]; [destruct P|destruct Q]; reflexivity.
Qed.
Theorem w_cswap P Q A C d : wden P A -> wden Q C -> d = 0 \/ d = 1 -> ecp_cswap r P Q d = Some (if d =? 1 then (Q, P) else (P, Q)).
Proof.
  intros [u [PU _]] [v [PV _]] Hd. destruct (prep_len _ _ PU) as [L1 [L2 L3]], (prep_len _ _ PV) as [M1 [M2 M3]]. unfold ecp_cswap, is_mont. rewrite Hct.
  rewrite !fp_cswap_exact by (try exact HC4; try exact Hd; congruence). cbn [bind]. destruct Hd as [-> | ->]; cbn [Z.eqb Pos.eqb fst snd]; destruct P, Q; reflexivity.
Qed.
Theorem w_is_inf P A : wden P A -> exists b, ecp_is_infinity r P = Some b /\ (b = true <-> A = AInf p).
Proof.
  intros [u [[PX [PY PZ]] [DU OA]]]. unfold ecp_is_infinity. rewrite Hct. destruct u as [[X1 Y1] Z1]. cbn [fst snd kk] in *.
  rewrite (iiszilch r Hf 0 1 FX (ex P) X1) by (try lia; exact PX). cbn [bind]. rewrite (iiszilch r Hf 0 1 FX (ez P) Z1) by (try lia; exact PZ).
  destruct A as [|x y]; cbn [kden] in DU.
  - destruct DU as [D1 [D2 _]]. apply mk_0 in D1; [|exact Hp]. apply mk_0 in D2; [|exact Hp]. rewrite D1, D2. exists true. split; [reflexivity|tauto].
  - destruct DU as [D1 _]. assert (N : (Z1 mod p =? 0) = false). { apply Z.eqb_neq. intros E. apply D1. apply mk_0; assumption. } rewrite N. exists false. split; [destruct (X1 mod p =? 0); reflexivity|]. split; [discriminate|intros E; discriminate].
Qed.
Theorem w_new : exists R, ecp_new r = Some R /\ wden R (AInf p).
Proof.
  unfold ecp_new. rewrite Hct. destruct (inewint r Hf 1) as [f [E1 E2]]. { split; [lia|]. pose proof (cf_B _ (cfg_ok_facts _ (ff_ok r (fp_ok_facts r Hf)))). assert (2 ^ 16 <= 2 ^ BASEBITS (r_cfg r)) by (apply pow2_le; lia). change (2 ^ 16) with 65536 in *. lia. }
  rewrite E1. cbn [bind]. eexists. split; [reflexivity|]. exists (0, 1, 0). split; [|split; [|exact I]].
  - unfold prep. cbn [ex ey ez fst snd]. pose proof (inew r Hf) as N. apply frep_fx in N. apply frep_fx in E2. auto.
  - cbn. split; [reflexivity|]. split; [reflexivity|]. exact (f1_neq_f0 p Hp).
Qed.
(** the inverse of a nonzero coordinate *)
Lemma inv_ok f u : frep r 0 1 FX f u -> u mod p <> 0 -> exists f', fp_inverse r f = Some f' /\ frep r 0 1 FX f' (u ^ (p - 2)) /\ (mk p u * mk p (u ^ (p - 2)))%F = f1 p.
Proof.
  intros H Hu. destruct (inverse_rep r Hf 1 f u ltac:(lia) ltac:(reflexivity) Hfp (or_introl HMX) (frep1 _ _ _ H)) as [f' [E1 E2]]. exists f'. split; [exact E1|]. split; [apply rep1f; exact E2|].
  rewrite <- mk_mul by exact Hp. apply mk_eq. rewrite fermat_inv by assumption. symmetry. apply Z.mod_1_l. lia.
Qed.
Theorem w_affine P A : wden P A -> exists R, ecp_affine r P = Some R /\ wden R A /\
  match A with AInf _ => R = P | AAff _ x y => exists v, prep r R v /\ kk p v = (x, y, f1 p) end.
Proof.
  intros HP. pose proof HP as [u [[PX [PY PZ]] [DU OA]]]. unfold ecp_affine. destruct (w_is_inf P A HP) as [b [Eb Hb]]. rewrite Eb. cbn [bind].
  destruct b. { exists P. split; [reflexivity|]. split; [exact HP|]. rewrite (proj1 Hb eq_refl). reflexivity. }
  destruct A as [|x y]; [assert (false = true) by (apply Hb; reflexivity); discriminate|]. destruct u as [[X1 Y1] Z1]. cbn [fst snd kk] in *. destruct DU as [D1 [D2 D3]].
  destruct (inewint r Hf 1) as [one [E1 E2]]. { split; [lia|]. pose proof (cf_B _ (cfg_ok_facts _ (ff_ok r (fp_ok_facts r Hf)))). assert (2 ^ 16 <= 2 ^ BASEBITS (r_cfg r)) by (apply pow2_le; lia). change (2 ^ 16) with 65536 in *. lia. }
  rewrite E1. cbn [bind]. rewrite (iequals r Hf 0 1 FX 0 1 2 (ez P) one Z1 1) by (try lia; assumption). cbn [bind].
  destruct (Z.eqb_spec (Z1 mod p) (1 mod p)) as [Q|Q].
  - exists P. split; [reflexivity|]. split; [exact HP|]. exists (X1, Y1, Z1). split; [unfold prep; auto|]. cbn [kk]. apply mk_eq in Q. rewrite D2, D3, Q. change (mk p 1) with (f1 p). f_equal; f_equal; ring.
  - destruct (inv_ok (ez P) Z1 PZ) as [z [Z2 [Z3 Z4]]]. { intros E. apply D1. apply mk_0; assumption. }
    rewrite Z2. cbn [bind]. unfold is_mont. rewrite Hct.
    destruct (imulf r Hf FX FX (ex P) z X1 (Z1 ^ (p - 2)) HMX PX Z3) as [x' [X2 X3]]. rewrite X2. cbn [bind].
    destruct (ireduce r Hf 0 1 2 x' _ ltac:(lia) ltac:(lia) ltac:(lia) ltac:(lia) X3) as [x2 [X4 [X5 _]]]. rewrite X4. cbn [bind].
    destruct (imulf r Hf FX FX (ey P) z Y1 (Z1 ^ (p - 2)) HMX PY Z3) as [y' [Y2 Y3]]. rewrite Y2. cbn [bind].
    destruct (ireduce r Hf 0 1 2 y' _ ltac:(lia) ltac:(lia) ltac:(lia) ltac:(lia) Y3) as [y2 [Y4 [Y5 _]]]. rewrite Y4. cbn [bind].
    eexists. split; [reflexivity|].
    assert (G : exists v, prep r {| ex := x2; ey := y2; ez := one |} v /\ kk p v = (x, y, f1 p)).
    { exists (X1 * Z1 ^ (p - 2), Y1 * Z1 ^ (p - 2), 1). split; [unfold prep; cbn [ex ey ez fst snd]; split; [exact (frep_fx r 0 1 _ _ _ X5)|split; [exact (frep_fx r 0 1 _ _ _ Y5)|exact (frep_fx r 0 1 _ _ _ E2)]]|]. cbn [kk]. rewrite !mk_mul by exact Hp. rewrite D2, D3.
      f_equal. f_equal; [transitivity (x * (mk p Z1 * mk p (Z1 ^ (p - 2))))%F|transitivity (y * (mk p Z1 * mk p (Z1 ^ (p - 2))))%F]; try ring; rewrite Z4; ring. }
    split; [|exact G]. destruct G as [v [G1 G2]]. exists v. split; [exact G1|]. rewrite G2. split; [|exact OA]. cbn. split; [exact (f1_neq_f0 p Hp)|]. split; ring.
Qed.
Theorem w_equals P Q A C : wden P A -> wden Q C -> exists b, ecp_equals r P Q = Some b /\ (b = true <-> A = C).
Proof.
  intros [u [[PX [PY PZ]] [DU OA]]] [v [[QX [QY QZ]] [DV OC]]]. unfold ecp_equals. destruct u as [[X1 Y1] Z1], v as [[X2 Y2] Z2]. cbn [fst snd kk] in *.
  destruct (imulf r Hf _ _ _ _ _ _ HMX PX QZ) as [s1 [S1 S2]]. rewrite S1. cbn [bind]. destruct (imulf r Hf _ _ _ _ _ _ HMX QX PZ) as [s2 [S3 S4]]. rewrite S3. cbn [bind].
  rewrite (iequals r Hf 0 1 2 0 1 2 s1 s2 (X1 * Z2) (X2 * Z1)) by (try lia; assumption). cbn [bind].
  destruct (imulf r Hf _ _ _ _ _ _ HMX PY QZ) as [s3 [S5 S6]]. rewrite S5. destruct (imulf r Hf _ _ _ _ _ _ HMX QY PZ) as [s4 [S7 S8]]. rewrite S7. cbn [bind].
  rewrite (iequals r Hf 0 1 2 0 1 2 s3 s4 (Y1 * Z2) (Y2 * Z1)) by (try lia; assumption).
  unfold is_mont. rewrite Hct.
  assert (M : forall s t, s mod p = t mod p <-> mk p s = mk p t) by (intros; apply mk_eq).
  assert (E : exists b, (if negb (X1 * Z2 mod p =? X2 * Z1 mod p) then Some false else Some (Y1 * Z2 mod p =? Y2 * Z1 mod p)) = Some b /\ (b = true <-> (mk p X1 * mk p Z2 = mk p X2 * mk p Z1 /\ mk p Y1 * mk p Z2 = mk p Y2 * mk p Z1)%F)).
  { rewrite <- !mk_mul by exact Hp. pose proof (M (X1 * Z2) (X2 * Z1)) as M1. pose proof (M (Y1 * Z2) (Y2 * Z1)) as M2. destruct (Z.eqb_spec (X1 * Z2 mod p) (X2 * Z1 mod p)); cbn [negb].
    - eexists. split; [reflexivity|]. rewrite Z.eqb_eq. tauto.
    - exists false. split; [reflexivity|]. split; [discriminate|tauto]. }
  destruct E as [b [E1 E2]]. exists b. split; [exact E1|]. rewrite E2. clear E1 E2 M. clear - DU DV Hp.
  destruct A as [|x1 y1], C as [|x2 y2]; cbn [kden] in *.
  - destruct DU as [-> [-> _]], DV as [-> [-> _]]. split; [reflexivity|]. intros _. split; ring.
  - destruct DU as [D1 [D2 D3]], DV as [D4 [D5 D6]]. split; [|discriminate]. intros [_ E]. rewrite D2 in E. exfalso. destruct (F_integral p Hp (mk p Y1) (mk p Z2)); [rewrite E; ring|contradiction|contradiction].
  - destruct DU as [D1 [D2 D3]], DV as [D4 [D5 D6]]. split; [|discriminate]. intros [_ E]. rewrite D5 in E. exfalso. destruct (F_integral p Hp (mk p Y2) (mk p Z1)); [rewrite <- E; ring|contradiction|contradiction].
  - destruct DU as [D1 [D2 D3]], DV as [D4 [D5 D6]]. rewrite D2, D3, D5, D6. split; [|intros E; inversion E; subst; split; ring].
    intros [E1 E2]. assert (C1 : forall s t : F p, (s * mk p Z1 * mk p Z2 = t * mk p Z2 * mk p Z1)%F -> s = t).
    { intros s t E. assert (Z0 : ((s - t) * (mk p Z1 * mk p Z2))%F = f0 p) by (transitivity (s * mk p Z1 * mk p Z2 - t * mk p Z2 * mk p Z1)%F; [ring|rewrite E; ring]).
      destruct (F_integral p Hp _ _ Z0) as [Q|Q]; [transitivity (s - t + t)%F; [ring|rewrite Q; ring]|]. destruct (F_integral p Hp _ _ Q); contradiction. }
    f_equal; apply C1; assumption.
Qed.
End WPt.
