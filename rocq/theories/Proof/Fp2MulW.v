(** FP2::mul (fp2.rs:221-262) when the first factor was not normalised after an addition or a negation. *)
From Verif Require Import Base.Word Model.Big Model.Roms Model.Fp Model.Fp2 Spec.BigSpec Spec.RomSpec Spec.FpSpec Spec.TowerSpec
  Proof.BigVal Proof.BigMod Proof.BigShift Proof.BigMonty Proof.BigMul Proof.BigMulW Proof.FpBase Proof.FpRed Proof.FpOps Proof.FpPow Proof.FpExp Proof.FpIv Proof.FpWide Proof.NumTheory Proof.Fp2Ops.
From Coq Require Import Lia.

Section W2.
Variable r : rom.
Hypothesis Hf : fp_ok r.
Hypothesis Hs : special r = false.
Notation c := (r_cfg r).
Notation B := (BASEBITS (r_cfg r)).
Notation C := (CHUNK (r_cfg r)).
Notation N := (NLEN (r_cfg r)).
Notation X := (2 ^ BASEBITS (r_cfg r)).
Notation V := (val (BASEBITS (r_cfg r))).
Notation p := (pmod r).
Notation R := (bmax (r_cfg r)).
Notation SH := (2 ^ r_SH r).
Let FF := fp_ok_facts r Hf.
Let Hok : cfg_ok c. Proof. exact (ff_ok r FF). Qed.
Let F := cfg_ok_facts c Hok.
Let HB16 : 16 <= B. Proof. exact (cf_B c F). Qed.
Let HC : B + 3 <= C. Proof. exact (cf_C c F). Qed.
Let HX : 65536 <= X.
Proof. change 65536 with (2 ^ 16). apply pow2_le. lia. Qed.
Let HXC : 4 * X <= 2 ^ (C - 1).
Proof. change 4 with (2 ^ 2). rewrite <- Z.pow_add_r by lia. apply pow2_le. lia. Qed.
Let HM : 3 * X <= Mlim c. Proof. apply Mlim_ge; lia. Qed.
Let Hp0 : 0 < p := p_pos r Hf.
Let HSH : 32 <= SH := SH_pos r Hf.
Let HSp : SH * p < R := SHp_lt r Hf.
Let Hmg : 4 <= maxg r := maxg_ge r Hf.
Let HMX : MX r = FEXCESS r.
Proof. unfold MX. unfold special in Hs. destruct (r_MODTYPE r); try reflexivity; discriminate. Qed.
Variable g : Z.
Hypothesis Hw : wide_ok c g 1.
Hypothesis Hg5 : (2 * g + 1) * X <= 2 ^ (C - 1).
Lemma sum_wide lo hi x y kx ky : 0 <= lo <= g -> 1 <= hi <= g -> length x = N -> length y = N -> lims r lo hi x -> lims r lo hi y -> 0 <= V x < kx * p -> 0 <= V y < ky * p -> (kx + ky) * p <= R ->
  exists s t, add c x y = Some s /\ norm c s = Some t /\ big_wf c t /\ V t = V x + V y.
Proof.
  intros Hlo Hhi Lx Ly Wx Wy Hx Hy Hk.
  assert (K1 : hi * (X - 1) <= g * (X - 1)) by (apply Z.mul_le_mono_nonneg_r; lia). assert (K2 : lo * (X - 1) <= g * (X - 1)) by (apply Z.mul_le_mono_nonneg_r; lia).
  assert (K3 : 0 <= lo * (X - 1)) by (apply Z.mul_nonneg_nonneg; lia). assert (K4 : (2 * g + 1) * X = 2 * (g * (X - 1)) + 2 * g + X) by ring.
  assert (K5 : (2 * g + 1) * (X - 1) = 2 * (g * (X - 1)) + (X - 1)) by ring. assert (K6 : (2 * g + 1 - 1) * (X - 1) = 2 * (g * (X - 1))) by ring.
  destruct (add_total c ltac:(lia) HC _ _ _ _ x y Wx Wy ltac:(lia) ltac:(lia) ltac:(lia)) as [s [E1 E2]].
  destruct (add_val c _ _ _ E1) as [E3 E4]; [lia|].
  destruct (norm_to_wf c Hok (2 * g + 1) s ltac:(lia) Hg5) as [t [T1 [T2 T3]]].
  - lia.
  - eapply within_weaken; [exact E2|lia|lia].
  - rewrite E3. split; [lia|]. unfold bmax in *. lia.
  - exists s, t. split; [exact E1|]. split; [exact T1|]. split; [exact T3|]. rewrite T2. exact E3.
Qed.
Lemma mul2w_ok lo hi e1 e2 x y u v : 0 <= lo <= g -> 1 <= hi <= g -> hi <= maxg r -> lo + 1 <= maxg r -> 4 * Z.min e2 (FEXCESS r) * p <= R -> rep2 r lo hi e1 x u -> rep2 r 0 1 e2 y v -> exists z, fp2_mul r x y = Some z /\ rep2 r 0 1 3 z (mul2 u v).
Proof.
  intros Hlo Hhi Hm1 Hm2 He2 [A1 A2] [B1 B2]. unfold fp2_mul. pose proof (frep_e _ _ _ _ _ _ A1) as [Xa Ya]. pose proof (frep_e _ _ _ _ _ _ A2) as [Xb Yb]. pose proof (frep_e _ _ _ _ _ _ B1) as [Xc Yc]. pose proof (frep_e _ _ _ _ _ _ B2) as [Xd Yd].
  pose proof (S31 r Hf) as H31. change (2 ^ (32 - 1)) with 2147483648 in H31. unfold FEXCESS in *.
  rewrite !chk_ok by (change (2 ^ (32 - 1)) with 2147483648; lia). cbn [bind].
  assert (SS : 0 <= (fxes (f2a x) + fxes (f2b x)) * (fxes (f2a y) + fxes (f2b y)) <= (2 * SH) * (2 * SH)). { split; [apply Z.mul_nonneg_nonneg; lia|apply Z.mul_le_mono_nonneg; lia]. }
  assert (S2 : (2 * SH) * (2 * SH) <= 2147483648 * 2147483648) by (apply Z.mul_le_mono_nonneg; lia).
  rewrite chk_ok by (change (2 ^ (64 - 1)) with 9223372036854775808; lia). cbn [bind].
  set (sy := fxes (f2a y) + fxes (f2b y)) in *.
  assert (G : exists x1, (if SH - 1 <? (fxes (f2a x) + fxes (f2b x)) * sy then
      a <- (if 1 <? fxes (f2a x) then fp_reduce r (f2a x) else Some (f2a x)) ;; b <- (if 1 <? fxes (f2b x) then fp_reduce r (f2b x) else Some (f2b x)) ;; Some (mkfp2 a b) else Some x) = Some x1
    /\ rep2 r lo hi e1 x1 u /\ (fxes (f2a x1) + fxes (f2b x1)) * sy * p <= R).
  { destruct (Z.ltb_spec (SH - 1) ((fxes (f2a x) + fxes (f2b x)) * sy)) as [L|L].
    - assert (K : forall f w, frep r lo hi e1 f w -> exists f1, (if 1 <? fxes f then fp_reduce r f else Some f) = Some f1 /\ frep r lo hi e1 f1 w /\ fxes f1 = 1).
      { intros f w Hfr. pose proof (frep_e _ _ _ _ _ _ Hfr) as [Q1 _]. destruct (Z.ltb_spec 1 (fxes f)) as [L1|L1].
        - destruct (ireduce r Hf lo hi e1 f w ltac:(lia) ltac:(lia) ltac:(lia) ltac:(lia) Hfr) as [f1 [E1 [Q2 _]]]. exists f1. split; [exact E1|]. pose proof (frep_e _ _ _ _ _ _ Q2) as [Q3 _]. split; [|lia]. apply (frep_mono r Hf 0 1 1); [lia|lia|lia|exact Q2].
        - exists f. split; [reflexivity|]. split; [exact Hfr|lia]. }
      destruct (K _ _ A1) as [fa [E1 [Q1 F1]]]. destruct (K _ _ A2) as [fb [E2 [Q2 F2]]]. rewrite E1, E2. cbn [bind]. eexists. split; [reflexivity|]. split; [split; assumption|]. cbn [f2a f2b]. rewrite F1, F2. eapply Z.le_trans; [|exact He2]. apply Z.mul_le_mono_nonneg_r; unfold sy; lia.
    - exists x. split; [reflexivity|]. split; [split; assumption|]. assert ((fxes (f2a x) + fxes (f2b x)) * sy * p <= SH * p) by (apply Z.mul_le_mono_nonneg_r; lia). lia. }
  destruct G as [x1 [Ex [[P1 P2] Hb]]]. rewrite Ex. cbn [bind]. clear Ex A1 A2 Xa Ya Xb Yb SS S2.
  pose proof P1 as [[La Wa] [Xa [Va Da]]]. pose proof P2 as [[Lb Wb] [Xb [Vb Db]]]. pose proof B1 as [[Lc Wc] [_ [Vc Dc]]]. pose proof B2 as [[Ld Wd] [_ [Vd Dd]]].
  set (xa := fx (f2a x1)) in *. set (xb := fx (f2b x1)) in *. set (ya := fx (f2a y)) in *. set (yb := fx (f2b y)) in *.
  assert (WFc : big_wf c ya) by (apply (graded_wf r Hf); assumption). assert (WFd : big_wf c yb) by (apply (graded_wf r Hf); assumption).
  pose proof Hw as [Z1 [Z2 [Z3 [Z4 [Z5 Z6]]]]]. assert (RR : forall k, k <= SH - 1 -> k * p <= R). { intros k Hk. assert (k * p <= SH * p) by (apply Z.mul_le_mono_nonneg_r; lia). lia. }
  pose proof (frep_e _ _ _ _ _ _ P1) as [_ Fa]. pose proof (frep_e _ _ _ _ _ _ P2) as [_ Fb]. unfold FEXCESS in Fa, Fb. pose proof (RR _ Fa) as Ra. pose proof (RR _ Fb) as Rb. pose proof (RR _ Yc) as Rc. pose proof (RR _ Yd) as Rd. unfold bmax in Ra, Rb, Rc, Rd.
  destruct (mul_wide c Hok g 1 Z1 Z2 Z3 Z4 Z5 Z6 xa ya La (lims_wide r Hf g lo hi _ Z1 Hlo ltac:(lia) Wa) Lc (lims_wide r Hf 1 0 1 _ Z2 ltac:(lia) ltac:(lia) Wc) ltac:(lia) ltac:(lia)) as [pa [Ea [Wpa Vpa]]].
  destruct (mul_wide c Hok g 1 Z1 Z2 Z3 Z4 Z5 Z6 xb yb Lb (lims_wide r Hf g lo hi _ Z1 Hlo ltac:(lia) Wb) Ld (lims_wide r Hf 1 0 1 _ Z2 ltac:(lia) ltac:(lia) Wd) ltac:(lia) ltac:(lia)) as [pb [Eb [Wpb Vpb]]]. rewrite Ea, Eb. cbn [bind].
  assert (Hkx : (fxes (f2a x1) + fxes (f2b x1)) * p <= R).
  { eapply Z.le_trans; [|exact Hb]. apply Z.mul_le_mono_nonneg_r; [lia|]. rewrite <- Z.mul_1_r at 1. apply Z.mul_le_mono_nonneg_l; unfold sy; lia. }
  assert (Hky : sy * p <= R).
  { eapply Z.le_trans; [|exact Hb]. apply Z.mul_le_mono_nonneg_r; [lia|]. rewrite <- Z.mul_1_l at 1. apply Z.mul_le_mono_nonneg_r; unfold sy; lia. }
  destruct (sum_wide lo hi xa xb (fxes (f2a x1)) (fxes (f2b x1)) Hlo Hhi La Lb Wa Wb ltac:(lia) ltac:(lia) Hkx) as [s1 [t1 [Es1 [Et1 [Wt1 Vt1]]]]]. rewrite Es1. cbn [bind]. rewrite Et1. cbn [bind].
  destruct (sum_wf r Hf ya yb (fxes (f2a y)) (fxes (f2b y)) WFc WFd ltac:(lia) ltac:(lia) Hky) as [s2 [t2 [Es2 [Et2 [Wt2 Vt2]]]]]. rewrite Es2. cbn [bind]. rewrite Et2. cbn [bind].
  destruct (mul_spec c Hok t1 t2 Wt1 Wt2) as [pe [Ee [Wpe Vpe]]]. rewrite Ee. cbn [bind]. rewrite Vt1, Vt2 in Vpe.
  (* sizes *)
  assert (Pe : V pe < p * R).
  { rewrite Vpe. set (k := fxes (f2a x1) + fxes (f2b x1)) in *.
    assert (T1 : (V xa + V xb) * (V ya + V yb) <= (k * p) * (V ya + V yb)) by (apply Z.mul_le_mono_nonneg_r; lia).
    assert (T2 : (k * p) * (V ya + V yb) < (k * p) * (sy * p)) by (apply Z.mul_lt_mono_pos_l; [apply Z.mul_pos_pos; lia|unfold sy; lia]).
    assert (T3 : p * (k * sy * p) <= p * R) by (apply Z.mul_le_mono_nonneg_l; lia).
    replace (k * p * (sy * p)) with (p * (k * sy * p)) in T2 by ring. lia. }
  assert (N1 : 0 <= V xa * V ya) by (apply Z.mul_nonneg_nonneg; lia). assert (N2 : 0 <= V xb * V yb) by (apply Z.mul_nonneg_nonneg; lia).
  assert (N3 : 0 <= V xa * V yb) by (apply Z.mul_nonneg_nonneg; lia). assert (N4 : 0 <= V xb * V ya) by (apply Z.mul_nonneg_nonneg; lia).
  assert (XX : (V xa + V xb) * (V ya + V yb) = V xa * V ya + V xb * V yb + (V xa * V yb + V xb * V ya)) by ring. rewrite XX in Vpe.
  assert (R3 : 3 * p < R). { assert (3 * p <= SH * p) by (apply Z.mul_le_mono_nonneg_r; lia). lia. }
  assert (RR3 : 3 * (p * R) <= R * R). { assert (3 * p * R <= R * R) by (apply Z.mul_le_mono_nonneg_r; lia). lia. }
  pose proof (canon_within c _ (proj2 Wpa)) as Ia. pose proof (canon_within c _ (proj2 Wpb)) as Ib. pose proof (canon_within c _ (proj2 Wpe)) as Ie. pose proof (proj1 Wpa) as LLa. pose proof (proj1 Wpb) as LLb. pose proof (proj1 Wpe) as LLe.
  destruct (add_total c ltac:(lia) HC _ _ _ _ pa pb Ia Ib ltac:(lia) ltac:(lia) ltac:(lia)) as [f [Ef If]]. rewrite Ef. cbn [bind]. destruct (add_val c _ _ _ Ef ltac:(lia)) as [Vf Lf].
  assert (Wu : within 0 (X - 1) (dbig_ucopy r (r_MODULUS r))).
  { apply Forall_app. split; [apply Forall_forall; intros z Hz; apply repeat_spec in Hz; lia|]. apply (canon_within c). exact (proj2 (ff_wf r FF)). }
  assert (Lu : length (dbig_ucopy r (r_MODULUS r)) = DNLEN c) by (unfold dbig_ucopy, DNLEN; rewrite app_length, repeat_length, (proj1 (ff_wf r FF)); lia).
  assert (Vu : V (dbig_ucopy r (r_MODULUS r)) = p * R).
  { unfold dbig_ucopy. rewrite val_app, repeat_length, val_repeat0 by lia. change (V (r_MODULUS r)) with p. unfold bmax. lia. }
  assert (Er : forall w z, rsub c w z = sub c z w). { unfold rsub, sub. clear. induction w as [|a w IH]; intros [|b z]; cbn [map2o]; try reflexivity. rewrite IH. reflexivity. }
  rewrite Er. destruct (sub_total c ltac:(lia) HC _ _ _ _ _ pb Wu Ib ltac:(lia) ltac:(lia) ltac:(lia)) as [b2 [Eb2 Ib2]]. rewrite Eb2. cbn [bind]. destruct (sub_val c _ _ _ Eb2 ltac:(lia)) as [Vb2 Lb2].
  destruct (add_total c ltac:(lia) HC _ _ _ _ pa b2 Ia Ib2 ltac:(lia) ltac:(lia) ltac:(lia)) as [a2 [Ea2 Ia2]]. rewrite Ea2. cbn [bind]. destruct (add_val c _ _ _ Ea2 ltac:(lia)) as [Va2 La2].
  destruct (norm_dbig r Hf a2) as [a3 [Ea3 [Wa3 Va3]]]; [lia|eapply within_weaken; [exact Ia2|lia|lia]|lia|]. rewrite Ea3. cbn [bind].
  destruct (sub_total c ltac:(lia) HC _ _ _ _ pe f Ie If ltac:(lia) ltac:(lia) ltac:(lia)) as [e3 [Ee3 Ie3]]. rewrite Ee3. cbn [bind]. destruct (sub_val c _ _ _ Ee3 ltac:(lia)) as [Ve3 Le3].
  destruct (norm_dbig r Hf e3) as [e4 [Ee4 [We4 Ve4]]]; [lia|eapply within_weaken; [exact Ie3|lia|lia]|lia|]. rewrite Ee4. cbn [bind].
  unfold den, bval in Da, Db, Dc, Dd. fold xa in Da. fold xb in Db. fold ya in Dc. fold yb in Dd. rewrite (fKR r Hs) in *.
  destruct (mod3_rep r Hf Hs a3 (fst u * fst v - snd u * snd v) 3 Wa3 ltac:(lia) (or_introl eq_refl)) as [ra [Era Qra]].
  { rewrite Va3, Va2, Vb2, Vpa, Vpb, Vu. replace (V xa * V ya + (p * R - V xb * V yb)) with (V xa * V ya - V xb * V yb + R * p) by ring. rewrite Z.mod_add by lia.
    replace ((fst u * fst v - snd u * snd v) * R * R) with ((fst u * R) * (fst v * R) - (snd u * R) * (snd v * R)) by ring. apply cg_sub; apply cg_mul; assumption. }
  destruct (mod3_rep r Hf Hs e4 (fst u * snd v + snd u * fst v) 2 We4 ltac:(lia)) as [rb [Erb Qrb]]; [right; split; [reflexivity|lia]| |].
  { rewrite Ve4, Ve3, Vf, Vpa, Vpb, Vpe. replace (V xa * V ya + V xb * V yb + (V xa * V yb + V xb * V ya) - (V xa * V ya + V xb * V yb)) with (V xa * V yb + V xb * V ya) by ring.
    replace ((fst u * snd v + snd u * fst v) * R * R) with ((fst u * R) * (snd v * R) + (snd u * R) * (fst v * R)) by ring. apply cg_add; apply cg_mul; assumption. }
  rewrite Era. cbn [bind]. rewrite Erb. cbn [bind]. eexists. split; [reflexivity|]. split; cbn [f2a f2b fst snd mul2]; [exact Qra|]. fmono.
Qed.
End W2.
