(** FF::invmod2m: Newton iteration over whole Bigs. *)
From Verif Require Import Base.Word Model.Big Model.Ff Spec.BigSpec Spec.FfSpec Proof.BigVal Proof.BigShift
  Proof.BigMul Proof.BigSqr Proof.BigMisc Proof.BigMod Proof.BigBytes Proof.BigInv Proof.BigMonty Proof.BigInv2m Proof.FfBase Proof.FfLeaf Proof.FfMul Proof.FfRed Proof.FfMod Proof.FfMont.
From Verif Require Import Proof.NumTheory Proof.FfPow.
From Coq Require Import Znumtheory.
Open Scope Z_scope.

Lemma ffmap2_app op : forall a b a' b' r r', length a = length b -> ffmap2 op a b = Some r -> ffmap2 op a' b' = Some r' ->
  ffmap2 op (a ++ a') (b ++ b') = Some (r ++ r').
Proof.
  induction a as [|x a IH]; intros [|y b] a' b' r r' L E E'; try discriminate.
  - cbn in E. injection E as <-. exact E'.
  - cbn [app ffmap2] in *. destruct (op x y) as [z|]; [|discriminate]. cbn [bind] in *. destruct (ffmap2 op a b) as [r0|] eqn:E0; [|discriminate].
    cbn [bind] in *. injection E as <-. rewrite (IH b a' b' r0 r' ltac:(cbn in L; lia) E0 E'). reflexivity.
Qed.

Section F.
Variable c : cfg.
Hypothesis Hff : ff_ok c.
Notation B := (BASEBITS c).
Notation C := (CHUNK c).
Notation N := (NLEN c).
Notation X := (2 ^ BASEBITS c).
Notation V := (val (BASEBITS c)).
Notation R := (bigR c).
Notation FV := (fval c).
Notation cn := (cn c).
Notation nb := (nb c).
Notation tf := (tf c).
Notation lw := (lw c).
Notation pf := (pf c).
Notation SL := (SL c).
Let Hok := Hok c Hff.
Let HB16 := fB c Hff.
Let HC := fC c Hff.
Let HN2 := fN c Hff.
Let HX := fX c Hff.
Let HXC := fXC c Hff.
Let HRp := R_pos c Hff.
Let HSb := S_big c Hff.
Let HXh := Xh c Hff.

Lemma add_zero_r x : lw 0 (X - 1) x -> add c x (big_new c) = Some x.
Proof.
  intros [L W]. unfold add, big_new. rewrite <- L. clear L. unfold within in W. induction W as [|a x Ha Hx IH]; [reflexivity|].
  cbn [length repeat map2o]. rewrite Z.add_0_r, chk_ok by lia. cbn [bind]. rewrite IH. reflexivity.
Qed.
Lemma add_zero_l x : lw 0 (X - 1) x -> add c (big_new c) x = Some x.
Proof.
  intros [L W]. unfold add, big_new. rewrite <- L. clear L. unfold within in W. induction W as [|a x Ha Hx IH]; [reflexivity|].
  cbn [length repeat map2o]. rewrite Z.add_0_l, chk_ok by lia. cbn [bind]. rewrite IH. reflexivity.
Qed.
Lemma ffadd_zero_r f : Forall (lw 0 (X - 1)) f -> ff_add c f (ff_zero c (length f)) = Some f.
Proof.
  intros H. unfold ff_add, ff_zero. induction H as [|a f Ha Hf IH]; [reflexivity|]. cbn [length repeat ffmap2]. rewrite add_zero_r by exact Ha. cbn [bind].
  rewrite IH. reflexivity.
Qed.
Lemma ffadd_zero_l f : Forall (lw 0 (X - 1)) f -> ff_add c (ff_zero c (length f)) f = Some f.
Proof.
  intros H. unfold ff_add, ff_zero. induction H as [|a f Ha Hf IH]; [reflexivity|]. cbn [length repeat ffmap2]. rewrite add_zero_l by exact Ha. cbn [bind].
  rewrite IH. reflexivity.
Qed.
Lemma rsub_sub : forall a b, rsub c a b = sub c b a.
Proof. unfold rsub, sub. induction a as [|x a IHa]; intros [|y b']; try reflexivity. cbn [map2o]. rewrite (IHa b'). reflexivity. Qed.
Lemma ffrsub_sub : forall a b, length a = length b -> ff_rsub c a b = ff_sub c b a.
Proof.
  unfold ff_rsub, ff_sub. induction a as [|x a IHa]; intros [|y b'] L; try reflexivity; try discriminate. cbn [ffmap2]. rewrite rsub_sub, (IHa b') by (cbn in L; lia). reflexivity.
Qed.
Lemma zero_app a b : ff_zero c (a + b) = ff_zero c a ++ ff_zero c b.
Proof. unfold ff_zero. apply repeat_app. Qed.
Lemma zero_eq f : Forall cn f -> FV f = 0 -> f = ff_zero c (length f).
Proof.
  intros H E. destruct (zero_cn c Hff (length f)) as [A [A' A'']]. apply (cn_inj c Hff); auto; lia.
Qed.
Lemma cn_firstn i f : Forall cn f -> (i <= length f)%nat -> FV (firstn i f) = FV f mod R ^ Z.of_nat i.
Proof.
  intros H L. rewrite <- (firstn_skipn i f) at 2. rewrite (FV_app c Hff), firstn_length_le by exact L. rewrite (Z.mul_comm (R ^ _)), Z.mod_add by (pose proof (Rp c Hff i); lia).
  symmetry. apply Z.mod_small. pose proof (cn_range c Hff _ (Forall_firstn _ i f H)) as Q. rewrite firstn_length_le in Q by exact L. exact Q.
Qed.
Lemma shrw_parts i a b d : length a = i -> length b = i -> shrw c i (a ++ b ++ d) = Some (b ++ ff_zero c i ++ d).
Proof.
  intros La Lb. unfold shrw. rewrite !app_length. replace (2 * i <=? length a + (length b + length d))%nat with true by (symmetry; apply Nat.leb_le; lia).
  rewrite (skipn_l c i a _ La), (firstn_l c i b d Lb). replace (skipn (2 * i) (a ++ b ++ d)) with d; [reflexivity|].
  rewrite app_assoc. symmetry. apply (skipn_l c). rewrite app_length. lia.
Qed.
Lemma shlw_parts i a b d : length a = i -> length b = i -> shlw c i (a ++ b ++ d) = Some (ff_zero c i ++ a ++ d).
Proof.
  intros La Lb. unfold shlw. rewrite !app_length. replace (2 * i <=? length a + (length b + length d))%nat with true by (symmetry; apply Nat.leb_le; lia).
  rewrite (firstn_l c i a _ La). replace (skipn (2 * i) (a ++ b ++ d)) with d; [reflexivity|].
  rewrite app_assoc. symmetry. apply (skipn_l c). rewrite app_length. lia.
Qed.
Lemma parts3 i (f : ff) : (2 * i <= length f)%nat -> exists a b d, f = a ++ b ++ d /\ length a = i /\ length b = i /\ length d = (length f - 2 * i)%nat.
Proof.
  intros L. exists (firstn i f), (firstn i (skipn i f)), (skipn i (skipn i f)). rewrite !firstn_skipn. split; [reflexivity|].
  rewrite !firstn_length, !skipn_length. lia.
Qed.
Lemma low_mod a D M x : 0 < D -> 0 < M -> (D | M) -> x mod M = a mod M -> x mod D = a mod D.
Proof. intros HD HM HDM E. rewrite (Zmod_div_mod D M x), (Zmod_div_mod D M a) by assumption. rewrite E. reflexivity. Qed.

Variable p : ff.
Variable k : nat.
Hypothesis Hk : (k <= 3)%nat.
Hypothesis Lp : length p = (2 ^ k)%nat.
Hypothesis Hp : Forall cn p.
Notation n := (2 ^ k)%nat.
Notation RN := (R ^ Z.of_nat (2 ^ k)).

Lemma ffinv_step w j f : (j < k)%nat -> length w = (2 ^ j)%nat -> pf w -> FV w < 2 * R ^ Z.of_nat (2 ^ j) -> (FV p * FV w) mod R ^ Z.of_nat (2 ^ j) = 1 ->
  exists w', ffinv_loop (S f) c p (w ++ ff_zero c (n - 2 ^ j)) (2 ^ j) = ffinv_loop f c p (w' ++ ff_zero c (n - 2 ^ S j)) (2 ^ S j)
    /\ length w' = (2 ^ S j)%nat /\ pf w' /\ FV w' < 2 * R ^ Z.of_nat (2 ^ S j) /\ (FV p * FV w') mod R ^ Z.of_nat (2 ^ S j) = 1.
Proof.
  intros Hj Lw Hw Vw Inv. destruct HXh as [_ [Xe _]]. rewrite (pow2S j). set (i := (2 ^ j)%nat) in *. pose proof (pow2pos j) as Hi. fold i in Hi.
  assert (Hin : (2 * i <= n)%nat). { unfold i. rewrite <- pow2S. apply Nat.pow_le_mono_r; lia. }
  assert (Hk0 : k <> O) by lia. assert (Hl2 : Nat.log2 n = k) by (apply Nat.log2_pow2; lia).
  pose proof (gk_ok c Hff k Hk) as Gk.
  set (D := R ^ Z.of_nat i) in *. assert (PD : 0 < D) by apply (Rp c Hff).
  assert (HDR : R <= D). { unfold D. rewrite <- (Z.pow_1_r R) at 1. apply Z.pow_le_mono_r; lia. }
  pose proof (R_big c Hff) as HRb.
  assert (DDi : R ^ Z.of_nat (2 * i) = D * D). { replace (2 * i)%nat with (i + i)%nat by lia. apply (RpD c Hff). }
  assert (DRN : (D | RN)). { exists (R ^ Z.of_nat (n - i)). unfold D. rewrite <- (RpD c Hff). f_equal. lia. }
  assert (PRN : 0 < RN) by apply (Rp c Hff).
  assert (DDR : D * D <= RN). { rewrite <- DDi. apply Z.pow_le_mono_r; lia. }
  assert (DlD : D * 2 <= D * D) by (apply Z.mul_le_mono_nonneg_l; lia).
  pose proof (pf_range c Hff w Hw) as Rw. destruct (zero_cn c Hff (n - i)) as [Z1 [Z2 Z3]].
  set (u := w ++ ff_zero c (n - i)) in *.
  assert (Lu : length u = n) by (unfold u; rewrite app_length, Z3; lia).
  assert (Pu : pf u) by (unfold u, FfMul.pf; apply Forall_app; split; [exact Hw|apply (cn_pf c Hff); exact Z1]).
  assert (Vu : FV u = FV w) by (unfold u; rewrite (FV_app c Hff), Z2; lia).
  destruct (parts3 i p ltac:(lia)) as [p0 [p1 [p2 [Ep [Lp0 [Lp1 Lp2]]]]]].
  assert (Hp' := Hp). rewrite Ep in Hp'. apply Forall_app in Hp'. destruct Hp' as [Hp0 Hp']. apply Forall_app in Hp'. destruct Hp' as [Hp1 Hp2].
  assert (Fp0 : firstn i p = p0) by (rewrite Ep; apply (firstn_l c); exact Lp0).
  cbn [ffinv_loop]. rewrite Lp. replace (i <? n)%nat with true by (symmetry; apply Nat.ltb_lt; lia).
  unfold ff_mod2m at 1. rewrite Fp0, Lp.
  assert (Hb0 : Forall cn (p0 ++ ff_zero c (n - i))) by (apply Forall_app; auto).
  destruct (karmul_pp c Hff k u (p0 ++ ff_zero c (n - i)) Lu ltac:(rewrite app_length, Z3; lia) Pu (cn_pf c Hff _ Hb0) Gk) as [t [T1 [T2 [T3 T4]]]].
  unfold ff_mul at 1. rewrite Lu, Hl2, T1. cbn [bind]. rewrite (FV_app c Hff), Z2, Vu, Z.mul_0_r, Z.add_0_r in T4.
  rewrite pow2S in T2. destruct (parts3 i t ltac:(lia)) as [t0 [t1 [t2 [Et [Lt0 [Lt1 Lt2]]]]]].
  rewrite Et in T3. rewrite app_assoc in T3. apply (tf_app c) in T3; [|apply len_ne; lia]. destruct T3 as [T01 Tt2]. apply Forall_app in T01. destruct T01 as [Ht0 Ht1].
  rewrite Et, (shrw_parts i t0 t1 t2 Lt0 Lt1). cbn [bind].
  unfold ff_copy. rewrite !app_length, Lt1, (proj2 (proj2 (zero_cn c Hff i))).
  replace (n <=? i + (i + length t2))%nat with true by (symmetry; apply Nat.leb_le; lia). cbn [bind].
  set (b := firstn n (t1 ++ ff_zero c i ++ t2)).
  assert (Eb : b = t1 ++ ff_zero c i ++ firstn (n - 2 * i) t2).
  { unfold b. rewrite app_assoc, firstn_app, firstn_all2, <- app_assoc by (rewrite app_length, Lt1, (proj2 (proj2 (zero_cn c Hff i))); lia).
    rewrite app_length, Lt1, (proj2 (proj2 (zero_cn c Hff i))). do 3 f_equal. lia. }
  clearbody b.
  assert (Ht2 : Forall cn (firstn (n - 2 * i) t2)).
  { destruct Tt2 as [aa [bb [Eab [Haa _]]]]. rewrite Eab in Lt2 |- *. rewrite app_length in Lt2. cbn in Lt2. rewrite firstn_app.
    replace (n - 2 * i - length aa)%nat with 0%nat by lia. rewrite firstn_O, app_nil_r. apply Forall_firstn. exact Haa. }
  destruct (zero_cn c Hff i) as [Zi1 [Zi2 Zi3]].
  assert (Hb : Forall cn b) by (rewrite Eb; apply Forall_app; split; [exact Ht1|apply Forall_app; auto]).
  assert (Lb : length b = n) by (rewrite Eb, !app_length, firstn_length, Lt1, Zi3; lia).
  (* h *)
  set (h := FV w * FV p0 / D). set (s1 := FV (p1 ++ p2)).
  assert (Vp : FV p = FV p0 + D * s1) by (rewrite Ep, (FV_app c Hff), Lp0; reflexivity).
  assert (Ub : (FV w * FV p0) mod D = 1).
  { rewrite Vp in Inv. rewrite <- Inv. replace ((FV p0 + D * s1) * FV w) with (FV w * FV p0 + s1 * FV w * D) by ring. rewrite Z.mod_add by lia. reflexivity. }
  assert (Ewb : FV w * FV p0 = 1 + D * h).
  { unfold h. rewrite (Z.div_mod (FV w * FV p0) D) at 1 by lia. rewrite Ub. ring. }
  pose proof (cn_range c Hff t0 Ht0) as Rt0. rewrite Lt0 in Rt0. fold D in Rt0.
  assert (Vt : FV t = FV t0 + D * (FV t1 + D * FV t2)).
  { rewrite Et, !(FV_app c Hff), Lt0, Lt1. reflexivity. }
  assert (Vh : h = FV t1 + D * FV t2).
  { assert (E0 : FV t0 = 1). { rewrite <- (Z.mod_small (FV t0) D) by lia. rewrite <- Ub, <- T4, Vt. rewrite (Z.mul_comm D), Z.mod_add by lia. reflexivity. }
    rewrite T4, Ewb, E0 in Vt. apply (Z.mul_reg_l _ _ D); lia. }
  assert (Vb : (D | FV b - h)).
  { rewrite Eb, !(FV_app c Hff), Lt1, Zi2, Vh. fold D. set (g1 := FV (firstn (n - 2 * i) t2)). rewrite Zi3. fold D. exists (D * g1 - FV t2). ring. }
  (* second product *)
  assert (Esh : shrw c i p = Some (p1 ++ ff_zero c i ++ p2)) by (rewrite Ep; apply shrw_parts; assumption). rewrite Esh. cbn [bind]. clear Esh.
  unfold ff_mod2m at 1. rewrite (firstn_l c i p1 _ Lp1). rewrite !app_length, Lp1, Zi3.
  replace (i + (i + length p2) - i)%nat with (n - i)%nat by lia.
  assert (Hc0 : Forall cn (p1 ++ ff_zero c (n - i))) by (apply Forall_app; auto).
  destruct (karlow_pp c Hff k (p1 ++ ff_zero c (n - i)) u ltac:(rewrite app_length, Z3; lia) Lu (cn_pf c Hff _ Hc0) Pu Gk) as [cc [C1 [C2 [_ [C3 C4]]]]].
  specialize (C3 Hk0). unfold ff_lmul at 1. rewrite app_length, Lp1, Z3. replace (i + (n - i))%nat with n by lia. rewrite Hl2, C1. cbn [bind].
  rewrite (FV_app c Hff), Z2, Vu, Z.mul_0_r, Z.add_0_r in C4.
  unfold ff_mod2m at 1. rewrite C2. set (c1 := firstn i cc).
  assert (Hc1 : Forall cn (c1 ++ ff_zero c (n - i))) by (apply Forall_app; split; [apply Forall_firstn; exact C3|exact Z1]).
  assert (Lc1 : length c1 = i) by (unfold c1; rewrite firstn_length; lia).
  assert (Vc1 : FV c1 = (FV p1 * FV w) mod D).
  { unfold c1. rewrite (cn_firstn i cc C3) by lia. fold D. apply (low_mod _ D RN); auto. }
  destruct (ffadd_ok c Hff _ _ _ _ b (c1 ++ ff_zero c (n - i)) (cn_flw c b Hb) (cn_flw c _ Hc1) ltac:(rewrite app_length, Z3; lia) ltac:(lia) ltac:(lia)) as [b1 [B1 [B2 [B3 B4]]]].
  rewrite B1. cbn [bind]. rewrite (FV_app c Hff), Z2, Z.mul_0_r, Z.add_0_r in B4.
  pose proof (cn_range c Hff b Hb) as Rb. rewrite Lb in Rb. pose proof (Z.mod_pos_bound (FV p1 * FV w) D PD) as Rc1. rewrite <- Vc1 in Rc1.
  destruct (rnorm_ok c Hff b1 2) as [b2 [N1 [N2 [N3 N4]]]].
  { apply len_ne. lia. } { eapply (flw_lim c); [exact B3| |]; unfold FfBase.lim; lia. } { rewrite B4, B2, Lb. lia. }
  unfold ff_norm at 1. rewrite N1. cbn [bind].
  destruct (karlow_pp c Hff k b2 u ltac:(lia) Lu (tf_nb c Hff 2 b2 N3 ltac:(lia)) Pu Gk) as [b3 [M1 [M2 [_ [M3 M4]]]]].
  specialize (M3 Hk0). unfold ff_lmul at 1. replace (length b2) with n by lia. rewrite Hl2, M1. cbn [bind]. rewrite Vu in M4.
  unfold ff_mod2m at 1. rewrite M2. set (b4 := firstn i b3).
  assert (Hb4 : Forall cn (b4 ++ ff_zero c (n - i))) by (apply Forall_app; split; [apply Forall_firstn; exact M3|exact Z1]).
  assert (Lb4 : length b4 = i) by (unfold b4; rewrite firstn_length; lia).
  assert (Vb4 : FV b4 = (FV b2 * FV w) mod D).
  { unfold b4. rewrite (cn_firstn i b3 M3) by lia. fold D. apply (low_mod _ D RN); auto. }
  destruct (one_ok c Hff n ltac:(lia)) as [O1 [O2 O3]]. destruct (one_ok c Hff i ltac:(lia)) as [I1 [I2 I3]].
  assert (Eo : ff_one c n = ff_one c i ++ ff_zero c i ++ ff_zero c (n - 2 * i)).
  { unfold ff_one. rewrite <- app_comm_cons. f_equal. fold (ff_zero c (n - 1)). fold (ff_zero c (i - 1)). rewrite <- !zero_app. f_equal. lia. }
  rewrite Eo, (shlw_parts i _ _ _ I2 Zi3). cbn [bind]. set (z2 := ff_zero c (n - 2 * i)). destruct (zero_cn c Hff (n - 2 * i)) as [Y1 [Y2 Y3]]. fold z2 in Y1, Y2, Y3.
  assert (Ho : Forall cn (ff_zero c i ++ ff_one c i ++ z2)) by (apply Forall_app; split; [exact Zi1|apply Forall_app; auto]).
  assert (Lo : length (ff_zero c i ++ ff_one c i ++ z2) = n) by (rewrite !app_length, Zi3, I2, Y3; lia).
  assert (Vo : FV (ff_zero c i ++ ff_one c i ++ z2) = D) by (rewrite !(FV_app c Hff), Zi3, Zi2, I3, Y2; fold D; ring).
  rewrite ffrsub_sub by (rewrite Lo, app_length, Z3; lia).
  destruct (ffsub_ok c Hff _ _ _ _ (ff_zero c i ++ ff_one c i ++ z2) (b4 ++ ff_zero c (n - i)) (cn_flw c _ Ho) (cn_flw c _ Hb4) ltac:(rewrite Lo, app_length, Z3; lia) ltac:(lia) ltac:(lia)) as [b5 [S1 [S2 [S3 S4]]]].
  rewrite S1. cbn [bind]. rewrite Vo, (FV_app c Hff), Z2, Z.mul_0_r, Z.add_0_r in S4. pose proof (Z.mod_pos_bound (FV b2 * FV w) D PD) as Rq. rewrite <- Vb4 in Rq.
  destruct (rnorm_ok c Hff b5 1) as [b6 [Q1 [Q2 [Q3 Q4]]]].
  { apply len_ne. lia. } { eapply (flw_lim c); [exact S3| |]; unfold FfBase.lim; lia. } { rewrite S4, S2, Lo. lia. }
  unfold ff_norm at 1. rewrite Q1. cbn [bind]. apply (tf_cns c Hff) in Q3.
  destruct (parts3 i b6 ltac:(lia)) as [x0 [x1 [x2 [Ex [Lx0 [Lx1 Lx2]]]]]]. rewrite Ex, (shlw_parts i x0 x1 x2 Lx0 Lx1). cbn [bind].
  rewrite Ex in Q3. apply Forall_app in Q3. destruct Q3 as [Hx0 Q3]. apply Forall_app in Q3. destruct Q3 as [Hx1 Hx2].
  pose proof (cn_range c Hff x0 Hx0) as Rx0. rewrite Lx0 in Rx0. fold D in Rx0. pose proof (cn_range c Hff x1 Hx1) as Rx1. pose proof (cn_range c Hff x2 Hx2) as Rx2.
  rewrite Ex, !(FV_app c Hff), Lx0, Lx1, S4 in Q4. fold D in Q4.
  assert (Ex2 : x2 = z2).
  { unfold z2. replace (n - 2 * i)%nat with (length x2) by lia. apply zero_eq; [exact Hx2|]. destruct (Z.eq_dec (FV x2) 0) as [|Hne]; [assumption|exfalso].
    assert (D * 1 <= D * FV x2) by (apply Z.mul_le_mono_nonneg_l; lia). assert (D * D <= D * (FV x1 + D * FV x2)) by (apply Z.mul_le_mono_nonneg_l; lia). lia. }
  subst x2.
  assert (Eu' : ff_add c u (ff_zero c i ++ x0 ++ z2) = Some ((w ++ x0) ++ z2)).
  { unfold u. replace (ff_zero c (n - i)) with (ff_zero c i ++ z2) by (unfold z2; rewrite <- zero_app; f_equal; lia). rewrite <- app_assoc. unfold ff_add.
    apply ffmap2_app; [lia| |apply ffmap2_app; [lia| |]].
    - rewrite <- Lw. apply ffadd_zero_r. apply (pf_flw c Hff). exact Hw.
    - rewrite <- Lx0. apply ffadd_zero_l. apply (cn_flw c). exact Hx0.
    - assert (Ez : ff_add c z2 (ff_zero c (length z2)) = Some z2) by (apply ffadd_zero_r; apply (cn_flw c); exact Y1). rewrite Y3 in Ez. exact Ez. }
  rewrite Eu'. cbn [bind]. exists (w ++ x0). split; [reflexivity|]. rewrite app_length. split; [lia|]. split; [apply Forall_app; split; [exact Hw|apply (cn_pf c Hff); exact Hx0]|].
  rewrite (FV_app c Hff), Lw, DDi. fold D. split.
  { assert (D * FV x0 <= D * (D - 1)) by (apply Z.mul_le_mono_nonneg_l; lia). lia. }
  assert (Vz : (D | FV x0 + (h + FV w * s1) * FV w)).
  { assert (K1 : (D | FV b4 - FV b2 * FV w)) by (apply (mod_div_sub _ _ D D PD (Z.divide_refl D)); rewrite Vb4; apply Z.mod_mod; lia).
    assert (K2 : (D | FV c1 - FV p1 * FV w)) by (apply (mod_div_sub _ _ D D PD (Z.divide_refl D)); rewrite Vc1; apply Z.mod_mod; lia).
    rewrite N4, B4 in K1. destruct K1 as [k1 K1], K2 as [k2 K2], Vb as [k3 K3]. unfold s1. rewrite (FV_app c Hff), Lp1. fold D.
    exists (1 - k1 - k2 * FV w - k3 * FV w - FV x1 + FV w * FV p2 * FV w - D * FV z2).
    replace (FV x0) with (D - FV b4 - D * (FV x1 + D * FV z2)) by lia.
    replace (FV b4) with (k1 * D + (FV b + FV c1) * FV w) by lia. replace (FV b) with (k3 * D + h) by lia. replace (FV c1) with (k2 * D + FV p1 * FV w) by lia. ring. }
  pose proof (newton D D h (FV w) (FV p) (FV p0) s1 (FV x0) PD (Z.divide_refl D) Vp Ewb Vz) as [q Hq].
  rewrite (Z.mul_comm (FV p)). replace ((FV w + D * FV x0) * FV p) with (1 + q * (D * D)) by lia. rewrite Z.mod_add by lia. apply Z.mod_small. lia.
Qed.

Lemma ffinv_loop_ok : forall m w j f, (j + m = k)%nat -> (m < f)%nat -> length w = (2 ^ j)%nat -> pf w -> FV w < 2 * R ^ Z.of_nat (2 ^ j) -> (FV p * FV w) mod R ^ Z.of_nat (2 ^ j) = 1 ->
  exists r, ffinv_loop f c p (w ++ ff_zero c (n - 2 ^ j)) (2 ^ j) = Some r /\ length r = n /\ pf r /\ FV r < 2 * RN /\ (FV p * FV r) mod RN = 1.
Proof.
  induction m as [|m IH]; intros w j f Hj Hf Lw Hw Vw Inv; (destruct f as [|f]; [lia|]).
  - assert (j = k) by lia. subst j. cbn [ffinv_loop]. rewrite Lp, Nat.ltb_irrefl, Nat.sub_diag. change (ff_zero c 0) with (@nil (list Z)). rewrite app_nil_r.
    exists w. auto.
  - destruct (ffinv_step w j f ltac:(lia) Lw Hw Vw Inv) as [w' [E1 [E2 [E3 [E4 E5]]]]]. rewrite E1. apply IH; auto; lia.
Qed.

(** ** the inverse modulo R^n used by every Montgomery reduction *)
Lemma ffinv_ok : MODBYTES c < 65536 -> FV p mod 2 = 1 ->
  exists nd, ff_invmod2m c p = Some nd /\ length nd = n /\ pf nd /\ (FV p * FV nd) mod RN = 1.
Proof.
  intros HM Odd. destruct HXh as [_ [Xe _]]. assert (Hn : (1 <= n)%nat) by apply pow2pos. destruct p as [|p0 t] eqn:Ep; [cbn in Lp; lia|]. rewrite <- Ep in *.
  assert (Hp0 : cn p0) by (rewrite Ep in Hp; apply Forall_cons_iff in Hp; apply Hp). unfold ff_invmod2m.
  assert (E0 : nth 0 p [] = p0) by (rewrite Ep; reflexivity). rewrite E0.
  assert (Vp : FV p = V p0 + R * FV t) by (rewrite Ep; reflexivity).
  destruct (R_even c Hff) as [_ Er]. set (r2 := R / 2) in *.
  assert (O0 : V p0 mod 2 = 1). { rewrite Vp, Er in Odd. replace (V p0 + 2 * r2 * FV t) with (V p0 + r2 * FV t * 2) in Odd by ring. rewrite Z.mod_add in Odd by lia. exact Odd. }
  assert (Hcap : 8 * MODBYTES c < B * Z.of_nat N).
  { apply (Z.pow_lt_mono_r_iff 2); [lia|apply Z.mul_nonneg_nonneg; lia|]. rewrite (KSR c Hff). fold (bigR c). assert (256 * R <= SL * R) by (apply Z.mul_le_mono_nonneg_r; lia). lia. }
  destruct (invmod2m_spec c Hok p0 (proj1 Hp0) O0 HM Hcap) as [u0 [U1 [U2 [U3 U4]]]]. rewrite U1. cbn [bind]. fold (bigR c) in U3, U4.
  assert (Nu : nb 2 u0). { destruct U2 as [L W]. split; [exact L|]. split; [apply canon_nrm; exact W|]. pose proof (canon_val B u0 ltac:(lia) W). lia. }
  destruct (ffinv_loop_ok k [u0] 0 (length p)) as [r [R1 [R2 [R3 [R4 R5]]]]].
  - lia.
  - rewrite Lp. apply Nat.pow_gt_lin_r. lia.
  - reflexivity.
  - constructor; [exact Nu|constructor].
  - change (Z.of_nat (2 ^ 0)) with 1. rewrite Z.pow_1_r. cbn [fval]. unfold bval. lia.
  - change (Z.of_nat (2 ^ 0)) with 1. rewrite Z.pow_1_r. cbn [fval]. unfold bval. rewrite Z.mul_0_r, Z.add_0_r, Vp.
    replace ((V p0 + R * FV t) * V u0) with (V u0 * V p0 + FV t * V u0 * R) by ring. rewrite Z.mod_add by lia. exact U4.
  - rewrite Lp in R1 |- *. change (2 ^ 0)%nat with 1%nat in R1. cbn [app] in R1. rewrite R1. cbn [bind]. pose proof (pf_range c Hff r R3) as Rr.
    destruct (rnorm_ok c Hff r 2) as [nd [N1 [N2 [N3 N4]]]].
    { apply len_ne. lia. } { eapply (flw_lim c); [apply (pf_flw c Hff); exact R3| |]; unfold FfBase.lim; lia. } { rewrite R2. lia. }
    unfold ff_norm. rewrite N1. exists nd. split; [reflexivity|]. split; [lia|]. split; [apply (tf_nb c Hff 2 nd N3); lia|]. rewrite N4. exact R5.
Qed.
End F.
