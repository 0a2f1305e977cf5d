(** Each field operation of fp.rs keeps the representation invariant and denotes the operation of Z/p. *)
From Verif Require Import Base.Word Model.Big Model.Roms Model.Fp Spec.BigSpec Spec.RomSpec Spec.FpSpec Spec.Bytes
  Proof.BigVal Proof.BigShift Proof.BigBytes Proof.BigMul Proof.BigSqr Proof.BigMonty Proof.BigMod Proof.BigInv Proof.BigMisc Proof.NumTheory Proof.FpBase Proof.FpRed.
From Coq Require Import Psatz Zpow_facts Znumtheory.

Lemma cg_add p a b a' b' : a mod p = a' mod p -> b mod p = b' mod p -> (a + b) mod p = (a' + b') mod p.
Proof. intros H1 H2. rewrite (Zplus_mod a b), (Zplus_mod a' b'), H1, H2. reflexivity. Qed.
Lemma cg_sub p a b a' b' : a mod p = a' mod p -> b mod p = b' mod p -> (a - b) mod p = (a' - b') mod p.
Proof. intros H1 H2. rewrite (Zminus_mod a b), (Zminus_mod a' b'), H1, H2. reflexivity. Qed.
Lemma cg_mul p a b a' b' : a mod p = a' mod p -> b mod p = b' mod p -> (a * b) mod p = (a' * b') mod p.
Proof. intros H1 H2. rewrite (Zmult_mod a b), (Zmult_mod a' b'), H1, H2. reflexivity. Qed.
Lemma cg_opp p a a' : a mod p = a' mod p -> (- a) mod p = (- a') mod p.
Proof. intros H. rewrite <- (Z.sub_0_l a), <- (Z.sub_0_l a'). apply cg_sub; [reflexivity|exact H]. Qed.

Section Fp.
Variable r : rom.
Hypothesis Hf : fp_ok r.
Notation c := (r_cfg r).
Notation B := (BASEBITS (r_cfg r)).
Notation C := (CHUNK (r_cfg r)).
Notation N := (NLEN (r_cfg r)).
Notation X := (2 ^ BASEBITS (r_cfg r)).
Notation V := (val (BASEBITS (r_cfg r))).
Notation p := (pmod r).
Notation R := (bmax (r_cfg r)).
Notation SH := (2 ^ r_SH r).
Let FF := fp_ok_facts r Hf.
Let Hok : cfg_ok c. Proof. exact (ff_ok r FF). Qed.
Let F := cfg_ok_facts c Hok.
Let HB16 : 16 <= B. Proof. exact (cf_B c F). Qed.
Let HC : B + 3 <= C. Proof. exact (cf_C c F). Qed.
Let HN2 : (2 <= N)%nat. Proof. exact (cf_N c F). Qed.
Let HX : 65536 <= X.
Proof. change 65536 with (2 ^ 16). apply pow2_le. lia. Qed.
Let HXC : 4 * X <= 2 ^ (C - 1).
Proof. change 4 with (2 ^ 2). rewrite <- Z.pow_add_r by lia. apply pow2_le. lia. Qed.
Let HM : 3 * X <= Mlim c. Proof. apply Mlim_ge; lia. Qed.
Let Hp : 2 ^ 199 <= p := p_big r Hf.
Let Hp0 : 0 < p := p_pos r Hf.
Let HSH : 32 <= SH := SH_pos r Hf.
Let HSp : SH * p < R := SHp_lt r Hf.

Lemma maxg_X : maxg r * X = 2 ^ (C - 1).
Proof. unfold maxg. rewrite <- Z.pow_add_r by lia. f_equal. lia. Qed.
Lemma maxg_ge : 4 <= maxg r.
Proof. unfold maxg. change 4 with (2 ^ 2). apply pow2_le. lia. Qed.
Lemma gX g : g <= maxg r -> g * X <= 2 ^ (C - 1).
Proof. intros H. rewrite <- maxg_X. apply Z.mul_le_mono_nonneg_r; lia. Qed.
Lemma graded_mono g g' w : 1 <= g <= g' -> graded r g w -> graded r g' w.
Proof.
  intros H Hg. eapply within_weaken; [exact Hg| |].
  - assert ((g - 1) * (X - 1) <= (g' - 1) * (X - 1)) by (apply Z.mul_le_mono_nonneg_r; lia). lia.
  - apply Z.mul_le_mono_nonneg_r; lia.
Qed.
Lemma legal_mono g g' f : 1 <= g <= g' -> legal r g f -> legal r g' f.
Proof. intros H [A [B' D]]. split; [exact A|]. split; [eapply graded_mono; eassumption|exact D]. Qed.
Lemma rep_mono g g' f v : 1 <= g <= g' -> fp_rep r g f v -> fp_rep r g' f v.
Proof. intros H [A B']. split; [eapply legal_mono; eassumption|exact B']. Qed.
Lemma rep_cong g f v v' : v mod p = v' mod p -> fp_rep r g f v -> fp_rep r g f v'.
Proof. intros H [A D]. split; [exact A|]. unfold den in *. rewrite D. apply cg_mul; [exact H|reflexivity]. Qed.
(** the denotation is unique *)
Lemma den_inj f v v' : den r f v -> den r f v' -> v mod p = v' mod p.
Proof. unfold den. intros H1 H2. apply (mod_cancel v v' (fK r) p Hp0 (gcd_K r Hf)). congruence. Qed.
Lemma val_lt_R f : fxes f <= FEXCESS r -> V (fx f) < fxes f * p -> V (fx f) < R.
Proof. unfold FEXCESS. intros H1 H2. assert (fxes f * p <= SH * p) by (apply Z.mul_le_mono_nonneg_r; lia). lia. Qed.
Lemma legal_wf f : legal r 1 f -> big_wf c (fx f).
Proof. intros [A [D _]]. apply (graded_wf r Hf); assumption. Qed.

(** ** reduce, norm, and the conditional reduction *)
Lemma reduce_legal g f : 1 <= g <= maxg r -> length (fx f) = N -> graded r g (fx f) -> 1 <= fxes f <= 2 ^ (r_SH r + 1) -> 0 <= V (fx f) < fxes f * p ->
  exists f', fp_reduce r f = Some f' /\ fxes f' = 1 /\ legal r 1 f' /\ V (fx f') = V (fx f) mod p.
Proof.
  intros Hg Hl Hgr Hx Hv. destruct (reduce_spec r Hf f g Hl ltac:(lia) (gX g ltac:(lia)) Hgr Hx Hv) as [y [E1 [E2 E3]]].
  exists (mkfp y 1). split; [exact E1|]. split; [reflexivity|]. cbn [fx fxes]. split; [|exact E3].
  split; [exact (proj1 E2)|]. split; [apply (wf_graded r Hf); exact E2|]. cbn [fx fxes]. unfold FEXCESS. split; [lia|].
  unfold bval. rewrite E3. pose proof (Z.mod_pos_bound (V (fx f)) p Hp0). lia.
Qed.
Lemma reduce_rep g f v : 1 <= g <= maxg r -> fp_rep r g f v ->
  exists f', fp_reduce r f = Some f' /\ fxes f' = 1 /\ fp_rep r 1 f' v /\ bval c (fx f') = (v * fK r) mod p.
Proof.
  intros Hg [[A1 [A2 [A3 A4]]] D]. assert (ES : 2 ^ (r_SH r + 1) = 2 * SH) by (apply pow2_S; pose proof (ff_S5 r FF); lia). unfold FEXCESS in A3.
  destruct (reduce_legal g f Hg A1 A2 ltac:(lia) A4) as [f' [E1 [E2 [E3 E4]]]].
  exists f'. split; [exact E1|]. split; [exact E2|]. unfold den in D. split; [|unfold bval; rewrite E4; exact D].
  split; [exact E3|]. unfold den, bval. rewrite E4, Z.mod_mod by lia. exact D.
Qed.
Lemma norm_rep g f v : 1 <= g <= maxg r -> fp_rep r g f v ->
  exists f', fp_norm r f = Some f' /\ fxes f' = fxes f /\ fp_rep r 1 f' v.
Proof.
  intros Hg [[A1 [A2 [A3 A4]]] D]. unfold fp_norm.
  destruct (norm_to_wf c Hok g (fx f) ltac:(lia) (gX g ltac:(lia)) A1 A2) as [x [E1 [E2 E3]]].
  { split; [apply A4|]. apply val_lt_R; [lia|apply A4]. }
  rewrite E1. cbn [bind]. eexists. split; [reflexivity|]. cbn [fxes]. split; [reflexivity|]. split; [|unfold den, bval in *; cbn [fx]; rewrite E2; exact D].
  split; [exact (proj1 E3)|]. split; [apply (wf_graded r Hf); exact E3|]. cbn [fx fxes]. split; [exact A3|]. unfold bval in *. rewrite E2. exact A4.
Qed.
Lemma over_rep g f : 1 <= g <= maxg r -> length (fx f) = N -> graded r g (fx f) -> 1 <= fxes f <= 2 ^ (r_SH r + 1) -> 0 <= V (fx f) < fxes f * p ->
  exists f', fp_over r f = Some f' /\ legal r g f' /\ V (fx f') mod p = V (fx f) mod p.
Proof.
  intros Hg Hl Hgr Hx Hv. unfold fp_over. destruct (Z.ltb_spec (FEXCESS r) (fxes f)) as [L|L].
  - destruct (reduce_legal g f Hg Hl Hgr Hx Hv) as [f' [E1 [E2 [E3 E4]]]]. exists f'. split; [exact E1|].
    split; [eapply legal_mono; [|exact E3]; lia|]. rewrite E4. apply Z.mod_mod. lia.
  - exists f. split; [reflexivity|]. split; [|reflexivity]. split; [exact Hl|]. split; [exact Hgr|]. split; [lia|exact Hv].
Qed.

(** ** addition, doubling, negation, subtraction *)
Lemma S31 : 2 * SH <= 2 ^ (32 - 1) - 1.
Proof. assert (SH <= 2 ^ 28) by (apply pow2_le; pose proof (ff_S5 r FF); lia). change (2 ^ 28) with 268435456 in H. change (2 ^ (32 - 1)) with 2147483648. lia. Qed.
Lemma ES1 : 2 ^ (r_SH r + 1) = 2 * SH.
Proof. apply pow2_S; pose proof (ff_S5 r FF); lia. Qed.

Lemma add_rep g1 g2 a b u v : 1 <= g1 -> 1 <= g2 -> g1 + g2 <= maxg r -> fp_rep r g1 a u -> fp_rep r g2 b v ->
  exists f, fp_add r a b = Some f /\ fp_rep r (g1 + g2) f (u + v).
Proof.
  intros H1 H2 Hg [[A1 [A2 [A3 A4]]] DA] [[B1 [B2 [B3 B4]]] DB]. unfold fp_add. pose proof (gX _ Hg) as HgX. pose proof S31 as H31. pose proof ES1 as HES.
  assert (Q1 : (g1 + g2) * (X - 1) = g1 * (X - 1) + g2 * (X - 1)) by ring.
  destruct (add_total c ltac:(lia) HC _ _ _ _ (fx a) (fx b) A2 B2 ltac:(lia)) as [x [E1 E2]]; [lia|lia|].
  rewrite E1. cbn [bind]. destruct (add_val c _ _ _ E1 ltac:(lia)) as [E3 E4]. unfold FEXCESS in A3, B3.
  rewrite chk_ok by (change (2 ^ (32 - 1)) with 2147483648 in *; lia). cbn [bind].
  destruct (over_rep (g1 + g2) (mkfp x (fxes a + fxes b))) as [f [F1 [F2 F3]]]; cbn [fx fxes]; try lia.
  - eapply within_weaken; [exact E2|lia|lia].
  - unfold bval in A4, B4. rewrite E3. lia.
  - exists f. split; [exact F1|]. split; [exact F2|]. unfold den, bval in *. cbn [fx] in F3. rewrite F3, E3, Z.mul_add_distr_r. apply cg_add; assumption.
Qed.
Lemma dbl_rep g a u : 1 <= g -> 2 * g <= maxg r -> fp_rep r g a u ->
  exists f, fp_dbl r a = Some f /\ fp_rep r (2 * g) f (2 * u).
Proof.
  intros Hg Hg2 HA. destruct (add_rep g g a a u u Hg Hg ltac:(lia) HA HA) as [f [E1 E2]]. exists f.
  replace (2 * g) with (g + g) by lia. replace (2 * u) with (u + u) by lia. split; [|exact E2]. rewrite <- E1. unfold fp_dbl, fp_add.
  assert (E : forall w, dbl c w = add c w w). { intros w. unfold dbl, add. induction w as [|x w IH]; [reflexivity|]. cbn [map1o map2o]. rewrite IH. reflexivity. }
  rewrite E. reflexivity.
Qed.
Lemma neg_rep g a u : 1 <= g -> g + 1 <= maxg r -> fp_rep r g a u ->
  exists f, fp_neg r a = Some f /\ fp_rep r (g + 1) f (- u).
Proof.
  intros Hg Hg2 [[A1 [A2 [A3 A4]]] DA]. unfold fp_neg. pose proof (gX _ Hg2) as HgX. pose proof S31 as H31. pose proof ES1 as HES. unfold FEXCESS in A3.
  assert (W31 : 2 ^ (32 - 1) = 2147483648) by reflexivity. assert (W32 : 2 ^ 32 = 4294967296) by reflexivity.
  rewrite chk_ok by lia. cbn [bind]. rewrite wrapu_id by lia. rewrite logb2_spec by lia.
  pose proof (blen_spec (fxes a - 1) ltac:(lia)) as [L1 [L2 L3]].
  pose proof (blen_le (fxes a - 1) (r_SH r) ltac:(pose proof (ff_S5 r FF); lia) ltac:(lia)) as L4.
  set (sb := blen (fxes a - 1)) in *.
  assert (Hsb : 2 ^ sb <= SH) by (apply pow2_le; lia).
  assert (Hpsb : p * 2 ^ sb < R). { assert (p * 2 ^ sb <= p * SH) by (apply Z.mul_le_mono_nonneg_l; lia). lia. }
  pose proof (ff_wf r FF) as [M1 M2].
  assert (HSB : r_SH r + 2 <= B). { pose proof (ff_S2 r FF). pose proof (ff_hB r FF). lia. }
  destruct (fshl_spec c ltac:(lia) HC (r_MODULUS r) sb ltac:(lia) ltac:(lia) (canon_nrm _ _ M2)) as [m [E1 [E2 [E3 E4]]]].
  { split; [apply Z.mul_nonneg_nonneg; [apply (canon_last c); [lia|exact M2]|apply Z.lt_le_incl, pow2_pos; lia]|].
    rewrite (nrm_top r Hf _ M1 (canon_nrm _ _ M2)). change (V (r_MODULUS r)) with p. pose proof (E0_pos r Hf) as HE0. pose proof (R_E0 r Hf) as ER.
    pose proof (Z.mul_div_le p (E0 r) HE0) as Q. assert (E0 r * (p / E0 r * 2 ^ sb) < E0 r * X).
    { assert ((E0 r * (p / E0 r)) * 2 ^ sb <= p * 2 ^ sb) by (apply Z.mul_le_mono_nonneg_r; [apply Z.lt_le_incl, pow2_pos; lia|lia]). lia. }
    apply (Z.mul_lt_mono_pos_l (E0 r)) in H; lia. }
  rewrite E1. cbn [bind]. change (V (r_MODULUS r)) with p in E2.
  assert (Wm : within 0 (X - 1) m).
  { apply canon_within. apply (nrm_canon B m N); [lia|exact E3|lia|]. rewrite E2. change (2 ^ (B * Z.of_nat N)) with R.
    split; [apply Z.mul_nonneg_nonneg; [lia|apply Z.lt_le_incl, pow2_pos; lia]|exact Hpsb]. }
  assert (Er : rsub c (fx a) m = sub c m (fx a)).
  { unfold rsub, sub. clear. generalize (fx a). induction m as [|y m IH]; intros [|x w]; cbn [map2o]; try reflexivity. rewrite IH. reflexivity. }
  rewrite Er.
  assert (Q1 : (g + 1) * (X - 1) = g * (X - 1) + (X - 1)) by ring. assert (Q2 : (g - 1) * (X - 1) = g * (X - 1) - (X - 1)) by ring.
  destruct (sub_total c ltac:(lia) HC _ _ _ _ m (fx a) Wm A2 ltac:(lia)) as [x [S1 S2]]; [lia|lia|].
  rewrite S1. cbn [bind]. destruct (sub_val c _ _ _ S1 ltac:(lia)) as [S3 S4].
  pose proof (ff_S5 r FF) as HS5. destruct (Z.leb_spec 32 (sb + 1)) as [L|_]; [lia|]. rewrite Z.shiftl_mul_pow2, Z.mul_1_l by lia.
  assert (E5 : 2 ^ (sb + 1) = 2 * 2 ^ sb) by (apply pow2_S; lia). assert (P2 : 0 < 2 ^ sb) by (apply pow2_pos; lia).
  rewrite wrap_id by lia. unfold bval in A4.
  assert (Q3 : fxes a * p <= p * 2 ^ sb). { rewrite Z.mul_comm. apply Z.mul_le_mono_nonneg_l; lia. }
  destruct (over_rep (g + 1) (mkfp x (2 ^ (sb + 1)))) as [f [F1 [F2 F3]]]; cbn [fx fxes]; try lia.
  - eapply within_weaken; [exact S2|lia|lia].
  - exists f. split; [exact F1|]. split; [exact F2|]. unfold den, bval in *. cbn [fx] in F3. rewrite F3, S3, E2.
    rewrite Z.mul_opp_l. rewrite <- (Z.sub_0_l (u * fK r)). apply cg_sub; [|exact DA]. rewrite Z.mod_0_l by lia. rewrite Z.mul_comm. apply Z.mod_mul. lia.
Qed.
Lemma sub_rep g1 g2 a b u v : 1 <= g1 -> 1 <= g2 -> g1 + g2 + 1 <= maxg r -> fp_rep r g1 a u -> fp_rep r g2 b v ->
  exists f, fp_sub r a b = Some f /\ fp_rep r (g1 + g2 + 1) f (u - v).
Proof.
  intros H1 H2 Hg HA HB. unfold fp_sub. destruct (neg_rep g2 b v H2 ltac:(lia) HB) as [n [E1 E2]]. rewrite E1. cbn [bind].
  destruct (add_rep g1 (g2 + 1) a n u (- v) H1 ltac:(lia) ltac:(lia) HA E2) as [f [E3 E4]]. exists f. split; [exact E3|].
  replace (g1 + g2 + 1) with (g1 + (g2 + 1)) by lia. replace (u - v) with (u + - v) by lia. exact E4.
Qed.
Lemma rsub_rep g1 g2 a b u v : 1 <= g1 -> 1 <= g2 -> g1 + g2 + 1 <= maxg r -> fp_rep r g1 a u -> fp_rep r g2 b v ->
  exists f, fp_rsub r a b = Some f /\ fp_rep r (g1 + g2 + 1) f (v - u).
Proof.
  intros H1 H2 Hg HA HB. unfold fp_rsub. destruct (neg_rep g1 a u H1 ltac:(lia) HA) as [n [E1 E2]]. rewrite E1. cbn [bind].
  destruct (add_rep (g1 + 1) g2 n b (- u) v ltac:(lia) H2 ltac:(lia) E2 HB) as [f [E3 E4]]. exists f. split; [exact E3|].
  replace (g1 + g2 + 1) with (g1 + 1 + g2) by lia. replace (v - u) with (- u + v) by lia. exact E4.
Qed.

(** ** multiplication *)
Lemma mod_rep d w : dbig_wf c d -> V d < MX r * p * p -> V d mod p = (w * fK r * fK r) mod p ->
  exists x, fp_modulo r d = Some x /\ fp_rep r 1 (mkfp x 2) w.
Proof.
  intros Hd Hlt Hw. destruct (modulo_spec r Hf d Hd Hlt) as [x [E1 [E2 [E3 E4]]]]. exists x. split; [exact E1|].
  pose proof (wf_range c Hok N x E2) as Rx. split.
  - split; [exact (proj1 E2)|]. split; [apply (wf_graded r Hf); exact E2|]. cbn [fx fxes]. unfold FEXCESS, bval. split; [lia|]. lia.
  - unfold den, bval. cbn [fx]. apply (mod_cancel _ _ (fK r) p Hp0 (gcd_K r Hf)). congruence.
Qed.
Definition mulok (a b : fp) : Prop := MX r = FEXCESS r \/ fxes a * fxes b <= MX r.
Lemma mul_bound xa xb ka kb : 0 <= xa < ka * p -> 0 <= xb < kb * p -> ka * kb <= MX r -> 0 <= ka -> 0 <= kb -> xa * xb < MX r * p * p.
Proof.
  intros H1 H2 H3 H4 H5.
  assert (xa * xb <= (ka * p) * xb) by (apply Z.mul_le_mono_nonneg_r; lia).
  assert (0 < ka * p) by lia. assert ((ka * p) * xb < (ka * p) * (kb * p)) by (apply Z.mul_lt_mono_pos_l; lia).
  assert (ka * kb * (p * p) <= MX r * (p * p)) by (apply Z.mul_le_mono_nonneg_r; [apply Z.mul_nonneg_nonneg; lia|lia]). lia.
Qed.
Lemma mul_rep a b u v : mulok a b -> fp_rep r 1 a u -> fp_rep r 1 b v ->
  exists f, fp_mul r a b = Some f /\ fxes f = 2 /\ fp_rep r 1 f (u * v).
Proof.
  intros Hm HA HB. unfold fp_mul. pose proof (MX_le r Hf) as HMX.
  assert (G : exists a1, (if FEXCESS r <? fxes a * fxes b then fp_reduce r a else Some a) = Some a1 /\ fp_rep r 1 a1 u /\ fxes a1 * fxes b <= MX r).
  { destruct (Z.ltb_spec (FEXCESS r) (fxes a * fxes b)) as [L|L].
    - destruct (reduce_rep 1 a u ltac:(pose proof maxg_ge; lia) HA) as [a1 [E1 [E2 [E3 _]]]]. exists a1. split; [exact E1|]. split; [exact E3|].
      rewrite E2. destruct Hm as [Hm|Hm]; [|lia]. destruct HB as [[_ [_ [Hx _]]] _]. lia.
    - exists a. split; [reflexivity|]. split; [exact HA|]. destruct Hm; lia. }
  destruct G as [a1 [E1 [HA1 Hb]]]. rewrite E1. cbn [bind].
  destruct (mul_spec c Hok (fx a1) (fx b) (legal_wf _ (proj1 HA1)) (legal_wf _ (proj1 HB))) as [d [D1 [D2 D3]]].
  rewrite D1. cbn [bind]. destruct HA1 as [[_ [_ [X1 X2]]] X3]. destruct HB as [[_ [_ [Y1 Y2]]] Y3]. unfold bval, den in *.
  destruct (mod_rep d (u * v) D2) as [x [M1 M2]].
  - rewrite D3. apply (mul_bound _ _ (fxes a1) (fxes b)); lia.
  - rewrite D3. replace (u * v * fK r * fK r) with (u * fK r * (v * fK r)) by ring. apply cg_mul; assumption.
  - rewrite M1. cbn [bind]. eexists. split; [reflexivity|]. split; [reflexivity|exact M2].
Qed.
Lemma sqr_rep a u : mulok a a -> fp_rep r 1 a u ->
  exists f, fp_sqr r a = Some f /\ fxes f = 2 /\ fp_rep r 1 f (u * u).
Proof.
  intros Hm HA. unfold fp_sqr. pose proof (MX_le r Hf) as HMX. pose proof (MX_ge r Hf) as HMG.
  assert (G : exists a1, (if FEXCESS r <? fxes a * fxes a then fp_reduce r a else Some a) = Some a1 /\ fp_rep r 1 a1 u /\ fxes a1 * fxes a1 <= MX r).
  { destruct (Z.ltb_spec (FEXCESS r) (fxes a * fxes a)) as [L|L].
    - destruct (reduce_rep 1 a u ltac:(pose proof maxg_ge; lia) HA) as [a1 [E1 [E2 [E3 _]]]]. exists a1. split; [exact E1|]. split; [exact E3|].
      rewrite E2. lia.
    - exists a. split; [reflexivity|]. split; [exact HA|]. destruct Hm; lia. }
  destruct G as [a1 [E1 [HA1 Hb]]]. rewrite E1. cbn [bind].
  destruct (sqr_spec c Hok (fx a1) (legal_wf _ (proj1 HA1))) as [d [D1 [D2 D3]]].
  rewrite D1. cbn [bind]. destruct HA1 as [[_ [_ [X1 X2]]] X3]. unfold bval, den in *.
  destruct (mod_rep d (u * u) D2) as [x [M1 M2]].
  - rewrite D3. apply (mul_bound _ _ (fxes a1) (fxes a1)); lia.
  - rewrite D3. replace (u * u * fK r * fK r) with (u * fK r * (u * fK r)) by ring. apply cg_mul; assumption.
  - rewrite M1. cbn [bind]. eexists. split; [reflexivity|]. split; [reflexivity|exact M2].
Qed.
(** products of results of products never need the goldilocks side condition *)
Lemma mulok_small a b : 0 <= fxes a <= 5 -> 0 <= fxes b <= 5 -> mulok a b.
Proof.
  intros Ha Hb. right. pose proof (MX_ge r Hf). assert (fxes a * fxes b <= 5 * 5) by (apply Z.mul_le_mono_nonneg; lia). lia.
Qed.

(** ** constants *)
Lemma new_rep : fp_rep r 1 (fp_new r) 0.
Proof.
  assert (W : big_wf c (big_new c)) by (apply (zero_wf c Hok)).
  assert (E : V (big_new c) = 0) by (apply val_repeat0).
  split; [|unfold den, bval; cbn [fp_new fx]; rewrite E; reflexivity].
  split; [exact (proj1 W)|]. split; [apply (wf_graded r Hf); exact W|]. cbn [fp_new fx fxes]. unfold FEXCESS, bval. rewrite E. lia.
Qed.
Lemma nres_rep x : big_wf c x -> (special r = true -> bval c x < p) -> exists f, fp_nres r x = Some f /\ fxes f <= 2 /\ fp_rep r 1 f (bval c x).
Proof.
  intros Hx Hs. pose proof (wf_range c Hok N x Hx) as Rx. change (cap c N) with R in Rx. unfold fp_nres, fp_rep, legal, den, fK. destruct (special r) eqn:Es.
  - specialize (Hs eq_refl). eexists. split; [reflexivity|]. cbn [fx fxes]. split; [lia|]. unfold bval in *. rewrite Z.mul_1_r. split; [|reflexivity].
    split; [exact (proj1 Hx)|]. split; [apply (wf_graded r Hf); exact Hx|]. unfold FEXCESS. lia.
  - destruct (mul_spec c Hok x (r_R2MODP r) Hx (ff_R2wf r FF)) as [d [D1 [D2 D3]]]. rewrite D1. cbn [bind].
    pose proof (wf_range c Hok N _ (ff_R2wf r FF)) as RR. pose proof (ff_R2lt r FF) as RL. unfold bval in *.
    assert (Hlt : V d < p * R).
    { rewrite D3. assert (V x * V (r_R2MODP r) <= R * V (r_R2MODP r)) by (apply Z.mul_le_mono_nonneg_r; lia).
      assert (R * V (r_R2MODP r) < R * p) by (apply Z.mul_lt_mono_pos_l; lia). lia. }
    destruct (modulo_ns r Hf d Es D2 Hlt) as [y [E1 [E2 [E3 E4]]]]. rewrite E1. cbn [bind]. eexists. split; [reflexivity|]. cbn [fx fxes]. split; [lia|].
    pose proof (wf_range c Hok N y E2) as Ry. split.
    + split; [exact (proj1 E2)|]. split; [apply (wf_graded r Hf); exact E2|]. unfold FEXCESS. lia.
    + assert (GK : Z.gcd R p = 1). { pose proof (gcd_K r Hf) as G. unfold fK in G. rewrite Es in G. exact G. }
      apply (mod_cancel _ _ R p Hp0 GK). rewrite E4, D3.
      pose proof (ff_red r FF) as Hr. unfold rom_red in Hr. unfold special in Es. destruct (r_MODTYPE r); try discriminate; [|contradiction].
      destruct Hr as [Hr _]. unfold bval in Hr. change (V (r_MODULUS r)) with p in Hr. rewrite Hr. rewrite <- Z.mul_assoc. apply cg_mul; [reflexivity|]. apply Z.mod_mod. lia.
Qed.
Lemma one_wf : big_wf c (big_one c) /\ V (big_one c) = 1.
Proof.
  unfold big_one. split.
  - split; [cbn [length]; rewrite repeat_length; lia|]. constructor; [lia|]. apply (Forall_forall _ (repeat 0 _)). intros x Hx. apply repeat_spec in Hx. lia.
  - cbn [val]. rewrite val_repeat0. lia.
Qed.
Lemma one_rep : exists f, fp_one r = Some f /\ fxes f <= 2 /\ fp_rep r 1 f 1.
Proof.
  destruct one_wf as [W E]. destruct (nres_rep (big_one c) W) as [f [E1 [E2 E3]]].
  - intros _. unfold bval. rewrite E. lia.
  - exists f. unfold bval in E3. rewrite E in E3. auto.
Qed.
Lemma new_int_rep k : 0 <= k < X -> exists f, fp_new_int r k = Some f /\ fxes f <= 2 /\ fp_rep r 1 f k.
Proof.
  intros Hk. unfold fp_new_int.
  assert (Z0 : big_wf c (big_new c)) by (apply (zero_wf c Hok)).
  assert (E : exists x, inc c (big_new c) k = Some x /\ big_wf c x /\ V x = k).
  { unfold inc. rewrite (norm_canon_id c ltac:(lia) HC) by exact (proj2 Z0). cbn [bind]. unfold big_new. destruct N as [|n] eqn:En; [lia|]. cbn [repeat].
    rewrite wrap_id by lia. rewrite Z.add_0_l, chk_ok by lia. cbn [bind]. eexists. split; [reflexivity|]. split.
    - split; [cbn [length]; rewrite repeat_length; lia|]. constructor; [lia|]. apply (Forall_forall _ (repeat 0 _)). intros x Hx. apply repeat_spec in Hx. lia.
    - cbn [val]. rewrite val_repeat0. lia. }
  destruct E as [x [E1 [E2 E3]]]. rewrite E1. cbn [bind]. destruct (nres_rep x E2) as [f [F1 [F2 F3]]].
  - intros _. unfold bval. rewrite E3. assert (X <= 2 ^ 64) by (apply pow2_le; pose proof (ff_C64 r FF); lia). assert (2 ^ 64 <= 2 ^ 199) by (apply pow2_le; lia). lia.
  - exists f. unfold bval in F3. rewrite E3 in F3. auto.
Qed.
End Fp.
