(** FP12 powers of cyclotomic elements. *)
From Verif Require Import Base.Word Base.Arr Model.Big Model.Roms Model.Fp Model.Fp2 Model.Fp4 Model.Fp12 Spec.BigSpec Spec.RomSpec Spec.FpSpec Spec.TowerSpec Spec.TowerRep
  Proof.BigVal Proof.BigShift Proof.BigMisc Proof.BigMod Proof.BigBytes Proof.NumTheory Proof.FpBase Proof.FpRed Proof.FpOps Proof.FpIv Proof.Fp2Ops Proof.Fp4Step Proof.Fp4Ops Proof.TowerRing Proof.Fp12Ops Proof.Fp12Sparse Proof.TowerInv.
From Coq Require Import Znumtheory.

Definition cyclo (p : Z) (v : Z12) : Prop := eq12 p (mul12 v (conj12 v)) one12 /\ eq4 p (norm12 v) one4.
Section Cyc.
Variable p : Z.
Hypothesis Hpr : prime p.
Let Hp0 : p <> 0. Proof. pose proof (prime_ge_2 p Hpr). lia. Qed.
Lemma cyclo_one : cyclo p one12.
Proof. split; [apply eq12_refl|apply eq4_refl]. Qed.
Lemma cyclo_mul u v : cyclo p u -> cyclo p v -> cyclo p (mul12 u v).
Proof.
  intros [A B] [C D]. split.
  - rewrite conj12_mul. replace (mul12 _ _) with (mul12 (mul12 u (conj12 u)) (mul12 v (conj12 v))) by ring. replace one12 with (mul12 one12 one12) by ring. apply eq12_mul; assumption.
  - rewrite norm12_mul. replace one4 with (mul4 one4 one4) by ring. apply eq4_mul; assumption.
Qed.
Lemma cyclo_pow v n : cyclo p v -> cyclo p (pow12 v n).
Proof. intros H. induction n as [|n IH]; cbn [pow12]; [apply cyclo_one|]. apply cyclo_mul; assumption. Qed.
Lemma pow12_add v n m : pow12 v (n + m) = mul12 (pow12 v n) (pow12 v m).
Proof. induction n as [|n IH]; cbn [pow12 Nat.add]; [ring|]. rewrite IH. ring. Qed.
End Cyc.

Section Pow.
Variable r : rom.
Hypothesis Hf : fp_ok r.
Hypothesis Ht : tower_ok r.
Hypothesis Hpr : prime (pmod r).
Notation p := (pmod r).
Notation c := (r_cfg r).
Let Hp0 : p <> 0. Proof. pose proof (p_pos r Hf). lia. Qed.
Let HFX : 16383 <= FEXCESS r. Proof. exact (proj1 (proj2 Ht)). Qed.
Lemma rep12_cong e x v v' : eq12 p v v' -> rep12 r e x v -> rep12 r e x v'.
Proof. rewrite <- !el12_rep by exact Hf. apply el12_cong. exact Hf. Qed.
Lemma usqr_sq e x v : 6 * e <= 524288 -> cyclo p v -> rep12 r e x v -> exists z, fp12_usqr r x = Some z /\ rep12 r 1 z (mul12 v v).
Proof.
  intros He [C1 C2] H. destruct (usqr12_ok r Hf Ht e x v He H) as [z [E [Q _]]]. exists z. split; [exact E|]. apply (rep12_cong _ _ _ _ (gs12_sqr p Hpr v C1 C2) Q).
Qed.
Lemma pinpow_loop_ok k : forall e n x y v, cyclo p v -> rep12 r 11172 x (pow12 v n) -> rep12 r 11172 y (pow12 v (S n)) -> 0 <= e -> n = Z.to_nat (Z.shiftr e (Z.of_nat k)) ->
  exists z, fp12_pinpow_loop r k e x y = Some z /\ rep12 r 11172 z (pow12 v (Z.to_nat e)).
Proof.
  induction k as [|k IH]; intros e n x y v Hc Hx Hy He En.
  - cbn [fp12_pinpow_loop]. exists x. split; [reflexivity|]. rewrite Z.shiftr_0_r in En. rewrite <- En. exact Hx.
  - assert (S0 : Z.shiftr e (Z.of_nat k) = 2 * Z.shiftr e (Z.of_nat (S k)) + Z.b2z (Z.odd (Z.shiftr e (Z.of_nat k)))).
    { replace (Z.of_nat (S k)) with (Z.of_nat k + 1) by lia. rewrite <- Z.shiftr_shiftr by lia. rewrite <- Z.div2_spec. pose proof (Z.div2_odd (Z.shiftr e (Z.of_nat k))) as D. exact D. }
    assert (P0 : 0 <= Z.shiftr e (Z.of_nat (S k))) by (apply Z.shiftr_nonneg; exact He).
    cbn [fp12_pinpow_loop]. destruct (Z.odd (Z.shiftr e (Z.of_nat k))); cbn [Z.b2z] in S0.
    + destruct (mul12_ok r Hf Ht 11172 11172 x y _ _ ltac:(lia) Hx Hy) as [m [Em [Qm _]]]. rewrite Em. cbn [bind].
      destruct (usqr_sq 11172 y _ ltac:(lia) (cyclo_pow p Hpr v (S n) Hc) Hy) as [s [Es Qs]]. rewrite Es. cbn [bind].
      apply (IH e (n + S n)%nat m s v Hc); [rewrite pow12_add; exact Qm| |exact He|lia].
      replace (S (n + S n)) with (S n + S n)%nat by lia. rewrite pow12_add. apply (rep12_mono r Hf 1); [lia|exact Qs].
    + destruct (mul12_ok r Hf Ht 11172 11172 y x _ _ ltac:(lia) Hy Hx) as [m [Em [Qm _]]]. rewrite Em. cbn [bind].
      destruct (usqr_sq 11172 x _ ltac:(lia) (cyclo_pow p Hpr v n Hc) Hx) as [s [Es Qs]]. rewrite Es. cbn [bind].
      apply (IH e (n + n)%nat s m v Hc); [| |exact He|lia].
      * rewrite pow12_add. apply (rep12_mono r Hf 1); [lia|exact Qs].
      * replace (S (n + n)) with (S n + n)%nat by lia. rewrite pow12_add. exact Qm.
Qed.
Lemma one12_ok : exists z, fp12_new_int r 1 = Some z /\ rep12 r 2 z one12.
Proof.
  unfold fp12_new_int, fp4_new_int, fp2_new_int. assert (HX : 0 <= 1 < 2 ^ BASEBITS c). { pose proof (cf_B c (cfg_ok_facts c (ff_ok r (fp_ok_facts r Hf)))). pose proof (pow2_le 1 (BASEBITS c) ltac:(lia)). lia. }
  destruct (inewint r Hf 1 HX) as [f [E Q]]. rewrite E. cbn [bind]. eexists. split; [reflexivity|].
  pose proof (inew r Hf) as N. pose proof (frep_mono r Hf 0 1 1 0 1 2 _ _ ltac:(lia) ltac:(lia) ltac:(lia) N) as N2.
  repeat split; cbn; try exact Q; try exact N2; try apply Q; apply N2.
Qed.

(** the digit recoding of pow *)
Lemma pow_loop_ok k : forall e1 e3 e x w v n, FEXCESS r <= 87381 -> cyclo p v -> big_wf c e1 -> big_wf c e3 -> bval c e1 = e -> bval c e3 = 3 * e -> 0 <= e ->
  Z.of_nat k < BASEBITS c * Z.of_nat (NLEN c) - 1 ->
  rep12 r (FEXCESS r) x v -> rep12 r (FEXCESS r) w (pow12 v n) -> Z.of_nat n = Z.shiftr (3 * e) (Z.of_nat (S k)) - Z.shiftr e (Z.of_nat (S k)) ->
  exists z, fp12_pow_loop r k e1 e3 x w = Some z /\ rep12 r 1 z (pow12 v (Z.to_nat e)).
Proof.
  induction k as [|k IH]; intros e1 e3 e x w v n HF Hc W1 W3 V1 V3 He Hk Hx Hw En.
  - cbn [fp12_pow_loop]. destruct (reduce12_ok r Hf _ _ _ Hw) as [z [E [Q _]]]. exists z. split; [exact E|]. replace (Z.to_nat e) with n; [exact Q|].
    rewrite !Z.shiftr_div_pow2 in En by lia. change (2 ^ Z.of_nat 1) with 2 in En. assert (M : (3 * e) / 2 - e / 2 = e). { pose proof (Z.div_mod e 2 ltac:(lia)) as D. pose proof (Z.mod_pos_bound e 2 ltac:(lia)).
      assert (D3 : 3 * e = e mod 2 + (3 * (e / 2) + e mod 2) * 2) by lia. rewrite D3 at 1. rewrite Z.div_add by lia. rewrite (Z.div_small (e mod 2)) by lia. lia. }
    lia.
  - cbn [fp12_pow_loop]. destruct (usqr_sq (FEXCESS r) w _ ltac:(lia) (cyclo_pow p Hpr v n Hc) Hw) as [s [Es Qs]]. rewrite Es. cbn [bind].
    pose proof (cf_B c (cfg_ok_facts c (ff_ok r (fp_ok_facts r Hf)))) as HB. pose proof (cf_C c (cfg_ok_facts c (ff_ok r (fp_ok_facts r Hf)))) as HC. pose proof W1 as [L1 C1]. pose proof W3 as [L3 C3].
    rewrite (bit_spec c ltac:(lia) HC e3) by (try assumption; lia). cbn [bind].
    rewrite (bit_spec c ltac:(lia) HC e1) by (try assumption; lia). cbn [bind].
    fold (bval c e3) (bval c e1). rewrite V1, V3. set (i := Z.of_nat (S k)) in *. cbv zeta.
    assert (S2 : forall a, Z.shiftr a i = 2 * Z.shiftr a (i + 1) + Z.b2z (Z.testbit a i)).
    { intros a. pose proof (Z.div2_odd (Z.shiftr a i)) as D. rewrite Z.div2_spec, Z.shiftr_shiftr in D by lia. rewrite <- Z.bit0_odd in D. rewrite Z.shiftr_spec in D by lia. rewrite Z.add_0_l in D. exact D. }
    pose proof (S2 e) as Se. pose proof (S2 (3 * e)) as S3. clear S2. replace (Z.of_nat (S (S k))) with (i + 1) in En by lia.
    assert (G : Z.shiftr e i <= Z.shiftr (3 * e) i). { rewrite !Z.shiftr_div_pow2 by lia. apply Z.div_le_mono; [apply pow2_pos; lia|lia]. }
    pose proof (rep12_mono r Hf 1 (FEXCESS r) s _ ltac:(lia) Qs) as Qs'. rewrite <- pow12_add in Qs'.
    assert (Hk' : Z.of_nat k < BASEBITS c * Z.of_nat (NLEN c) - 1) by lia.
    destruct (Z.testbit (3 * e) i), (Z.testbit e i); cbn [Z.b2z] in *; cbn [Z.sub Z.add Z.opp Z.eqb Pos.eqb Z.pos_sub]; cbn [bind].
    + apply (IH e1 e3 e x s v (n + n)%nat); try assumption. fold i. lia.
    + destruct (mul12_ok r Hf Ht (FEXCESS r) (FEXCESS r) s x _ _ ltac:(lia) Qs' Hx) as [m [Em [Qm _]]]. rewrite Em. cbn [bind].
      apply (IH e1 e3 e x m v (S (n + n))%nat); try assumption.
      * apply (rep12_mono r Hf 11172); [lia|]. cbn [pow12]. replace (mul12 v (pow12 v (n + n))) with (mul12 (pow12 v (n + n)) v) by ring. exact Qm.
      * fold i. lia.
    + destruct (conj12_ok r Hf _ _ _ Hx) as [y [Ey [Qy _]]]. rewrite Ey. cbn [bind]. apply rep12_cap in Qy.
      destruct (mul12_ok r Hf Ht (FEXCESS r) (FEXCESS r) s y _ _ ltac:(lia) Qs' Qy) as [m [Em [Qm _]]]. rewrite Em. cbn [bind].
      destruct (conj12_ok r Hf _ _ _ Qy) as [y' [Ey' [Qy' _]]]. rewrite Ey'. cbn [bind]. apply rep12_cap in Qy'.
      apply (IH e1 e3 e y' m v (pred (n + n))%nat); try assumption.
      * replace v with (conj12 (conj12 v)); [exact Qy'|]. destruct v as [[[? ?] [? ?]] [? ?]]. unfold conj12, conj4, neg4, c0, c1, c2. cbn [fst snd]. apply f_equal2; [apply f_equal2|]; apply f_equal2; ring.
      * apply (rep12_mono r Hf 11172); [lia|]. assert (N1 : (n + n = S (pred (n + n)))%nat) by lia. rewrite N1 in Qm. cbn [pow12] in Qm.
        apply (rep12_cong _ _ (mul12 (mul12 v (pow12 v (Nat.pred (n + n)))) (conj12 v))); [|exact Qm].
        replace (mul12 (mul12 v (pow12 v (Nat.pred (n + n)))) (conj12 v)) with (mul12 (mul12 v (conj12 v)) (pow12 v (Nat.pred (n + n)))) by ring.
        replace (pow12 v (Nat.pred (n + n))) with (mul12 one12 (pow12 v (Nat.pred (n + n)))) at 2 by ring. apply eq12_mul; [exact Hp0|exact (proj1 Hc)|apply eq12_refl].
      * fold i. lia.
    + apply (IH e1 e3 e x s v (n + n)%nat); try assumption. fold i. lia.
Qed.
Lemma pow12_ok eb x v ex : FEXCESS r <= 87381 -> cyclo p v -> big_wf c ex -> 0 < bval c ex -> 3 * bval c ex < bmax c -> rep12 r eb x v ->
  exists z, fp12_pow r x ex = Some z /\ rep12 r 1 z (pow12 v (Z.to_nat (bval c ex))).
Proof.
  intros HF Hc We He H3 Hx. pose proof (ff_ok r (fp_ok_facts r Hf)) as Hok. unfold fp12_pow.
  destruct (norm12_ok r Hf _ _ _ Hx) as [y [Ey Qy]]. rewrite Ey. cbn [bind]. rewrite (norm_wf c Hok ex We). cbn [bind].
  assert (HX : 0 <= 3 < 2 ^ BASEBITS c). { pose proof (cf_B c (cfg_ok_facts c Hok)). pose proof (pow2_le 2 (BASEBITS c) ltac:(lia)). change (2 ^ 2) with 4 in *. lia. }
  destruct (pmul_spec c Hok ex 3 We HX) as [t [e3 [Em [W3 [Ht3 V3]]]]]. rewrite Em. cbn [bind snd]. rewrite (norm_wf c Hok e3 W3). cbn [bind].
  assert (HV : forall w, bval c w = val (BASEBITS c) w) by reflexivity. rewrite <- !HV in V3.
  assert (R3 : 0 <= bval c e3 < bmax c) by exact (wf_range c Hok (NLEN c) e3 W3).
  assert (T0 : t = 0). { destruct (Z.eq_dec t 0) as [E|E]; [exact E|]. assert (bmax c * 1 <= bmax c * t) by (apply Z.mul_le_mono_nonneg_l; lia). lia. }
  subst t. rewrite Z.mul_0_r, Z.add_0_r in V3. rewrite (nbits_spec c Hok e3 e3 (norm_wf c Hok e3 W3) (proj2 W3)). cbn [bind]. rewrite <- HV.
  set (e := bval c ex) in *. destruct (Z.eqb_spec (bval c e3) 0) as [E|_]; [lia|]. set (L := Z.log2 (bval c e3)) in *.
  assert (HL : 2 ^ L <= 3 * e < 2 ^ (L + 1)). { pose proof (Z.log2_spec (bval c e3) ltac:(lia)) as S0. fold L in S0. rewrite V3 in S0. unfold Z.succ in S0. lia. }
  assert (L1 : 1 <= L). { unfold L. change 1 with (Z.log2 3). apply Z.log2_le_mono. lia. }
  destruct (Z.eqb_spec (L + 1) 0) as [E|_]; [lia|]. replace (L + 1 - 2) with (L - 1) by ring.
  assert (LB : L < BASEBITS c * Z.of_nat (NLEN c)). { unfold L. apply Z.log2_lt_pow2; [lia|]. exact (proj2 R3). }
  apply (pow_loop_ok _ ex e3 e y y v 1%nat); try assumption; try reflexivity; try lia.
  - apply rep12_cap with eb. exact Qy.
  - cbn [pow12]. replace (mul12 v one12) with v by ring. apply rep12_cap with eb. exact Qy.
  - replace (Z.of_nat (S (Z.to_nat (L - 1)))) with L by lia. rewrite !Z.shiftr_div_pow2 by lia. rewrite Z.pow_add_r in HL by lia. change (2 ^ 1) with 2 in HL.
    assert (E1 : 3 * e / 2 ^ L = 1). { symmetry. apply Z.div_unique with (3 * e - 2 ^ L); lia. } rewrite E1. rewrite Z.div_small by lia. reflexivity.
Qed.
Lemma pinpow_ok eb x v e bts : 4 * eb <= 44688 -> cyclo p v -> 0 <= bts <= 32 -> 0 <= e < 2 ^ bts -> rep12 r eb x v ->
  exists z, fp12_pinpow r x e bts = Some z /\ rep12 r 11172 z (pow12 v (Z.to_nat e)).
Proof.
  intros He Hc Hb H0 Hx. unfold fp12_pinpow. destruct (Z.ltb_spec 32 bts) as [H|_]; [lia|]. destruct one12_ok as [o [Eo Qo]]. rewrite Eo. cbn [bind].
  apply (pinpow_loop_ok _ e 0%nat); [exact Hc| | |lia|].
  - apply (rep12_mono r Hf 2); [lia|exact Qo].
  - cbn [pow12]. replace (mul12 v one12) with v by ring. apply (rep12_mono r Hf eb); [lia|exact Hx].
  - rewrite Z2Nat.id by lia. rewrite Z.shiftr_div_pow2, Z.div_small by lia. reflexivity.
Qed.
End Pow.
