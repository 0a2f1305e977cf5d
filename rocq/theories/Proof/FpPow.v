(** imul, div2, comparisons, conditional moves, exponentiation, inversion and square roots of fp.rs. *)
From Verif Require Import Base.Word Model.Big Model.Roms Model.Fp Spec.BigSpec Spec.RomSpec Spec.FpSpec Spec.Bytes
  Proof.BigVal Proof.BigShift Proof.BigBytes Proof.BigMul Proof.BigSqr Proof.BigMonty Proof.BigMod Proof.BigInv Proof.BigMisc Proof.BigInv2m Proof.NumTheory Proof.FpBase Proof.FpRed Proof.FpOps.
From Coq Require Import Psatz Zpow_facts Znumtheory.

Section Fp.
Variable r : rom.
Hypothesis Hf : fp_ok r.
Notation c := (r_cfg r).
Notation B := (BASEBITS (r_cfg r)).
Notation C := (CHUNK (r_cfg r)).
Notation N := (NLEN (r_cfg r)).
Notation X := (2 ^ BASEBITS (r_cfg r)).
Notation V := (val (BASEBITS (r_cfg r))).
Notation p := (pmod r).
Notation R := (bmax (r_cfg r)).
Notation SH := (2 ^ r_SH r).
Let FF := fp_ok_facts r Hf.
Let Hok : cfg_ok c. Proof. exact (ff_ok r FF). Qed.
Let F := cfg_ok_facts c Hok.
Let HB16 : 16 <= B. Proof. exact (cf_B c F). Qed.
Let HC : B + 3 <= C. Proof. exact (cf_C c F). Qed.
Let HN2 : (2 <= N)%nat. Proof. exact (cf_N c F). Qed.
Let HX : 65536 <= X.
Proof. change 65536 with (2 ^ 16). apply pow2_le. lia. Qed.
Let HXC : 4 * X <= 2 ^ (C - 1).
Proof. change 4 with (2 ^ 2). rewrite <- Z.pow_add_r by lia. apply pow2_le. lia. Qed.
Let HM : 3 * X <= Mlim c. Proof. apply Mlim_ge; lia. Qed.
Let Hp : 2 ^ 199 <= p := p_big r Hf.
Let Hp0 : 0 < p := p_pos r Hf.
Let HSH : 32 <= SH := SH_pos r Hf.
Let HSp : SH * p < R := SHp_lt r Hf.
Let Hmg : 4 <= maxg r := maxg_ge r Hf.

(** ** multiplication by a small integer *)
Lemma X64 : X <= 2 ^ 64.
Proof. apply pow2_le. pose proof (ff_C64 r FF). lia. Qed.
Lemma imul_pos_rep a u k : (special r = true \/ 1 <= k) -> 0 <= k < X -> (special r = true \/ fxes a * k < 2 ^ 31) -> fp_rep r 1 a u ->
  exists f, fp_imul r a k = Some f /\ fp_rep r 1 f (u * k).
Proof.
  intros Hk0 Hk Hov HA. pose proof HA as [[A1 [A2 [A3 A4]]] DA]. unfold fp_imul. destruct (Z.ltb_spec k 0) as [L|_]; [lia|]. cbn [bind].
  pose proof (legal_wf r Hf a (proj1 HA)) as WA. unfold FEXCESS in A3. unfold bval in A4. pose proof X64 as H64.
  destruct (special r) eqn:Es.
  - destruct (pxmul_spec c Hok (fx a) k WA Hk) as [d [D1 [D2 D3]]]. rewrite D1. cbn [bind].
    assert (K1 : fK r = 1) by (unfold fK; rewrite Es; reflexivity).
    destruct (mod_rep r Hf d (u * k) D2) as [x [E1 E2]].
    + rewrite D3. pose proof (MX_ge r Hf) as M31.
      assert (V (fx a) * k <= (fxes a * p) * k) by (apply Z.mul_le_mono_nonneg_r; lia).
      assert ((fxes a * k) * p <= (SH * 2 ^ 64) * p). { apply Z.mul_le_mono_nonneg_r; [lia|]. apply Z.mul_le_mono_nonneg; lia. }
      assert (SH <= 2 ^ 28) by (apply pow2_le; pose proof (ff_S5 r FF); lia).
      assert (SH * 2 ^ 64 <= 2 ^ 28 * 2 ^ 64) by (apply Z.mul_le_mono_nonneg_r; lia).
      assert (2 ^ 28 * 2 ^ 64 <= 2 ^ 199) by (rewrite <- Z.pow_add_r by lia; apply pow2_le; lia).
      assert (SH * 2 ^ 64 * p <= p * p) by (apply Z.mul_le_mono_nonneg_r; lia).
      assert (31 * (p * p) <= MX r * (p * p)) by (apply Z.mul_le_mono_nonneg_r; [apply Z.mul_nonneg_nonneg; lia|lia]).
      assert (0 < p * p) by (apply Z.mul_pos_pos; lia). lia.
    + rewrite D3, K1, !Z.mul_1_r. apply cg_mul; [|reflexivity]. unfold den, bval in DA. rewrite K1, Z.mul_1_r in DA. exact DA.
    + rewrite E1. cbn [bind]. exists (mkfp x 2). split; [reflexivity|exact E2].
  - destruct Hk0 as [Hk0|Hk0]; [discriminate|]. destruct Hov as [Hov|Hov]; [discriminate|].
    assert (W31 : 2 ^ (32 - 1) = 2147483648) by reflexivity. change (2 ^ 31) with 2147483648 in Hov.
    assert (K31 : 1 * k <= fxes a * k) by (apply Z.mul_le_mono_nonneg_r; lia).
    assert (0 <= fxes a * k) by (apply Z.mul_nonneg_nonneg; lia).
    rewrite wrap_id by lia. rewrite chk_ok by lia. cbn [bind].
    destruct (Z.leb_spec (fxes a * k) (FEXCESS r)) as [L|L].
    + destruct (pmul_spec c Hok (fx a) k WA Hk) as [t [x [E1 [E2 [E3 E4]]]]]. rewrite E1. cbn [bind snd].
      pose proof (wf_range c Hok N x E2) as Rx. change (cap c N) with R in Rx.
      assert (Hv : V (fx a) * k < fxes a * k * p).
      { assert (V (fx a) * k < (fxes a * p) * k) by (apply Z.mul_lt_mono_pos_r; lia). lia. }
      unfold FEXCESS in L.
      assert (Hlt : fxes a * k * p <= SH * p) by (apply Z.mul_le_mono_nonneg_r; lia).
      assert (t = 0). { assert (R * t < R * 1); [|apply Z.mul_lt_mono_pos_l in H0; lia]. lia. } subst t. rewrite Z.mul_0_r, Z.add_0_r in E4.
      exists (mkfp x (fxes a * k)). split; [reflexivity|]. split.
      * split; [exact (proj1 E2)|]. split; [apply (wf_graded r Hf); exact E2|]. cbn [fx fxes]. unfold FEXCESS, bval. split; lia.
      * unfold den, bval in *. cbn [fx]. rewrite E4. replace (u * k * fK r) with (u * fK r * k) by ring. apply cg_mul; [exact DA|reflexivity].
    + destruct (new_int_rep r Hf k Hk) as [n [E1 [E2 E3]]]. rewrite E1. cbn [bind].
      destruct (mul_rep r Hf a n u k) as [f [F1 [F2 F3]]]; [|exact HA|exact E3|rewrite F1; cbn [bind]; exists f; split; [reflexivity|exact F3]].
      left. unfold MX, special in *. destruct (r_MODTYPE r); try reflexivity; discriminate.
Qed.
Lemma imul_neg_rep a u k : - X < k < 0 -> (special r = true \/ fxes a * - k < 2 ^ 31) -> fp_rep r 1 a u ->
  exists f, fp_imul r a k = Some f /\ fp_rep r 1 f (u * k).
Proof.
  intros Hk Hov HA. destruct (imul_pos_rep a u (- k) ltac:(right; lia) ltac:(lia) Hov HA) as [y [E1 E2]].
  unfold fp_imul in *. destruct (Z.ltb_spec (- k) 0) as [L|_]; [lia|]. destruct (Z.ltb_spec k 0) as [_|L]; [|lia].
  rewrite chk_ok by lia. cbn [bind] in *.
  match type of E1 with bind ?e _ = _ => destruct e as [y'|]; cbn [bind] in E1; [|discriminate] end. inv E1. cbn [bind].
  destruct (neg_rep r Hf 1 y (u * - k) ltac:(lia) ltac:(lia) E2) as [z [Z1 Z2]]. rewrite Z1. cbn [bind].
  destruct (norm_rep r Hf (1 + 1) z (- (u * - k)) ltac:(lia) Z2) as [f [F1 [F2 F3]]]. exists f. split; [exact F1|].
  replace (u * k) with (- (u * - k)) by ring. exact F3.
Qed.

(** ** halving *)
Lemma div2_rep a u w : fp_rep r 1 a u -> (2 * w) mod p = u mod p -> exists f, fp_div2 r a = Some f /\ fp_rep r 1 f w.
Proof.
  intros HA Hw. pose proof HA as [[A1 [A2 [A3 A4]]] DA]. pose proof (legal_wf r Hf a (proj1 HA)) as WA. unfold fp_div2. unfold FEXCESS in A3. unfold bval in A4.
  assert (Hne : fx a <> []) by (intros E; rewrite E in A1; cbn in A1; lia).
  assert (H0 : 0 <= get (fx a) 0) by (pose proof (canon_get B (fx a) 0 ltac:(lia) (proj2 WA)); lia).
  rewrite (parity_spec c ltac:(lia) (fx a) Hne H0).
  assert (Hp2 : p mod 2 = 1) by (pose proof (ff_odd r FF) as O; rewrite Zmod_odd, O; reflexivity).
  assert (HSp' : (fxes a + 1) * p <= SH * p) by (apply Z.mul_le_mono_nonneg_r; lia).
  assert (G : exists x, (if V (fx a) mod 2 =? 0 then Some (fx a) else y <- add c (fx a) (r_MODULUS r) ;; norm c y) = Some x /\ big_wf c x
     /\ V x mod 2 = 0 /\ V x mod p = V (fx a) mod p /\ 0 <= V x < 2 * (fxes a * p)).
  { destruct (Z.eqb_spec (V (fx a) mod 2) 0) as [E|E].
    - exists (fx a). repeat (split; [first [reflexivity|assumption|lia]|]). lia.
    - destruct (add_total c ltac:(lia) HC 0 (X - 1) 0 (X - 1) (fx a) (r_MODULUS r)) as [y [E1 E2]]; try lia.
      + apply canon_within. exact (proj2 WA).
      + apply canon_within. exact (proj2 (ff_wf r FF)).
      + rewrite (proj1 (ff_wf r FF)). exact A1.
      + destruct (add_val c _ _ _ E1 ltac:(rewrite (proj1 (ff_wf r FF)); exact A1)) as [E3 E4]. change (V (r_MODULUS r)) with p in E3. rewrite E1. cbn [bind].
        destruct (norm_to_wf c Hok 2 y ltac:(lia) ltac:(lia)) as [x [N1 [N2 N3]]]; [lia| |rewrite E3; unfold bmax in *; lia|].
        { eapply within_weaken; [exact E2|lia|lia]. }
        rewrite N1. exists x. split; [reflexivity|]. split; [exact N3|]. rewrite N2, E3. split; [|split].
        * rewrite Zplus_mod, Hp2. assert (V (fx a) mod 2 = 1) by (pose proof (Z.mod_pos_bound (V (fx a)) 2 ltac:(lia)); lia). rewrite H. reflexivity.
        * rewrite <- (Z.mul_1_l p) at 1. apply Z.mod_add. lia.
        * assert (1 * p <= fxes a * p) by (apply Z.mul_le_mono_nonneg_r; lia). lia. }
  destruct G as [x [E1 [E2 [E3 [E4 E5]]]]]. rewrite E1. cbn [bind].
  assert (Hnx : x <> []) by (intros E; destruct E2 as [E2 _]; rewrite E in E2; cbn in E2; lia).
  destruct (fshr_spec c ltac:(lia) HC x 1 ltac:(lia) (canon_nrm _ _ (proj2 E2)) Hnx) as [y [Y1 [Y2 [Y3 Y4]]]]. rewrite Y1. cbn [bind snd].
  change (2 ^ 1) with 2 in Y2. assert (Ey : V x = 2 * V y) by (rewrite Y2; apply Z_div_exact_full_2; lia).
  assert (Wy : big_wf c y). { split; [rewrite Y4; exact (proj1 E2)|]. apply (nrm_canon B y N); [lia|exact Y3|rewrite Y4; exact (proj1 E2)|]. pose proof (wf_range c Hok N x E2) as Q. change (cap c N) with (2 ^ (B * Z.of_nat N)) in Q. lia. }
  eexists. split; [reflexivity|]. split.
  - split; [exact (proj1 Wy)|]. split; [apply (wf_graded r Hf); exact Wy|]. cbn [fx fxes]. unfold FEXCESS, bval. split; lia.
  - unfold den, bval in *. cbn [fx].
    assert (G2 : Z.gcd 2 p = 1). { change 2 with (2 ^ 1). apply gcd_pow2_odd; [lia|exact (ff_odd r FF)]. }
    apply (mod_cancel _ _ 2 p Hp0 G2). rewrite (Z.mul_comm (V y)), <- Ey, E4, DA. replace (w * fK r * 2) with (2 * w * fK r) by ring.
    apply cg_mul; [symmetry; exact Hw|reflexivity].
Qed.

(** ** comparisons *)
Lemma eqK u v : (u * fK r) mod p = (v * fK r) mod p <-> u mod p = v mod p.
Proof. split; intros H; [apply (mod_cancel u v (fK r) p Hp0 (gcd_K r Hf) H)|apply cg_mul; [exact H|reflexivity]]. Qed.
Lemma iszilch_rep g a u : 1 <= g <= maxg r -> fp_rep r g a u -> fp_iszilch r a = Some (u mod p =? 0).
Proof.
  intros Hg HA. destruct (reduce_rep r Hf g a u Hg HA) as [f [E1 [E2 [E3 E4]]]]. unfold fp_iszilch. rewrite E1. cbn [bind]. f_equal.
  rewrite (iszilch_spec c ltac:(lia)) by (apply canon_nrm; exact (proj2 (legal_wf r Hf f (proj1 E3)))). unfold bval in E4. rewrite E4.
  destruct (Z.eqb_spec (u mod p) 0) as [E|E].
  - apply Z.eqb_eq. rewrite Zmult_mod, E. reflexivity.
  - apply Z.eqb_neq. intros E'. apply E. rewrite <- (Z.mod_0_l p) by lia. apply eqK. rewrite Z.mul_0_l, Z.mod_0_l by lia. exact E'.
Qed.
Lemma equals_rep g1 g2 a b u v : 1 <= g1 <= maxg r -> 1 <= g2 <= maxg r -> fp_rep r g1 a u -> fp_rep r g2 b v ->
  fp_equals r a b = Some (u mod p =? v mod p).
Proof.
  intros H1 H2 HA HB. destruct (reduce_rep r Hf g1 a u H1 HA) as [f [E1 [E2 [E3 E4]]]]. destruct (reduce_rep r Hf g2 b v H2 HB) as [s [S1 [S2 [S3 S4]]]].
  unfold fp_equals. rewrite E1, S1. cbn [bind]. f_equal. pose proof (legal_wf r Hf f (proj1 E3)) as [L1 W1]. pose proof (legal_wf r Hf s (proj1 S3)) as [L2 W2].
  rewrite (comp_eq c ltac:(lia)) by (first [apply canon_nrm; assumption|lia]). unfold bval in *. rewrite E4, S4.
  destruct (Z.eqb_spec (u mod p) (v mod p)) as [E|E]; [apply Z.eqb_eq, eqK, E|apply Z.eqb_neq; intros E'; apply E, eqK, E'].
Qed.
(** redc of a fully reduced element is the canonical residue *)
Lemma redc_rep g a u : 1 <= g <= maxg r -> fp_rep r g a u -> exists f x, fp_reduce r a = Some f /\ fp_redc r f = Some x /\ big_wf c x /\ bval c x = u mod p.
Proof.
  intros Hg HA. destruct (reduce_rep r Hf g a u Hg HA) as [f [E1 [E2 [E3 E4]]]]. exists f. pose proof (legal_wf r Hf f (proj1 E3)) as W. unfold fp_redc.
  unfold fK in E4. destruct (special r) eqn:Es.
  - exists (fx f). rewrite Z.mul_1_r in E4. auto.
  - destruct (scopy_spec c Hok (fx f) W) as [W2 V2]. unfold bval in *.
    pose proof (Z.mod_pos_bound (u * R) p Hp0) as Rg.
    unfold fp_modulo. pose proof (ff_red r FF) as Hr. unfold rom_red in Hr. unfold special in Es. destruct (r_MODTYPE r) eqn:Et; try discriminate; [|contradiction].
    destruct Hr as [_ [Hmc _]].
    assert (H2 : 2 * p < R). { assert (2 * p <= SH * p) by (apply Z.mul_le_mono_nonneg_r; lia). lia. }
    destruct (monty_spec c Hok (r_MODULUS r) (scopy c (fx f)) (r_MCONST r) (ff_wf r FF) W2 Hmc) as [x [q [R1 [R2 [R3 R4]]]]].
    { change (val B (r_MODULUS r)) with p. rewrite V2, E4. assert (2 * p * R <= R * R) by (apply Z.mul_le_mono_nonneg_r; lia).
      assert (p * 1 <= p * R) by (apply Z.mul_le_mono_nonneg_l; lia). unfold bmax in *. lia. }
    exists x. split; [exact E1|]. split; [exact R1|]. split; [exact R2|]. change (val B (r_MODULUS r)) with p in R4. rewrite V2, E4 in R4.
    change (2 ^ (B * Z.of_nat N)) with R in R3, R4. pose proof (wf_range c Hok N x R2) as Rx.
    assert (Hlt : V x < p). { assert (q * p <= (R - 1) * p) by (apply Z.mul_le_mono_nonneg_r; lia). apply (Z.mul_lt_mono_pos_r R); lia. }
    rewrite <- (Z.mod_small (V x) p) by lia. apply eqK. unfold fK, special. rewrite Et. rewrite R4, Z.mod_add by lia. apply Z.mod_mod. lia.
Qed.

(** ** conditional move and swap *)
Lemma fp_cmove_ok a b d : length (fx a) = length (fx b) -> (d = 0 \/ d = 1) -> fp_cmove r a b d = Some (if d =? 1 then b else a).
Proof.
  intros Hl Hd. unfold fp_cmove. rewrite (cmove_spec c Hok) by assumption. cbn [bind].
  destruct Hd as [-> | ->]; cbn.
  - rewrite Z.land_0_r, Z.lxor_0_r. destruct a; reflexivity.
  - rewrite Z.land_m1_r, Z.lxor_assoc || rewrite Z.land_m1_r. rewrite <- Z.lxor_assoc, Z.lxor_nilpotent, Z.lxor_0_l. destruct b; reflexivity.
Qed.
Lemma fp_cswap_ok a b d : length (fx a) = length (fx b) -> (d = 0 \/ d = 1) -> fp_cswap r a b d = Some (if d =? 1 then (b, a) else (a, b)).
Proof.
  intros Hl Hd. unfold fp_cswap. rewrite (cswap_spec c Hok) by assumption. cbn [bind].
  destruct Hd as [-> | ->]; [change (chk 32 (wrap 32 0 - 1)) with (Some (-1))|change (chk 32 (wrap 32 1 - 1)) with (Some 0)]; cbn [bind Z.eqb Z.lnot fst snd].
  - change (Z.lnot (-1)) with 0. rewrite Z.land_0_l, !Z.lxor_0_r. destruct a, b; reflexivity.
  - change (Z.lnot 0) with (-1). rewrite Z.land_m1_l. rewrite <- (Z.lxor_assoc (fxes a)), Z.lxor_nilpotent, Z.lxor_0_l.
    rewrite (Z.lxor_comm (fxes a)), <- Z.lxor_assoc, Z.lxor_nilpotent, Z.lxor_0_l. destruct a, b; reflexivity.
Qed.
End Fp.
