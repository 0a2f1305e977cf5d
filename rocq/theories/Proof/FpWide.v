(** Field multiplications whose operands were not normalised after an addition (fp.rs:273-281). *)
From Verif Require Import Base.Word Model.Big Model.Roms Model.Fp Spec.BigSpec Spec.RomSpec Spec.FpSpec
  Proof.BigVal Proof.BigMod Proof.BigMul Proof.BigMulW Proof.BigSqrW Proof.FpBase Proof.FpRed Proof.FpOps Proof.FpPow Proof.FpExp Proof.FpIv.
From Coq Require Import Lia.

(** limbs below ga*2^B in absolute value in the first factor and below gb*2^B in the second cannot overflow Big::mul *)
Definition wide_ok (c : cfg) (ga gb : Z) : Prop :=
  1 <= ga /\ 1 <= gb /\ Z.of_nat (NLEN c) * (ga * gb * (2 ^ BASEBITS c * 2 ^ BASEBITS c)) + 2 * (Z.of_nat (NLEN c) * (ga * gb * 2 ^ BASEBITS c)) + 2 < 2 ^ (2 * CHUNK c - 1)
  /\ 4 * (ga * gb * (2 ^ BASEBITS c * 2 ^ BASEBITS c)) < 2 ^ (2 * CHUNK c - 1) /\ 2 * (ga * 2 ^ BASEBITS c) <= 2 ^ (CHUNK c - 1) /\ 2 * (gb * 2 ^ BASEBITS c) <= 2 ^ (CHUNK c - 1).
Definition wide_okb (c : cfg) (ga gb : Z) : bool :=
  (1 <=? ga) && (1 <=? gb) && (Z.of_nat (NLEN c) * (ga * gb * (2 ^ BASEBITS c * 2 ^ BASEBITS c)) + 2 * (Z.of_nat (NLEN c) * (ga * gb * 2 ^ BASEBITS c)) + 2 <? 2 ^ (2 * CHUNK c - 1))
  && (4 * (ga * gb * (2 ^ BASEBITS c * 2 ^ BASEBITS c)) <? 2 ^ (2 * CHUNK c - 1)) && (2 * (ga * 2 ^ BASEBITS c) <=? 2 ^ (CHUNK c - 1)) && (2 * (gb * 2 ^ BASEBITS c) <=? 2 ^ (CHUNK c - 1)).
Lemma wide_okb_ok c ga gb : wide_okb c ga gb = true -> wide_ok c ga gb.
Proof.
  unfold wide_okb. rewrite !Bool.andb_true_iff. intros [[[[[H1 H2] H3] H4] H5] H6].
  apply Z.leb_le in H1, H2, H5, H6. apply Z.ltb_lt in H3, H4. repeat split; assumption.
Qed.

Section W.
Variable r : rom.
Hypothesis Hf : fp_ok r.
Notation c := (r_cfg r).
Notation B := (BASEBITS (r_cfg r)).
Notation N := (NLEN (r_cfg r)).
Notation X := (2 ^ BASEBITS (r_cfg r)).
Notation V := (val (BASEBITS (r_cfg r))).
Notation p := (pmod r).
Notation R := (bmax (r_cfg r)).
Notation SH := (2 ^ r_SH r).
Let FF := fp_ok_facts r Hf.
Let Hok : cfg_ok c. Proof. exact (ff_ok r FF). Qed.
Let F := cfg_ok_facts c Hok.
Let HX : 65536 <= X. Proof. change 65536 with (2 ^ 16). apply pow2_le. pose proof (cf_B c F). lia. Qed.
Let Hp0 : 0 < p := p_pos r Hf.
Let HSH : 32 <= SH := SH_pos r Hf.
Let HSp : SH * p < R := SHp_lt r Hf.
Let Hmg : 4 <= maxg r := maxg_ge r Hf.

Lemma lims_wide g lo hi w : 1 <= g -> 0 <= lo <= g -> 0 <= hi <= g -> lims r lo hi w -> wideg c g w.
Proof.
  intros Hg Hl Hh. unfold lims, wideg. apply Forall_impl. intros x Hx.
  assert (lo * (X - 1) <= g * (X - 1)) by (apply Z.mul_le_mono_nonneg_r; lia). assert (hi * (X - 1) <= g * (X - 1)) by (apply Z.mul_le_mono_nonneg_r; lia). lia.
Qed.
Lemma imulw ga gb lo1 hi1 e1 lo2 hi2 e2 a b u v : MX r = FEXCESS r -> wide_ok c ga gb ->
  0 <= lo1 <= ga -> 1 <= hi1 <= ga -> hi1 <= maxg r -> lo1 + 1 <= maxg r -> 0 <= lo2 <= gb -> 1 <= hi2 <= gb ->
  frep r lo1 hi1 e1 a u -> frep r lo2 hi2 e2 b v -> exists f, fp_mul r a b = Some f /\ frep r 0 1 2 f (u * v).
Proof.
  intros HM [W1 [W2 [W3 [W4 [W5 W6]]]]] L1 H1 G1 G2 L2 H2 HA HB. unfold fp_mul.
  pose proof (frep_e _ _ _ _ _ _ HA) as [Xa Ya]. pose proof (frep_e _ _ _ _ _ _ HB) as [Xb Yb].
  assert (G : exists a1, (if FEXCESS r <? fxes a * fxes b then fp_reduce r a else Some a) = Some a1 /\ frep r lo1 hi1 e1 a1 u /\ fxes a1 * fxes b <= FEXCESS r).
  { destruct (Z.ltb_spec (FEXCESS r) (fxes a * fxes b)) as [L|L].
    - destruct (ireduce r Hf lo1 hi1 e1 a u ltac:(lia) ltac:(lia) ltac:(lia) ltac:(lia) HA) as [a1 [E1 [E2 _]]]. exists a1. split; [exact E1|]. pose proof (frep_e _ _ _ _ _ _ E2) as [E3 _].
      split; [apply (frep_mono r Hf 0 1 1); [lia|lia|lia|exact E2]|]. assert (fxes a1 = 1) by lia. replace (fxes a1) with 1. lia.
    - exists a. split; [reflexivity|]. split; [exact HA|exact L]. }
  destruct G as [a1 [E1 [HA1 Hb]]]. rewrite E1. cbn [bind].
  pose proof HA1 as [[La Wa] [Xa1 [Va Da]]]. pose proof HB as [[Lb Wb] [_ [Vb Db]]]. pose proof (frep_e _ _ _ _ _ _ HA1) as [Xa2 Ya2].
  assert (RR : forall k, k <= FEXCESS r -> k * p <= R). { intros k Hk. unfold FEXCESS in Hk. assert (k * p <= SH * p) by (apply Z.mul_le_mono_nonneg_r; lia). lia. }
  pose proof (RR _ Ya2) as R1. pose proof (RR _ Yb) as R2. unfold bmax in R1, R2.
  destruct (mul_wide c Hok ga gb W1 W2 W3 W4 W5 W6 (fx a1) (fx b) La (lims_wide ga lo1 hi1 _ W1 L1 ltac:(lia) Wa) Lb (lims_wide gb lo2 hi2 _ W2 L2 ltac:(lia) Wb) ltac:(lia) ltac:(lia)) as [d [D1 [D2 D3]]].
  rewrite D1. cbn [bind]. destruct (mod_rep r Hf d (u * v) D2) as [x [M1 M2]].
  - rewrite D3. apply (mul_bound r Hf _ _ (fxes a1) (fxes b)); lia.
  - rewrite D3. unfold den, bval in Da, Db. replace (u * v * fK r * fK r) with (u * fK r * (v * fK r)) by ring. apply cg_mul; assumption.
  - rewrite M1. cbn [bind]. eexists. split; [reflexivity|]. apply (rep_frep1 r); [cbn; lia|exact M2].
Qed.
Lemma isqrw g lo hi e a u : MX r = FEXCESS r -> wide_ok c g g -> 0 <= lo <= g -> 1 <= hi <= g -> hi <= maxg r -> lo + 1 <= maxg r ->
  frep r lo hi e a u -> exists f, fp_sqr r a = Some f /\ frep r 0 1 2 f (u * u).
Proof.
  intros HM [W1 [_ [W3 _]]] L1 H1 G1 G2 HA. unfold fp_sqr. pose proof (frep_e _ _ _ _ _ _ HA) as [Xa Ya].
  assert (G : exists a1, (if FEXCESS r <? fxes a * fxes a then fp_reduce r a else Some a) = Some a1 /\ frep r lo hi e a1 u /\ fxes a1 * fxes a1 <= FEXCESS r).
  { destruct (Z.ltb_spec (FEXCESS r) (fxes a * fxes a)) as [L|L].
    - destruct (ireduce r Hf lo hi e a u ltac:(lia) ltac:(lia) ltac:(lia) ltac:(lia) HA) as [a1 [E1 [E2 _]]]. exists a1. split; [exact E1|]. pose proof (frep_e _ _ _ _ _ _ E2) as [E3 _].
      split; [apply (frep_mono r Hf 0 1 1); [lia|lia|lia|exact E2]|]. assert (fxes a1 = 1) by lia. replace (fxes a1) with 1. lia.
    - exists a. split; [reflexivity|]. split; [exact HA|exact L]. }
  destruct G as [a1 [E1 [HA1 Hb]]]. rewrite E1. cbn [bind].
  pose proof HA1 as [[La Wa] [Xa1 [Va Da]]]. pose proof (frep_e _ _ _ _ _ _ HA1) as [Xa2 Ya2].
  assert (RR : fxes a1 * p <= R). { unfold FEXCESS in Ya2. assert (fxes a1 * p <= SH * p) by (apply Z.mul_le_mono_nonneg_r; lia). lia. }
  unfold bmax in RR.
  destruct (sqr_wide c Hok g W1 W3 (fx a1) La (lims_wide g lo hi _ W1 L1 ltac:(lia) Wa) ltac:(lia)) as [d [D1 [D2 D3]]].
  rewrite D1. cbn [bind]. destruct (mod_rep r Hf d (u * u) D2) as [x [M1 M2]].
  - rewrite D3. apply (mul_bound r Hf _ _ (fxes a1) (fxes a1)); lia.
  - rewrite D3. unfold den, bval in Da. replace (u * u * fK r * fK r) with (u * fK r * (u * fK r)) by ring. apply cg_mul; assumption.
  - rewrite M1. cbn [bind]. eexists. split; [reflexivity|]. apply (rep_frep1 r); [cbn; lia|exact M2].
Qed.
End W.
