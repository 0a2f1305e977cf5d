(** FP::sqrt returns square roots of quadratic residues. *)
From Verif Require Import Base.Word Model.Big Model.Roms Model.Fp Spec.BigSpec Spec.RomSpec Spec.FpSpec Spec.Bytes
  Proof.BigVal Proof.BigShift Proof.BigBytes Proof.BigMul Proof.BigSqr Proof.BigMonty Proof.BigMod Proof.BigInv Proof.BigMisc Proof.BigInv2m Proof.NumTheory Proof.FpBase Proof.FpRed Proof.FpOps Proof.FpPow Proof.FpExp.
From Coq Require Import Psatz Zpow_facts Znumtheory.

Lemma pow_cong p a b n : 0 < p -> 0 <= n -> a mod p = b mod p -> (a ^ n) mod p = (b ^ n) mod p.
Proof. intros Hp Hn H. rewrite <- (pow_mod_l a n p), <- (pow_mod_l b n p), H by assumption. reflexivity. Qed.
Lemma euler_res p s u : prime p -> 2 < p -> (s * s) mod p = u mod p -> u mod p <> 0 -> (u ^ ((p - 1) / 2)) mod p = 1.
Proof.
  intros Hp H2 Hs Hu. assert (Ho : p mod 2 = 1).
  { destruct (Z.eq_dec (p mod 2) 0) as [E|E]; [|pose proof (Z.mod_pos_bound p 2 ltac:(lia)); lia].
    exfalso. apply Z.mod_divide in E; [|lia]. apply prime_divisors in E; [|exact Hp]. lia. }
  assert (Hk : p - 1 = 2 * ((p - 1) / 2)). { apply Z_div_exact_full_2; [lia|]. rewrite Zminus_mod, Ho. reflexivity. }
  set (k := (p - 1) / 2) in *. assert (Hk0 : 0 <= k) by lia.
  rewrite <- (pow_cong p (s * s) u k) by (lia || exact Hs). replace (s * s) with (s ^ 2) by ring. rewrite <- Z.pow_mul_r by lia. rewrite <- Hk.
  apply fermat; [exact Hp|]. intros E. apply Hu. rewrite <- Hs, Zmult_mod, E. reflexivity.
Qed.
Lemma prime_mul_zero p a b : prime p -> (a * b) mod p = 0 -> a mod p = 0 \/ b mod p = 0.
Proof.
  intros Hp H. pose proof (prime_ge_2 p Hp). apply Z.mod_divide in H; [|lia]. apply prime_mult in H; [|exact Hp].
  destruct H as [H|H]; [left|right]; apply Z.mod_divide; try lia; exact H.
Qed.

Section Fp.
Variable r : rom.
Hypothesis Hf : fp_ok r.
Notation c := (r_cfg r).
Notation B := (BASEBITS (r_cfg r)).
Notation C := (CHUNK (r_cfg r)).
Notation N := (NLEN (r_cfg r)).
Notation X := (2 ^ BASEBITS (r_cfg r)).
Notation V := (val (BASEBITS (r_cfg r))).
Notation p := (pmod r).
Notation R := (bmax (r_cfg r)).
Notation SH := (2 ^ r_SH r).
Let FF := fp_ok_facts r Hf.
Let Hok : cfg_ok c. Proof. exact (ff_ok r FF). Qed.
Let F := cfg_ok_facts c Hok.
Let HB16 : 16 <= B. Proof. exact (cf_B c F). Qed.
Let HC : B + 3 <= C. Proof. exact (cf_C c F). Qed.
Let HN2 : (2 <= N)%nat. Proof. exact (cf_N c F). Qed.
Let HX : 65536 <= X.
Proof. change 65536 with (2 ^ 16). apply pow2_le. lia. Qed.
Let HXC : 4 * X <= 2 ^ (C - 1).
Proof. change 4 with (2 ^ 2). rewrite <- Z.pow_add_r by lia. apply pow2_le. lia. Qed.
Let Hp : 2 ^ 199 <= p := p_big r Hf.
Let Hp0 : 0 < p := p_pos r Hf.
Let HSH : 32 <= SH := SH_pos r Hf.
Let HSp : SH * p < R := SHp_lt r Hf.
Let Hmg : 4 <= maxg r := maxg_ge r Hf.
Lemma p_gt100 : 100 < p.
Proof. assert (2 ^ 7 <= 2 ^ 199) by (apply pow2_le; lia). change (2 ^ 7) with 128 in *. lia. Qed.

(** ** small elements whose recorded excess may be understated *)
Record repS (f : fp) (v : Z) : Prop := { rs_wf : big_wf c (fx f); rs_x : 1 <= fxes f <= 2; rs_v : V (fx f) < 2 * p; rs_den : den r f v }.
Lemma rep_S f v : fp_rep r 1 f v -> fxes f <= 2 -> repS f v.
Proof.
  intros H Hx. pose proof (legal_wf r Hf f (proj1 H)) as W. destruct H as [[A1 [A2 [A3 A4]]] D]. constructor; [exact W|lia| |exact D].
  unfold bval in A4. assert (fxes f * p <= 2 * p) by (apply Z.mul_le_mono_nonneg_r; lia). lia.
Qed.
Lemma mulS a b u v : repS a u -> repS b v -> exists f, fp_mul r a b = Some f /\ fxes f = 2 /\ fp_rep r 1 f (u * v).
Proof.
  intros [A1 A2 A3 A4] [B1 B2 B3 B4]. unfold fp_mul. pose proof (MX_ge r Hf) as HMG. pose proof (MX_le r Hf) as HMX.
  destruct (Z.ltb_spec (FEXCESS r) (fxes a * fxes b)) as [L|_].
  { exfalso. assert (fxes a * fxes b <= 2 * 2) by (apply Z.mul_le_mono_nonneg; lia). lia. }
  cbn [bind]. destruct (mul_spec c Hok (fx a) (fx b) A1 B1) as [d [D1 [D2 D3]]]. rewrite D1. cbn [bind].
  pose proof (wf_range c Hok N _ A1) as RA. pose proof (wf_range c Hok N _ B1) as RB.
  destruct (mod_rep r Hf d (u * v) D2) as [x [M1 M2]].
  - rewrite D3. apply (mul_bound r Hf _ _ 2 2); lia.
  - rewrite D3. unfold den, bval in *. replace (u * v * fK r * fK r) with (u * fK r * (v * fK r)) by ring. apply cg_mul; assumption.
  - rewrite M1. cbn [bind]. eexists. split; [reflexivity|]. split; [reflexivity|exact M2].
Qed.
Lemma sqrS a u : repS a u -> exists f, fp_sqr r a = Some f /\ fxes f = 2 /\ fp_rep r 1 f (u * u).
Proof.
  intros [A1 A2 A3 A4]. unfold fp_sqr. pose proof (MX_ge r Hf) as HMG. pose proof (MX_le r Hf) as HMX.
  destruct (Z.ltb_spec (FEXCESS r) (fxes a * fxes a)) as [L|_].
  { exfalso. assert (fxes a * fxes a <= 2 * 2) by (apply Z.mul_le_mono_nonneg; lia). lia. }
  cbn [bind]. destruct (sqr_spec c Hok (fx a) A1) as [d [D1 [D2 D3]]]. rewrite D1. cbn [bind].
  pose proof (wf_range c Hok N _ A1) as RA.
  destruct (mod_rep r Hf d (u * u) D2) as [x [M1 M2]].
  - rewrite D3. apply (mul_bound r Hf _ _ 2 2); lia.
  - rewrite D3. unfold den, bval in *. replace (u * u * fK r * fK r) with (u * fK r * (u * fK r)) by ring. apply cg_mul; assumption.
  - rewrite M1. cbn [bind]. eexists. split; [reflexivity|]. split; [reflexivity|exact M2].
Qed.
Lemma fpow_S f u E : repS f u -> fpow_exp r = Some E -> exists y, fp_fpow r f = Some y /\ repS y (u ^ E).
Proof.
  intros HA HE.
  destruct (fpow_rel r (fp_sqr r) (fp_mul r) (fun f e => repS f (u ^ e))) with (a := f) (e := 1) (E := E) as [y [E1 [E2 E3]]].
  - intros a e Ha He. destruct (sqrS a _ Ha) as [b [B1 [B2 B3]]]. exists b. split; [exact B1|].
    assert (Q : u ^ e * u ^ e = u ^ (2 * e)) by (rewrite powpow by (clear - He; lia); f_equal; clear; lia). rewrite <- Q. apply rep_S; [exact B3|rewrite B2; apply Z.le_refl].
  - intros a b e e' Ha Hb He He'. destruct (mulS a b _ _ Ha Hb) as [x [X1 [X2 X3]]]. exists x. split; [exact X1|].
    rewrite <- (powpow u e e' He He'). apply rep_S; [exact X3|rewrite X2; apply Z.le_refl].
  - split; [rewrite Z.pow_1_r; exact HA|apply Z.le_0_1].
  - exact HE.
  - exists y. auto.
Qed.

(** ** p = 3 mod 4 *)
Lemma sqrt_rep_3 g f u : 1 <= g <= maxg r -> r_MOD8 r <> 5 -> fpow_ok r -> fp_rep r g f u ->
  exists f', fp_sqrt r f = Some f' /\ fp_rep r 1 f' (u ^ ((p + 1) / 4)).
Proof.
  intros Hg H5 Hfp HA. unfold fp_sqrt. destruct (reduce_rep r Hf g f u Hg HA) as [f1 [E1 [E2 [E3 _]]]]. rewrite E1. cbn [bind].
  pose proof (p_shape r Hf) as [Sh [P1 P2]]. destruct Sh as [[Sh _]|[_ Sh]]; [contradiction|].
  destruct (Z.eqb_spec (r_MOD8 r) 5) as [E5|_]; [contradiction|].
  assert (Ek : (p + 1) / 4 = (p - 3) / 4 + 1). { replace (p + 1) with (p - 3 + 1 * 4) by (clear; lia). apply Z.div_add. clear; lia. }
  destruct (special r) eqn:Es.
  - specialize (Hfp Es). destruct (Z.eqb_spec (r_MOD8 r) 5) as [E5|_]; [contradiction|].
    assert (RS : repS f1 u) by (apply rep_S; [exact E3|rewrite E2; lia]).
    destruct (fpow_S f1 u _ RS Hfp) as [y [Y1 Y2]]. rewrite Y1. cbn [bind].
    destruct (mulS y f1 _ _ Y2 RS) as [z [Z1 [Z2 Z3]]]. exists z. split; [exact Z1|]. rewrite Ek.
    rewrite Z.pow_add_r, Z.pow_1_r by (clear - P2; lia). exact Z3.
  - destruct (inc_spec c Hok (r_MODULUS r) 1 (ff_wf r FF) ltac:(lia)) as [m [D1 [D2 [D3 D4]]]]. rewrite D1. cbn [bind]. change (V (r_MODULUS r)) with p in D3.
    destruct (norm_to_wf c Hok 2 m ltac:(lia) ltac:(lia) D2) as [m2 [N1 [N2 N3]]].
    { eapply within_weaken; [exact D4|lia|lia]. } { rewrite D3. assert (2 * p <= SH * p) by (apply Z.mul_le_mono_nonneg_r; lia). lia. }
    rewrite N1. cbn [bind].
    assert (HBN : 16 * 2 <= B * Z.of_nat N) by (apply Z.mul_le_mono_nonneg; lia).
    destruct (shr_spec c ltac:(lia) HC m2 2) as [m3 [S1 [S2 [S3 S4]]]]; [rewrite (proj1 N3); lia|exact (proj2 N3)|]. rewrite S1. cbn [bind].
    destruct (pow_rep r Hf 1 f1 u m3 ltac:(lia)) as [f' [Q1 [Q2 Q3]]].
    + right. rewrite E2. pose proof (MX_ge r Hf). lia.
    + exact E3.
    + split; [rewrite S4; exact (proj1 N3)|exact S3].
    + exists f'. split; [exact Q1|]. unfold bval in Q3. rewrite S2, N2, D3 in Q3. exact Q3.
Qed.
Lemma root_3 u : prime p -> r_MOD8 r <> 5 -> (exists s, (s * s) mod p = u mod p) -> let w := u ^ ((p + 1) / 4) in (w * w) mod p = u mod p.
Proof.
  intros Pp H5 [s Hs] w. pose proof (p_shape r Hf) as [Sh [P1 P2]]. destruct Sh as [[Sh _]|[_ Sh]]; [contradiction|]. pose proof p_gt100 as H100.
  assert (Ek : (p + 1) / 4 = (p - 3) / 4 + 1). { replace (p + 1) with (p - 3 + 1 * 4) by (clear; lia). apply Z.div_add. clear; lia. }
  set (k := (p - 3) / 4) in *. assert (E2 : (p - 1) / 2 = 2 * k + 1). { replace (p - 1) with ((2 * k + 1) * 2) by lia. apply Z.div_mul. lia. }
  clearbody k.
  assert (Ew : w * w = u * u ^ ((p - 1) / 2)).
  { unfold w. rewrite Ek, E2. rewrite powpow by (clear - P2; lia). rewrite <- (Z.pow_1_r u) at 2. rewrite powpow by (clear - P2; lia). f_equal. clear; lia. }
  rewrite Ew. destruct (Z.eq_dec (u mod p) 0) as [E0|E0].
  - rewrite Zmult_mod, E0. reflexivity.
  - pose proof (euler_res p s u Pp ltac:(clear - H100; lia) Hs E0) as EU. rewrite Zmult_mod, EU, Z.mul_1_r. apply Z.mod_mod. clear - Hp0; lia.
Qed.

(** ** p = 5 mod 8 *)
(** side condition on the constants, checked for the concrete curves: s = 2^((p-1)/4) is a root of -1, none of the
    four integers below 2p congruent to s or -s has a zero low limb, and the last three steps give zero on the
    representatives 0 and p of zero *)
Definition sqrt_ok5 : Prop :=
  r_MOD8 r = 5 -> special r = true /\ exists s, 0 <= s < p /\ (2 ^ ((p - 1) / 4)) mod p = s /\ (s * s) mod p = p - 1
    /\ s mod X <> 0 /\ (p - s) mod X <> 0 /\ (p + s) mod X <> 0 /\ (2 * p - s) mod X <> 0
    /\ forall a i, In a [big_new c; r_MODULUS r] -> In i [big_new c; r_MODULUS r] ->
         (ix <- dec c i 1 ;; m <- fp_mul r (mkfp a 2) (mkfp ix 2) ;; fp_reduce r m) = Some (fp_new r).
Lemma zero_cases f v : repS f v -> special r = true -> v mod p = 0 -> fx f = big_new c \/ fx f = r_MODULUS r.
Proof.
  intros [W _ Hv D] Es Hz. unfold den, bval, fK in D. rewrite Es, Z.mul_1_r, Hz in D. pose proof (wf_range c Hok N _ W) as Rx.
  apply Z.mod_divide in D; [|clear - Hp0; lia]. destruct D as [q D].
  assert (q = 0 \/ q = 1) as [-> | ->]. { assert (- 1 < q < 2); [|lia]. split; apply (Z.mul_lt_mono_pos_r p); lia. }
  - left. pose proof (zero_wf c Hok) as [W0 V0]. apply (nrm_inj B); [lia|apply canon_nrm; apply W|apply canon_nrm; apply W0|rewrite (proj1 W), (proj1 W0); reflexivity|]. rewrite V0. lia.
  - right. pose proof (ff_wf r FF) as W0. apply (nrm_inj B); [lia|apply canon_nrm; apply W|apply canon_nrm; apply W0|rewrite (proj1 W), (proj1 W0); reflexivity|]. change (V (r_MODULUS r)) with p. lia.
Qed.
Lemma dec1_rep f v : special r = true -> repS f v -> V (fx f) mod X <> 0 ->
  exists y, dec c (fx f) 1 = Some y /\ repS (mkfp y (fxes f)) (v - 1).
Proof.
  intros Es [A1 A2 A3 A4] Hm. destruct (fx f) as [|y t] eqn:Ef; [destruct A1 as [A1 _]; cbn in A1; lia|].
  assert (Hy : y <> 0). { intros E. apply Hm. cbn [val]. rewrite E, Z.add_0_l, Z.mul_comm. apply Z.mod_mul. lia. }
  pose proof (proj2 A1) as Hc. apply Forall_cons_iff in Hc. destruct Hc as [Hy2 Hc].
  unfold dec. rewrite (norm_wf c Hok _ A1). cbn [bind]. rewrite wrap_id by lia. rewrite chk_ok by lia. cbn [bind]. eexists. split; [reflexivity|].
  assert (Ev : V (y - 1 :: t) = V (y :: t) - 1) by (cbn [val]; lia).
  constructor; cbn [fx fxes]; [|exact A2|rewrite Ev; lia|].
  - split; [exact (proj1 A1)|]. constructor; [lia|exact Hc].
  - unfold den, bval in *. cbn [fx]. rewrite Ef in A4. rewrite Ev. unfold fK in *. rewrite Es in *. rewrite !Z.mul_1_r in *. apply cg_sub; [exact A4|reflexivity].
Qed.
Lemma sqrt_rep_5 g f u : prime p -> 1 <= g <= maxg r -> r_MOD8 r = 5 -> fpow_ok r -> sqrt_ok5 -> fp_rep r g f u -> (exists s, (s * s) mod p = u mod p) ->
  exists f' w, fp_sqrt r f = Some f' /\ fp_rep r 1 f' w /\ (w * w) mod p = u mod p.
Proof.
  intros Pp Hg H5 Hfp Hsq HA [s0 Hs0]. destruct (Hsq H5) as [Es [s [Rs [Is [Hs [L1 [L2 [L3 [L4 Zs]]]]]]]]]. specialize (Hfp Es). pose proof p_gt100 as H100.
  destruct (reduce_rep r Hf g f u Hg HA) as [f1 [E1 [E2 [E3 E4]]]].
  assert (K1 : fK r = 1) by (unfold fK; rewrite Es; reflexivity).
  unfold fp_sqrt. rewrite E1. cbn [bind]. rewrite (proj2 (Z.eqb_eq _ _) H5), Es. rewrite (proj2 (Z.eqb_eq _ _) H5) in Hfp.
  pose proof (legal_wf r Hf _ (proj1 E3)) as W1.
  pose proof (Z.mod_pos_bound (u * fK r) p Hp0) as Rg. unfold bval in E4.
  assert (H2R : 2 * p < R). { assert (2 * p <= SH * p) by (apply Z.mul_le_mono_nonneg_r; lia). lia. }
  assert (HBN : 16 * 2 <= B * Z.of_nat N) by (apply Z.mul_le_mono_nonneg; lia).
  destruct (shl_spec c ltac:(lia) HC (fx f1) 1) as [ix [I1 [I2 [I3 I4]]]].
  { lia. } { exact (proj2 W1). } { rewrite (proj1 W1). lia. } { rewrite (proj1 W1). lia. } { rewrite (proj1 W1), E4. change (2 ^ 1) with 2. unfold bmax in H2R. lia. }
  rewrite I1. cbn [bind]. change (2 ^ 1) with 2 in I2. rewrite E2.
  assert (Ri : repS (mkfp ix 1) (2 * u)).
  { constructor; cbn [fx fxes]; [split; [rewrite I4; exact (proj1 W1)|exact I3]|lia|rewrite I2, E4; lia|].
    unfold den, bval. cbn [fx]. rewrite I2, E4. replace (2 * u * fK r) with (u * fK r * 2) by ring. apply cg_mul; [apply Z.mod_mod; lia|reflexivity]. }
  destruct (fpow_S _ _ _ Ri Hfp) as [v [V1 V2]]. rewrite V1. cbn [bind].
  pose proof (p_shape r Hf) as [Sh [P1 P2]]. destruct Sh as [[_ Sh]|[Sh _]]; [|contradiction]. set (k := (p - 5) / 8) in *.
  assert (Ek : (p - 1) / 4 = 2 * k + 1 /\ (p - 1) / 2 = 4 * k + 2).
  { split; [replace (p - 1) with ((2 * k + 1) * 4) by lia; apply Z.div_mul; lia|replace (p - 1) with ((4 * k + 2) * 2) by lia; apply Z.div_mul; lia]. }
  destruct Ek as [Ek4 Ek2]. clearbody k.
  destruct (mulS _ _ _ _ Ri V2) as [i1 [J1 [J2 J3]]]. rewrite J1. cbn [bind].
  destruct (mulS _ _ _ _ (rep_S _ _ J3 ltac:(rewrite J2; apply Z.le_refl)) V2) as [i2 [J4 [J5 J6]]]. rewrite J4. cbn [bind].
  set (iv := 2 * u * (2 * u) ^ k * (2 * u) ^ k) in *. set (vv := (2 * u) ^ k) in *.
  assert (Eiv : iv = (2 * u) ^ (2 * k + 1)).
  { unfold iv, vv. rewrite <- (Z.pow_1_r (2 * u)) at 1. rewrite !powpow by (clear - P1; lia). f_equal. clear; lia. }
  destruct (Z.eq_dec (u mod p) 0) as [U0|U0].
  { assert (RS : repS f1 u) by (apply rep_S; [exact E3|rewrite E2; clear; lia]).
    destruct (mulS f1 v _ _ RS V2) as [a1 [A1 [A2 A3]]].
    assert (Q1 : fx a1 = big_new c \/ fx a1 = r_MODULUS r).
    { apply (zero_cases a1 _ (rep_S _ _ A3 ltac:(rewrite A2; apply Z.le_refl)) Es). rewrite Zmult_mod, U0. reflexivity. }
    assert (Q2 : fx i2 = big_new c \/ fx i2 = r_MODULUS r).
    { apply (zero_cases i2 _ (rep_S _ _ J6 ltac:(rewrite J5; apply Z.le_refl)) Es). unfold iv. rewrite <- Z.mul_assoc, Zmult_mod, (Zmult_mod 2), U0, Z.mul_0_r. reflexivity. }
    destruct a1 as [xa ea]. destruct i2 as [xi ei]. cbn [fx fxes] in *. subst ea ei.
    assert (Q3 : (ix <- dec c xi 1 ;; m <- fp_mul r (mkfp xa 2) (mkfp ix 2) ;; fp_reduce r m) = Some (fp_new r)).
    { apply Zs; cbn [In]; [destruct Q1 as [-> | ->]; tauto|destruct Q2 as [-> | ->]; tauto]. }
    destruct (dec c xi 1) as [iy|]; cbn [bind] in Q3 |- *; [|discriminate]. rewrite A1. cbn [bind].
    exists (fp_new r), 0. split; [exact Q3|]. split; [exact (new_rep r Hf)|]. rewrite U0. reflexivity. }
  assert (Eiv2 : (iv * iv) mod p = (-1) mod p).
  { rewrite Eiv. replace ((2 * u) ^ (2 * k + 1) * (2 * u) ^ (2 * k + 1)) with (2 ^ (2 * k + 1) * 2 ^ (2 * k + 1) * u ^ ((p - 1) / 2)).
    - rewrite Zmult_mod. rewrite (euler_res p s0 u Pp ltac:(clear - H100; lia) Hs0 U0), Z.mul_1_r, Z.mod_mod by (clear - Hp0; lia).
      rewrite Ek4 in Is. rewrite Zmult_mod, Is, Hs. replace (-1) with (p - 1 + (-1) * p) by (clear; lia). rewrite Z.mod_add by (clear - Hp0; lia). symmetry. apply Z.mod_small. clear - H100; lia.
    - rewrite Ek2. rewrite !powpow by (clear - P1; lia). rewrite Z.pow_mul_l. do 2 f_equal; clear; lia. }
  pose proof (rep_S _ _ J6 ltac:(rewrite J5; apply Z.le_refl)) as J7.
  assert (Hmx : V (fx i2) mod X <> 0).
  { destruct J7 as [K2 K3 K4 K5]. unfold den, bval in K5. rewrite K1, Z.mul_1_r in K5. pose proof (wf_range c Hok N _ K2) as RK. set (i := V (fx i2)) in *.
    assert (Q : ((i - s) * (i + s)) mod p = 0).
    { replace ((i - s) * (i + s)) with (i * i - s * s) by ring. rewrite Zminus_mod, Hs.
      rewrite (cg_mul p i i iv iv K5 K5), Eiv2. replace (-1) with (p - 1 + (-1) * p) by (clear; lia). rewrite Z.mod_add by (clear - Hp0; lia).
      rewrite (Z.mod_small (p - 1)) by (clear - H100; lia). rewrite Z.sub_diag. reflexivity. }
    clear - Q K4 RK Rs L1 L2 L3 L4 Pp Hp0. apply prime_mul_zero in Q; [|exact Pp]. destruct Q as [Q|Q]; apply Z.mod_divide in Q; try (clear - Hp0; lia); destruct Q as [q Q].
    + assert (q = 0 \/ q = 1) as [-> | ->].
      { assert (- 1 < q < 2); [|lia]. split; apply (Z.mul_lt_mono_pos_r p); lia. }
      * replace i with s by lia. exact L1.
      * replace i with (p + s) by lia. exact L3.
    + assert (q = 0 \/ q = 1 \/ q = 2) as [-> | [-> | ->]].
      { assert (- 1 < q < 3); [|lia]. split; apply (Z.mul_lt_mono_pos_r p); lia. }
      * replace i with s by lia. exact L1.
      * replace i with (p - s) by lia. exact L2.
      * replace i with (2 * p - s) by lia. exact L4. }
  destruct (dec1_rep i2 iv Es J7 Hmx) as [y [Y1 Y2]]. rewrite Y1. cbn [bind].
  assert (RS : repS f1 u) by (apply rep_S; [exact E3|rewrite E2; clear; lia]).
  destruct (mulS f1 v _ _ RS V2) as [a1 [A1 [A2 A3]]]. rewrite A1. cbn [bind].
  destruct (mulS _ _ _ _ (rep_S _ _ A3 ltac:(rewrite A2; apply Z.le_refl)) Y2) as [a2 [A4 [A5 A6]]]. rewrite A4. cbn [bind].
  destruct (reduce_rep r Hf 1 a2 _ ltac:(clear - Hmg; lia) A6) as [f' [F1 [F2 [F3 _]]]]. exists f', (u * vv * (iv - 1)). split; [exact F1|]. split; [exact F3|].
  replace (u * vv * (iv - 1) * (u * vv * (iv - 1))) with (u * vv * (u * vv) * (iv * iv + 1) - u * iv * (2 * u * vv * vv)) by ring.
  change (2 * u * vv * vv) with iv.
  replace (u * vv * (u * vv) * (iv * iv + 1) - u * iv * iv) with (u * vv * (u * vv) * (iv * iv + 1) + - u * (iv * iv)) by ring.
  transitivity ((u * vv * (u * vv) * (-1 + 1) + - u * (-1)) mod p).
  + apply cg_add; apply cg_mul; try reflexivity; [|exact Eiv2]. apply cg_add; [exact Eiv2|reflexivity].
  + f_equal. ring.
Qed.
Lemma sqrt_rep g f u : prime p -> 1 <= g <= maxg r -> fpow_ok r -> sqrt_ok5 -> fp_rep r g f u -> (exists s, (s * s) mod p = u mod p) ->
  exists f' w, fp_sqrt r f = Some f' /\ fp_rep r 1 f' w /\ (w * w) mod p = u mod p.
Proof.
  intros Pp Hg Hfp Hs HA Hq. destruct (Z.eq_dec (r_MOD8 r) 5) as [E|E]; [eapply sqrt_rep_5; eassumption|].
  destruct (sqrt_rep_3 g f u Hg E Hfp HA) as [f' [E1 E2]]. exists f', (u ^ ((p + 1) / 4)). split; [exact E1|]. split; [exact E2|]. apply root_3; assumption.
Qed.
End Fp.
