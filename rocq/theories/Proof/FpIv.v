(** Field objects with separate lower and upper limb bounds and a bound on the excess counter. *)
From Verif Require Import Base.Word Model.Big Model.Roms Model.Fp Spec.BigSpec Spec.RomSpec Spec.FpSpec
  Proof.BigVal Proof.BigMod Proof.BigShift Proof.BigMonty Proof.BigMul Proof.FpBase Proof.FpRed Proof.FpOps Proof.FpPow Proof.FpExp.

Section Iv.
Variable r : rom.
Hypothesis Hf : fp_ok r.
Notation c := (r_cfg r).
Notation B := (BASEBITS (r_cfg r)).
Notation C := (CHUNK (r_cfg r)).
Notation N := (NLEN (r_cfg r)).
Notation X := (2 ^ BASEBITS (r_cfg r)).
Notation V := (val (BASEBITS (r_cfg r))).
Notation p := (pmod r).
Notation R := (bmax (r_cfg r)).
Notation SH := (2 ^ r_SH r).
Let FF := fp_ok_facts r Hf.
Let Hok : cfg_ok c. Proof. exact (ff_ok r FF). Qed.
Let F := cfg_ok_facts c Hok.
Let HB16 : 16 <= B. Proof. exact (cf_B c F). Qed.
Let HC : B + 3 <= C. Proof. exact (cf_C c F). Qed.
Let HX : 65536 <= X.
Proof. change 65536 with (2 ^ 16). apply pow2_le. lia. Qed.
Let Hp0 : 0 < p := p_pos r Hf.
Let HSH : 32 <= SH := SH_pos r Hf.
Let HSp : SH * p < R := SHp_lt r Hf.
Let Hmg : 4 <= maxg r := maxg_ge r Hf.

Definition lims (lo hi : Z) (w : list Z) : Prop := within (- (lo * (X - 1))) (hi * (X - 1)) w.
Definition frep (lo hi e : Z) (f : fp) (v : Z) : Prop :=
  (length (fx f) = N /\ lims lo hi (fx f)) /\ (1 <= fxes f <= e /\ fxes f <= FEXCESS r) /\ 0 <= V (fx f) < fxes f * p /\ den r f v.

Lemma lims_mono lo hi lo' hi' w : lo <= lo' -> hi <= hi' -> lims lo hi w -> lims lo' hi' w.
Proof.
  intros H1 H2 H. eapply within_weaken; [exact H| |].
  - assert (lo * (X - 1) <= lo' * (X - 1)) by (apply Z.mul_le_mono_nonneg_r; lia). lia.
  - apply Z.mul_le_mono_nonneg_r; lia.
Qed.
Lemma frep_mono lo hi e lo' hi' e' f v : lo <= lo' -> hi <= hi' -> e <= e' -> frep lo hi e f v -> frep lo' hi' e' f v.
Proof. intros H1 H2 H3 [[A1 A2] [A3 A4]]. split; [split; [exact A1|eapply lims_mono; eassumption]|]. split; [lia|exact A4]. Qed.
Lemma frep_cong lo hi e f v v' : v mod p = v' mod p -> frep lo hi e f v -> frep lo hi e f v'.
Proof. intros H [A1 [A2 [A3 D]]]. split; [exact A1|]. split; [exact A2|]. split; [exact A3|]. unfold den in *. rewrite D. apply cg_mul; [exact H|reflexivity]. Qed.
Lemma frep_rep lo hi e f v g : lo <= g - 1 -> hi <= g -> frep lo hi e f v -> fp_rep r g f v.
Proof.
  intros H1 H2 [[A1 A2] [A3 [A4 D]]]. split; [|exact D]. split; [exact A1|]. split; [exact (lims_mono _ _ (g - 1) g _ H1 H2 A2)|]. split; [lia|exact A4].
Qed.
Lemma rep_frep g e f v : fxes f <= e -> fp_rep r g f v -> frep (g - 1) g e f v.
Proof. intros He [[A1 [A2 [A3 A4]]] D]. split; [split; [exact A1|exact A2]|]. split; [lia|]. split; [exact A4|exact D]. Qed.
Lemma rep_frep1 e f v : fxes f <= e -> fp_rep r 1 f v -> frep 0 1 e f v.
Proof. intros He H. exact (rep_frep 1 e f v He H). Qed.
Lemma frep_e lo hi e f v : frep lo hi e f v -> 1 <= fxes f <= e /\ fxes f <= FEXCESS r.
Proof. intros [_ [A _]]. exact A. Qed.

Lemma over_xes f f' : 1 <= fxes f -> fp_over r f = Some f' -> fxes f' <= fxes f.
Proof.
  intros H. unfold fp_over. destruct (FEXCESS r <? fxes f); intros E; [|inv E; lia]. unfold fp_reduce in E. unfold bind in E.
  repeat match type of E with match ?x with _ => _ end = _ => destruct x; [|discriminate E] end. inv E. exact H.
Qed.
Lemma add_xes a b f : 1 <= fxes a -> 1 <= fxes b -> fp_add r a b = Some f -> fxes f <= fxes a + fxes b.
Proof.
  intros Ha Hb H. unfold fp_add, bind in H. destruct (add c _ _); [|discriminate]. destruct (chk _ _) eqn:E; [|discriminate]. apply chk_inv in E. destruct E as [-> _].
  apply over_xes in H; cbn [fxes] in *; lia.
Qed.
Lemma over_iv lo hi f : 0 <= lo -> 1 <= hi -> (fxes f <= FEXCESS r \/ lo + 1 <= maxg r /\ hi <= maxg r) ->
  length (fx f) = N -> lims lo hi (fx f) -> 1 <= fxes f <= 2 ^ (r_SH r + 1) -> 0 <= V (fx f) < fxes f * p ->
  exists f', fp_over r f = Some f' /\ length (fx f') = N /\ lims lo hi (fx f') /\ (1 <= fxes f' <= fxes f /\ fxes f' <= FEXCESS r) /\ 0 <= V (fx f') < fxes f' * p /\ V (fx f') mod p = V (fx f) mod p.
Proof.
  intros Hl Hh Hg L W Hx Hv. unfold fp_over. destruct (Z.ltb_spec (FEXCESS r) (fxes f)) as [G|G].
  - destruct Hg as [Hg|[Hg1 Hg2]]; [lia|].
    destruct (reduce_legal r Hf (Z.max (lo + 1) hi) f ltac:(lia) L) as [f' [E1 [E2 [E3 E4]]]]; [apply (lims_mono lo hi (Z.max (lo + 1) hi - 1)); [lia|lia|exact W]|exact Hx|exact Hv|].
    exists f'. split; [exact E1|]. destruct E3 as [A1 [A2 [A3 A4]]]. split; [exact A1|]. split; [apply (lims_mono 0 1); [lia|lia|exact A2]|]. split; [rewrite E2 in *; lia|]. split; [exact A4|].
    rewrite E4. apply Z.mod_mod. lia.
  - exists f. split; [reflexivity|]. split; [exact L|]. split; [exact W|]. split; [lia|]. split; [exact Hv|reflexivity].
Qed.

Lemma mgX g : g <= maxg r -> g * (X - 1) <= 2 ^ (C - 1) - g.
Proof. intros H. pose proof (gX r Hf g H). lia. Qed.

Lemma iadd lo1 hi1 e1 lo2 hi2 e2 a b u v : 0 <= lo1 -> 0 <= lo2 -> 1 <= hi1 -> 1 <= hi2 -> hi1 + hi2 <= maxg r -> lo1 + lo2 <= maxg r ->
  (e1 + e2 <= FEXCESS r \/ lo1 + lo2 + 1 <= maxg r) -> frep lo1 hi1 e1 a u -> frep lo2 hi2 e2 b v ->
  exists f, fp_add r a b = Some f /\ frep (lo1 + lo2) (hi1 + hi2) (e1 + e2) f (u + v).
Proof.
  intros H1 H2 H3 H4 H5 H6 H7 [[A1 A2] [A3 [A4 DA]]] [[B1 B2] [B3 [B4 DB]]]. unfold fp_add. pose proof (mgX _ H5) as Q5. pose proof (mgX _ H6) as Q6. pose proof (S31 r Hf) as H31. pose proof (ES1 r Hf) as HES.
  destruct (add_total c ltac:(lia) HC _ _ _ _ (fx a) (fx b) A2 B2 ltac:(lia)) as [x [E1 E2]]; [lia|lia|].
  rewrite E1. cbn [bind]. destruct (add_val c _ _ _ E1 ltac:(lia)) as [E3 E4]. unfold FEXCESS in *.
  rewrite chk_ok by (change (2 ^ (32 - 1)) with 2147483648 in *; lia). cbn [bind].
  destruct (over_iv (lo1 + lo2) (hi1 + hi2) (mkfp x (fxes a + fxes b))) as [f [F1 [F2 [F3 [F4 [F5 F6]]]]]]; cbn [fx fxes]; try lia.
  - unfold FEXCESS. destruct H7; [left|right]; lia.
  - eapply within_weaken; [exact E2|lia|lia].
  - exists f. split; [exact F1|]. cbn [fx fxes] in *. split; [split; [exact F2|exact F3]|]. unfold FEXCESS in *. split; [lia|]. split; [exact F5|].
    unfold den, bval in *. rewrite F6, E3, Z.mul_add_distr_r. apply cg_add; assumption.
Qed.
Lemma dbl_add_eq a : fp_dbl r a = fp_add r a a.
Proof.
  unfold fp_dbl, fp_add. assert (E : forall w, dbl c w = add c w w). { intros w. unfold dbl, add. induction w as [|x w IH]; [reflexivity|]. cbn [map1o map2o]. rewrite IH. reflexivity. }
  rewrite E. reflexivity.
Qed.
Lemma idbl lo hi e a u : 0 <= lo -> 1 <= hi -> 2 * hi <= maxg r -> 2 * lo + 1 <= maxg r -> frep lo hi e a u ->
  exists f, fp_dbl r a = Some f /\ frep (2 * lo) (2 * hi) (2 * e) f (2 * u).
Proof.
  intros H1 H2 H3 H4 HA. rewrite dbl_add_eq. destruct (iadd lo hi e lo hi e a a u u) as [f [E1 E2]]; try lia; try assumption.
  exists f. split; [exact E1|]. replace (2 * lo) with (lo + lo) by lia. replace (2 * hi) with (hi + hi) by lia. replace (2 * e) with (e + e) by lia. replace (2 * u) with (u + u) by lia. exact E2.
Qed.
(** negation: the limbs of the result are those of a digit list minus those of the argument *)
Lemma neg_limbs lo hi e a u : 0 <= lo -> 1 <= hi -> hi <= maxg r -> lo + 1 <= maxg r -> (4 * e <= FEXCESS r \/ hi + 1 <= maxg r) -> frep lo hi e a u ->
  exists m x f sb, length m = N /\ within 0 (X - 1) m /\ sub c m (fx a) = Some x /\ 0 <= sb /\ 2 ^ (sb + 1) <= 4 * fxes a /\ 2 ^ (sb + 1) <= 2 ^ (r_SH r + 1) /\
    fp_neg r a = Some f /\ fp_over r (mkfp x (2 ^ (sb + 1))) = Some f /\ (4 * e <= FEXCESS r -> f = mkfp x (2 ^ (sb + 1))) /\ frep hi (lo + 1) (4 * e) f (- u).
Proof.
  intros Hlo Hhi G1 G2 G3 [[A1 A2] [A3 [A4 DA]]]. unfold fp_neg. pose proof (mgX _ G1) as Q5. pose proof (mgX _ G2) as Q6. pose proof (S31 r Hf) as H31. pose proof (ES1 r Hf) as HES. destruct A3 as [A3 A3']. unfold FEXCESS in A3'.
  assert (W31 : 2 ^ (32 - 1) = 2147483648) by reflexivity. assert (W32 : 2 ^ 32 = 4294967296) by reflexivity.
  rewrite chk_ok by lia. cbn [bind]. rewrite wrapu_id by lia. rewrite logb2_spec by lia.
  pose proof (blen_spec (fxes a - 1) ltac:(lia)) as [L1 [L2 L3]].
  pose proof (blen_le (fxes a - 1) (r_SH r) ltac:(pose proof (ff_S5 r FF); lia) ltac:(lia)) as L4.
  assert (L5 : 2 ^ blen (fxes a - 1) <= 2 * fxes a).
  { destruct (Z.eq_dec (fxes a - 1) 0) as [E|E]; [rewrite E; change (2 ^ blen 0) with 1; lia|]. specialize (L3 E).
    assert (blen (fxes a - 1) <> 0) by (intros Z0; rewrite Z0 in L2; lia).
    replace (blen (fxes a - 1)) with (blen (fxes a - 1) - 1 + 1) by lia. rewrite pow2_S by lia. lia. }
  set (sb := blen (fxes a - 1)) in *.
  assert (Hsb : 2 ^ sb <= SH) by (apply pow2_le; lia).
  assert (Hpsb : p * 2 ^ sb < R). { assert (p * 2 ^ sb <= p * SH) by (apply Z.mul_le_mono_nonneg_l; lia). lia. }
  pose proof (ff_wf r FF) as [M1 M2].
  assert (HSB : r_SH r + 2 <= B). { pose proof (ff_S2 r FF). pose proof (ff_hB r FF). lia. }
  destruct (fshl_spec c ltac:(lia) HC (r_MODULUS r) sb ltac:(lia) ltac:(pose proof (cf_N c F); lia) (canon_nrm _ _ M2)) as [m [E1 [E2 [E3 E4]]]].
  { split; [apply Z.mul_nonneg_nonneg; [apply (canon_last c); [lia|exact M2]|apply Z.lt_le_incl, pow2_pos; lia]|].
    rewrite (nrm_top r Hf _ M1 (canon_nrm _ _ M2)). change (V (r_MODULUS r)) with p. pose proof (E0_pos r Hf) as HE0. pose proof (R_E0 r Hf) as ER.
    pose proof (Z.mul_div_le p (E0 r) HE0) as Q. assert (H : E0 r * (p / E0 r * 2 ^ sb) < E0 r * X).
    { assert ((E0 r * (p / E0 r)) * 2 ^ sb <= p * 2 ^ sb) by (apply Z.mul_le_mono_nonneg_r; [apply Z.lt_le_incl, pow2_pos; lia|lia]). lia. }
    apply (Z.mul_lt_mono_pos_l (E0 r)) in H; [|exact HE0]. assert (X <= 2 ^ (C - 1)) by (apply pow2_le; lia). lia. }
  rewrite E1. cbn [bind]. change (V (r_MODULUS r)) with p in E2.
  assert (Wm : within 0 (X - 1) m).
  { apply canon_within. apply (nrm_canon B m N); [lia|exact E3|lia|]. rewrite E2. change (2 ^ (B * Z.of_nat N)) with R.
    split; [apply Z.mul_nonneg_nonneg; [lia|apply Z.lt_le_incl, pow2_pos; lia]|exact Hpsb]. }
  assert (Er : rsub c (fx a) m = sub c m (fx a)).
  { unfold rsub, sub. clear. generalize (fx a). induction m as [|y m IH]; intros [|x w]; cbn [map2o]; try reflexivity. rewrite IH. reflexivity. }
  rewrite Er.
  destruct (sub_total c ltac:(lia) HC _ _ _ _ m (fx a) Wm A2 ltac:(lia)) as [x [S1 S2]]; [lia|lia|].
  rewrite S1. cbn [bind]. destruct (sub_val c _ _ _ S1 ltac:(lia)) as [S3 S4].
  pose proof (ff_S5 r FF) as HS5. destruct (Z.leb_spec 32 (sb + 1)) as [L|_]; [lia|]. rewrite Z.shiftl_mul_pow2, Z.mul_1_l by lia.
  assert (E5 : 2 ^ (sb + 1) = 2 * 2 ^ sb) by (apply pow2_S; lia). assert (P2 : 0 < 2 ^ sb) by (apply pow2_pos; lia).
  rewrite wrap_id by lia. unfold bval in A4.
  assert (Q3 : fxes a * p <= p * 2 ^ sb). { rewrite Z.mul_comm. apply Z.mul_le_mono_nonneg_l; lia. }
  destruct (over_iv hi (lo + 1) (mkfp x (2 ^ (sb + 1)))) as [f [F1 [F2 [F3 [F4 [F5 F6]]]]]]; cbn [fx fxes]; try lia.
  - eapply within_weaken; [exact S2|lia|lia].
  - exists m, x, f, sb. split; [lia|]. split; [exact Wm|]. split; [exact S1|]. split; [lia|]. split; [lia|]. split; [lia|]. split; [exact F1|]. split; [exact F1|]. cbn [fx fxes] in *.
    split. { intros Q. unfold fp_over in F1. cbn [fxes] in F1. destruct (Z.ltb_spec (FEXCESS r) (2 ^ (sb + 1))); [lia|]. congruence. }
    split; [split; [exact F2|exact F3]|]. split; [lia|]. split; [exact F5|]. unfold den, bval in *. rewrite F6, S3, E2.
    rewrite Z.mul_opp_l. rewrite <- (Z.sub_0_l (u * fK r)). apply cg_sub; [|exact DA]. rewrite Z.mod_0_l by lia. rewrite Z.mul_comm. apply Z.mod_mul. lia.
Qed.
Lemma ineg lo hi e a u : 0 <= lo -> 1 <= hi -> hi <= maxg r -> lo + 1 <= maxg r -> (4 * e <= FEXCESS r \/ hi + 1 <= maxg r) -> frep lo hi e a u ->
  exists f, fp_neg r a = Some f /\ frep hi (lo + 1) (4 * e) f (- u).
Proof.
  intros H1 H2 H3 H4 H5 HA. destruct (neg_limbs lo hi e a u H1 H2 H3 H4 H5 HA) as [m [x [f [sb [_ [_ [_ [_ [_ [_ [E [_ [_ Q]]]]]]]]]]]]]. exists f. split; assumption.
Qed.
Lemma isub lo1 hi1 e1 lo2 hi2 e2 a b u v : 0 <= lo1 -> 0 <= lo2 -> 1 <= hi1 -> 1 <= hi2 -> hi1 + lo2 + 1 <= maxg r -> lo1 + hi2 + 1 <= maxg r -> frep lo1 hi1 e1 a u -> frep lo2 hi2 e2 b v ->
  exists f, fp_sub r a b = Some f /\ frep (lo1 + hi2) (hi1 + lo2 + 1) (e1 + 4 * e2) f (u - v).
Proof.
  intros H1 H2 H3 H4 H5 H6 HA HB. unfold fp_sub. destruct (ineg lo2 hi2 e2 b v) as [n [E1 E2]]; try lia; [exact HB|]. rewrite E1. cbn [bind].
  destruct (iadd lo1 hi1 e1 hi2 (lo2 + 1) (4 * e2) a n u (- v)) as [f [E3 E4]]; try lia; try assumption. exists f. split; [exact E3|].
  replace (hi1 + lo2 + 1) with (hi1 + (lo2 + 1)) by lia. replace (u - v) with (u + - v) by lia. exact E4.
Qed.
Lemma inorm lo hi e f v : 0 <= lo -> 1 <= hi -> hi <= maxg r -> lo + 1 <= maxg r -> frep lo hi e f v -> exists f', fp_norm r f = Some f' /\ frep 0 1 e f' v.
Proof.
  intros H1 H2 H3 H4 HA. pose proof (frep_e _ _ _ _ _ HA) as [He _]. destruct (norm_rep r Hf (Z.max (lo + 1) hi) f v ltac:(lia)) as [f' [E1 [E2 E3]]]; [apply (frep_rep lo hi e); [lia|lia|exact HA]|].
  exists f'. split; [exact E1|]. apply rep_frep1; [lia|exact E3].
Qed.
Lemma ireduce lo hi e f v : 0 <= lo -> 1 <= hi -> hi <= maxg r -> lo + 1 <= maxg r -> frep lo hi e f v -> exists f', fp_reduce r f = Some f' /\ frep 0 1 1 f' v /\ V (fx f') = (v * fK r) mod p.
Proof.
  intros H1 H2 H3 H4 HA. destruct (reduce_rep r Hf (Z.max (lo + 1) hi) f v ltac:(lia)) as [f' [E1 [E2 [E3 E4]]]]; [apply (frep_rep lo hi e); [lia|lia|exact HA]|].
  exists f'. split; [exact E1|]. split; [apply rep_frep1; [lia|exact E3]|exact E4].
Qed.
Lemma imulf e1 e2 a b u v : MX r = FEXCESS r -> frep 0 1 e1 a u -> frep 0 1 e2 b v -> exists f, fp_mul r a b = Some f /\ frep 0 1 2 f (u * v).
Proof.
  intros M HA HB. destruct (mul_rep r Hf a b u v (or_introl M)) as [f [E1 [E2 E3]]]; [apply (frep_rep 0 1 e1); [lia|lia|exact HA]|apply (frep_rep 0 1 e2); [lia|lia|exact HB]|].
  exists f. split; [exact E1|]. apply rep_frep1; [lia|exact E3].
Qed.
Lemma isqrf e a u : MX r = FEXCESS r -> frep 0 1 e a u -> exists f, fp_sqr r a = Some f /\ frep 0 1 2 f (u * u).
Proof.
  intros M HA. destruct (sqr_rep r Hf a u (or_introl M)) as [f [E1 [E2 E3]]]; [apply (frep_rep 0 1 e); [lia|lia|exact HA]|].
  exists f. split; [exact E1|]. apply rep_frep1; [lia|exact E3].
Qed.
Lemma idiv2 e a u w : frep 0 1 e a u -> (2 * w) mod p = u mod p -> exists f, fp_div2 r a = Some f /\ frep 0 1 e f w.
Proof.
  intros HA Hw. destruct (div2_rep r Hf a u w) as [f [E1 E2]]; [apply (frep_rep 0 1 e); [lia|lia|exact HA]|exact Hw|]. exists f. split; [exact E1|]. apply rep_frep1; [|exact E2].
  pose proof (frep_e _ _ _ _ _ HA) as [He _]. unfold fp_div2, bind in E1. destruct (if parity (fx a) =? 0 then _ else _); [|discriminate]. destruct (fshr c _ 1); [|discriminate]. inv E1. cbn [fxes]. lia.
Qed.
Lemma iiszilch lo hi e f v : 0 <= lo -> 1 <= hi -> hi <= maxg r -> lo + 1 <= maxg r -> frep lo hi e f v -> fp_iszilch r f = Some (v mod p =? 0).
Proof. intros H1 H2 H3 H4 HA. apply (iszilch_rep r Hf (Z.max (lo + 1) hi)); [lia|]. apply (frep_rep lo hi e); [lia|lia|exact HA]. Qed.
Lemma iequals lo hi e lo' hi' e' f g u v : 0 <= lo -> 1 <= hi -> hi <= maxg r -> lo + 1 <= maxg r -> 0 <= lo' -> 1 <= hi' -> hi' <= maxg r -> lo' + 1 <= maxg r ->
  frep lo hi e f u -> frep lo' hi' e' g v -> fp_equals r f g = Some (u mod p =? v mod p).
Proof. intros. apply (equals_rep r Hf (Z.max (lo + 1) hi) (Z.max (lo' + 1) hi')); [lia|lia|apply (frep_rep lo hi e); [lia|lia|assumption]|apply (frep_rep lo' hi' e'); [lia|lia|assumption]]. Qed.
Lemma iinv lo hi e f u : special r = false -> 0 <= lo -> 1 <= hi -> hi <= maxg r -> lo + 1 <= maxg r -> frep lo hi e f u ->
  exists f', fp_inverse r f = Some f' /\ frep 0 1 1 f' (u ^ (p - 2)).
Proof.
  intros Hs H1 H2 H3 H4 HA. assert (HR : fp_rep r (Z.max (lo + 1) hi) f u) by (apply (frep_rep lo hi e); [lia|lia|exact HA]).
  assert (MXe : MX r = FEXCESS r). { unfold MX. unfold special in Hs. destruct (r_MODTYPE r); try reflexivity; discriminate. }
  assert (PO : powok r f) by (left; exact MXe).
  destruct (inverse_rep r Hf (Z.max (lo + 1) hi) f u ltac:(lia)) as [f' [E1 E2]]; [congruence|intros Q; congruence|exact PO|exact HR|].
  exists f'. split; [exact E1|]. apply rep_frep1; [|exact E2]. unfold fp_inverse in E1. rewrite Hs in E1. unfold bind in E1. destruct (dec c _ _); [|discriminate]. destruct (norm c _) as [e2|] eqn:En; [|discriminate].
  unfold fp_pow in E1. unfold bind in E1. repeat match type of E1 with match ?x with _ => _ end = _ => destruct x; try discriminate E1 end.
  unfold fp_reduce, bind in E1. repeat match type of E1 with match ?x with _ => _ end = _ => destruct x; try discriminate E1 end; inv E1; cbn [fxes]; lia.
Qed.
Lemma inew : frep 0 1 1 (fp_new r) 0.
Proof. apply rep_frep1; [cbn; lia|apply new_rep; exact Hf]. Qed.
Lemma ione : exists f, fp_one r = Some f /\ frep 0 1 2 f 1.
Proof. destruct (one_rep r Hf) as [f [E1 [E2 E3]]]. exists f. split; [exact E1|]. apply rep_frep1; assumption. Qed.
Lemma inewint k : 0 <= k < X -> exists f, fp_new_int r k = Some f /\ frep 0 1 2 f k.
Proof. intros Hk. destruct (new_int_rep r Hf k Hk) as [f [E1 [E2 E3]]]. exists f. split; [exact E1|]. apply rep_frep1; assumption. Qed.
End Iv.

(** Symbolic execution of straight-line field code: each step looks up the facts about the operands in the context. *)
Ltac closedZ t := lazymatch t with
  | ?a + ?b => closedZ a; closedZ b | ?a * ?b => closedZ a; closedZ b | ?a - ?b => closedZ a; closedZ b
  | Z0 => idtac | Zpos _ => idtac | Zneg _ => idtac end.
Ltac zlit t := match constr:(Set) with _ => let _ := match constr:(Set) with _ => closedZ t end in let v := eval vm_compute in t in v | _ => t end.
Ltac fnorm Q := lazymatch type of Q with frep ?r ?lo ?hi ?e ?f ?u =>
  let lo' := zlit lo in let hi' := zlit hi in let e' := zlit e in change (frep r lo' hi' e' f u) in Q end.
Ltac fside r := first [ assumption | match goal with H : 4 <= maxg r |- _ => clear - H; lia end | lia ].
Ltac fgo1 r lem a := lazymatch goal with Hf : fp_ok r |- _ => lazymatch goal with HA : frep r ?lo ?hi ?e a ?u |- _ =>
  let f := fresh "f" in let E := fresh "E" in let Q := fresh "Q" in
  destruct (lem r Hf lo hi e a u) as [f [E Q]]; [fside r ..|]; rewrite E; cbn [bind]; clear E; fnorm Q end end.
Ltac fgo2 r lem a b := lazymatch goal with Hf : fp_ok r |- _ => lazymatch goal with HA : frep r ?lo ?hi ?e a ?u |- _ => lazymatch goal with HB : frep r ?lo2 ?hi2 ?e2 b ?v |- _ =>
  let f := fresh "f" in let E := fresh "E" in let Q := fresh "Q" in
  destruct (lem r Hf lo hi e lo2 hi2 e2 a b u v) as [f [E Q]]; [fside r ..|]; rewrite E; cbn [bind]; clear E; fnorm Q end end end.
Ltac fgom r a b := lazymatch goal with Hf : fp_ok r |- _ => lazymatch goal with HA : frep r 0 1 ?e a ?u |- _ => lazymatch goal with HB : frep r 0 1 ?e2 b ?v |- _ =>
  let f := fresh "f" in let E := fresh "E" in let Q := fresh "Q" in
  destruct (imulf r Hf e e2 a b u v) as [f [E Q]]; [assumption ..|]; rewrite E; cbn [bind]; clear E end end end.
Ltac fgos r a := lazymatch goal with Hf : fp_ok r |- _ => lazymatch goal with HA : frep r 0 1 ?e a ?u |- _ =>
  let f := fresh "f" in let E := fresh "E" in let Q := fresh "Q" in
  destruct (isqrf r Hf e a u) as [f [E Q]]; [assumption ..|]; rewrite E; cbn [bind]; clear E end end.
Ltac fstep := lazymatch goal with
  | |- ex (fun z => bind (fp_add ?r ?a ?b) _ = Some z /\ _) => fgo2 r iadd a b
  | |- ex (fun z => bind (fp_sub ?r ?a ?b) _ = Some z /\ _) => fgo2 r isub a b
  | |- ex (fun z => bind (fp_neg ?r ?a) _ = Some z /\ _) => fgo1 r ineg a
  | |- ex (fun z => bind (fp_norm ?r ?a) _ = Some z /\ _) => fgo1 r inorm a
  | |- ex (fun z => bind (fp_dbl ?r ?a) _ = Some z /\ _) => fgo1 r idbl a
  | |- ex (fun z => bind (fp_inverse ?r ?a) _ = Some z /\ _) => fgo1 r iinv a
  | |- ex (fun z => bind (fp_mul ?r ?a ?b) _ = Some z /\ _) => fgom r a b
  | |- ex (fun z => bind (fp_sqr ?r ?a) _ = Some z /\ _) => fgos r a
  end.
Ltac fmono := lazymatch goal with Hf : fp_ok ?r |- frep ?r _ _ _ ?f _ => lazymatch goal with H : frep r ?lo ?hi ?e f _ |- _ => apply (frep_mono r Hf lo hi e); [lia|lia|lia|exact H] end end.
