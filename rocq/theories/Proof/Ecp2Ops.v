(** The ECP2 methods that the encodings use: right-hand side, constructors, negation, affine form. *)
From Verif Require Import Base.Word Base.Arr Model.Big Model.Roms Model.Fp Model.Fp2 Model.Fp12 Model.Ecp Model.Ecp2
  Spec.BigSpec Spec.RomSpec Spec.FpSpec Spec.EcpSpec Spec.TowerSpec Spec.TowerRep Spec.Sswu2Spec Spec.G2Spec Spec.Ecp2Spec
  Proof.NumTheory Proof.BigVal Proof.BigShift Proof.BigMod Proof.FpBase Proof.FpOps Proof.FpIv Proof.FpWide Proof.TowerRing Proof.TowerInv Proof.Fp2Ops Proof.Fp2Sqrt Proof.BigMontyN Proof.EcpCodec.
From Coq Require Import Lia Znumtheory.

Lemma val_le B w : 0 <= B -> Forall (fun z => z <= 2 ^ B - 1) w -> val B w <= 2 ^ (B * Z.of_nat (length w)) - 1.
Proof.
  intros HB H. induction H as [|z w Hz H IH]; cbn [val length].
  - rewrite Z.mul_0_r. change (2 ^ 0) with 1. lia.
  - replace (B * Z.of_nat (S (length w))) with (B + B * Z.of_nat (length w)) by lia. rewrite Z.pow_add_r by lia. pose proof (Z.pow_pos_nonneg 2 B ltac:(lia) HB) as P.
    assert (Q : 2 ^ B * val B w <= 2 ^ B * (2 ^ (B * Z.of_nat (length w)) - 1)) by (apply Z.mul_le_mono_nonneg_l; lia). rewrite Z.mul_sub_distr_l in Q. lia.
Qed.

Section E2.
Variable r : rom.
Hypothesis Hf : fp_ok r.
Hypothesis Hs : special r = false.
Notation c := (r_cfg r).
Notation X := (2 ^ BASEBITS (r_cfg r)).
Notation V := (val (BASEBITS (r_cfg r))).
Notation p := (pmod r).
Notation FE := (FEXCESS r).
Hypothesis Hp : prime p.
Hypothesis H34 : p mod 4 = 3.
Hypothesis H8 : r_MOD8 r <> 5.
Hypothesis Hw : wide_ok c 1 1.
Hypothesis HT : tower_ok r.
Let HM : MX r = FEXCESS r. Proof. unfold MX. unfold special in Hs. destruct (r_MODTYPE r); try reflexivity; discriminate. Qed.
Let Hp0 : 0 < p := p_pos r Hf.
Let Hmg : 4 <= maxg r := maxg_ge r Hf.
Let FF := fp_ok_facts r Hf.
Let Hok := ff_ok r FF.
Let HFE : 16383 <= FE. Proof. exact (proj1 (proj2 HT)). Qed.
Let pn : p <> 0. Proof. lia. Qed.
Let Hp2 : 2 <= p. Proof. exact (prime_ge_2 p Hp). Qed.
Notation "x == y" := (eq2 p x y) (at level 70).

(** redc of the un-normalised result of FP2::neg *)
Lemma redcn e f u : frep r 1 1 e f u -> exists x, fp_redc r f = Some x /\ big_wf c x /\ V x mod p = u mod p /\ (u mod p <> 0 -> V x = u mod p).
Proof.
  intros [[L W] [[He1 He2] [HV Hd]]]. unfold fp_redc. rewrite Hs. unfold den, fK in Hd. rewrite Hs in Hd. unfold bval in *.
  unfold fp_modulo. pose proof (ff_red r FF) as Hr. unfold rom_red in Hr. pose proof Hs as Es. unfold special in Es. destruct (r_MODTYPE r) eqn:Et; try discriminate; [|contradiction].
  destruct Hr as [_ [Hmc _]]. pose proof (SHp_lt r Hf) as HS. pose proof (SH_pos r Hf) as HS1.
  assert (HVR : V (fx f) < 2 ^ r_SH r * p). { unfold FEXCESS in *. assert (fxes f * p <= 2 ^ r_SH r * p) by (apply Z.mul_le_mono_nonneg_r; lia). lia. }
  assert (H2 : 2 * p < bmax c). { assert (2 * p <= 2 ^ r_SH r * p) by (apply Z.mul_le_mono_nonneg_r; lia). lia. }
  pose proof (cfg_ok_facts _ Hok) as CF. pose proof (cf_B _ CF) as HB. pose proof (cf_N _ CF) as HN.
  assert (HX : 65536 <= X) by (change 65536 with (2 ^ 16); apply pow2_le; lia).
  assert (W' : Forall (fun z => - (X - 1) <= z <= X - 1) (fx f)) by (eapply Forall_impl; [|exact W]; intros z Hz; cbv beta in Hz; lia).
  assert (Ex : fx f = firstn (NLEN c - 1) (fx f) ++ [get (fx f) (NLEN c - 1)]).
  { rewrite <- (firstn_skipn (NLEN c - 1) (fx f)) at 1. f_equal. rewrite get_nth by lia. f_equal. apply skipn_all2. lia. }
  set (lo := firstn (NLEN c - 1) (fx f)) in *. set (y := get (fx f) (NLEN c - 1)) in *.
  assert (Llo : length lo = (NLEN c - 1)%nat) by (unfold lo; apply firstn_length_le; lia).
  assert (Wlo : Forall (fun z => - (X - 1) <= z <= X - 1) lo) by (rewrite Ex in W'; apply Forall_app in W'; tauto).
  assert (Wy : - (X - 1) <= y <= X - 1) by (rewrite Ex in W'; apply Forall_app in W'; destruct W' as [_ W']; inversion W'; assumption).
  assert (Ey : 0 <= y).
  { rewrite Ex in HV. rewrite val_app, Llo in HV by lia. cbn [val] in HV. rewrite Z.mul_0_r, Z.add_0_r in HV.
    assert (Q : V lo <= 2 ^ (BASEBITS c * Z.of_nat (length lo)) - 1) by (apply val_le; [lia|]; eapply Forall_impl; [|exact Wlo]; intros z Hz; cbv beta in Hz; lia). rewrite Llo in Q.
    destruct (Z_lt_ge_dec y 0) as [Hy|Hy]; [|lia]. set (T := 2 ^ (BASEBITS c * Z.of_nat (NLEN c - 1))) in *. assert (TP : 0 < T) by (apply Z.pow_pos_nonneg; [lia|apply Z.mul_nonneg_nonneg; lia]). assert (T * y <= T * (-1)) by (apply Z.mul_le_mono_nonneg_l; lia). lia. }
  assert (Es2 : scopy c (fx f) = lo ++ [y] ++ repeat 0 (NLEN c)).
  { unfold scopy. fold lo y. rewrite bmask_land by lia. rewrite Z.shiftr_div_pow2 by lia. rewrite Z.mod_small, Z.div_small by lia. f_equal. cbn [app]. f_equal. rewrite <- (Nat.sub_add 1 (NLEN c)) at 2 by lia. rewrite Nat.add_comm. reflexivity. }
  assert (V2 : V (scopy c (fx f)) = V (fx f)). { rewrite Es2, Ex. rewrite app_assoc. rewrite (val_app _ (lo ++ [y])), val_repeat0 by lia. ring. }
  destruct (montyn_spec c Hok (r_MODULUS r) (scopy c (fx f)) (r_MCONST r) (ff_wf r FF)) as [x [q [R1 [R2 [R3 R4]]]]].
  { rewrite Es2. split; [rewrite !app_length, repeat_length; cbn [length]; unfold DNLEN; lia|]. apply Forall_app. split; [eapply Forall_impl; [|exact Wlo]; intros z Hz; cbv beta in Hz; lia|]. apply Forall_app. split; [constructor; [lia|constructor]|].
    apply Forall_forall. intros z Hz. apply repeat_spec in Hz. lia. }
  { intros k Hk. rewrite Es2. unfold get. rewrite app_assoc, app_nth2 by (rewrite app_length, Llo; cbn [length]; lia). rewrite nth_repeat. lia. }
  { rewrite V2. lia. }
  { exact Hmc. }
  { change (val (BASEBITS c) (r_MODULUS r)) with p. rewrite V2. assert (2 * p * bmax c <= bmax c * bmax c) by (apply Z.mul_le_mono_nonneg_r; lia).
    assert (p * bmax c >= 2 * bmax c) by (apply Z.le_ge; apply Z.mul_le_mono_nonneg_r; lia). unfold bmax in *. lia. }
  exists x. change (val (BASEBITS c) (r_MODULUS r)) with p in R4. rewrite V2 in R4. change (2 ^ (BASEBITS c * Z.of_nat (NLEN c))) with (bmax c) in R3, R4.
  assert (MC : V x mod p = u mod p).
  { apply (mod_cancel _ _ (bmax c)); [lia| |]. - pose proof (gcd_K r Hf) as G. unfold fK, special in G. rewrite Et in G. exact G. - rewrite R4, Z.mod_add by lia. exact Hd. }
  pose proof (wf_range c Hok _ x R2) as Rx. assert (Q : q * p <= (bmax c - 1) * p) by (apply Z.mul_le_mono_nonneg_r; lia).
  assert (Le : V x <= p). { apply Z.lt_succ_r. apply (Z.mul_lt_mono_pos_r (bmax c)); [lia|]. rewrite R4. replace (Z.succ p * bmax c) with ((bmax c - 1) * p + p + bmax c) by (unfold Z.succ; ring). lia. }
  split; [exact R1|]. split; [exact R2|]. split; [exact MC|]. intros Hz. rewrite <- MC. destruct (Z.eq_dec (V x) p) as [E|E]; [exfalso; apply Hz; rewrite <- MC, E; apply Z.mod_same; lia|]. rewrite Z.mod_small by lia. reflexivity.
Qed.

(** *** The curve *)
Variable tw : twist.
Variable bt : Z2.
Hypothesis HBw : big_wf c (r_CURVE_B r).
Hypothesis Hbt : match tw with MType => bt == mul2 xi (k2 (cB r)) | DType => mul2 xi bt == k2 (cB r) end.
Definition g2x (x : Z2) : Z2 := add2 (mul2 (mul2 x x) x) bt.
Definition emax : Z := 1800.

Lemma mul2e e1 e2 x y u v : e2 <= 524288 -> rep2 r 0 1 e1 x u -> rep2 r 0 1 e2 y v -> exists z, fp2_mul r x y = Some z /\ rep2 r 0 1 3 z (mul2 u v).
Proof.
  intros He. apply (mul2_ok r Hf Hs). pose proof (proj2 (proj2 HT)) as Q. assert (4 * Z.min e2 FE * p <= 4 * Z.min 524288 FE * p) by (apply Z.mul_le_mono_nonneg_r; lia). lia.
Qed.
Lemma half_ex u : exists w, scale2 2 w == u.
Proof.
  exists (scale2 ((p + 1) / 2) u). pose proof (hf2 p H34) as H2. unfold eq2, scale2. cbn [fst snd]. split; rewrite Z.mul_assoc, H2, Z.mul_add_distr_r, Z.mul_1_l, Z.add_comm, Z.mul_comm, Z.mod_add by lia; reflexivity.
Qed.
Lemma b_ok : exists b, (b <- fp2_new_big r (r_CURVE_B r) ;; match tw with DType => fp2_div_ip r b | MType => b <- fp2_norm r b ;; b <- fp2_mul_ip r b ;; fp2_norm r b end) = Some b /\ rep2 r 0 1 10 b bt.
Proof.
  unfold fp2_new_big. destruct (el1_new_big r Hf Hs (r_CURVE_B r) HBw) as [f [E1 E2]]. rewrite E1. cbn [bind]. apply (proj1 (el1_frep r Hf _ _ _)) in E2. fold (cB r) in E2.
  assert (R0 : rep2 r 0 1 2 (mkfp2 f (fp_new r)) (k2 (cB r))) by (split; cbn [f2a f2b k2 fst snd]; [exact E2|eapply (frep_mono r Hf); [| | |apply inew; exact Hf]; lia]).
  destruct tw.
  - unfold fp2_div_ip. destruct (div_ip2_ok r Hf 0 1 2 _ _ ltac:(lia) ltac:(lia) ltac:(lia) ltac:(lia) R0) as [t [T1 T2]]. rewrite T1. cbn [bind].
    apply (div22_ok r Hf (5 * 2) t _ bt T2).
    eapply eq2_trans; [|apply eq2_mul; [exact pn|apply eq2_refl|exact Hbt]]. replace (mul2 (1, -1) (mul2 xi bt)) with (scale2 2 bt); [apply eq2_refl|]. destruct bt as [b0 b1]. unfold mul2, xi, scale2. cbn [fst snd]. f_equal; ring.
  - destruct (norm2_ok r Hf 0 1 2 _ _ ltac:(lia) ltac:(lia) ltac:(lia) ltac:(lia) R0) as [t [T1 T2]]. rewrite T1. cbn [bind]. destruct (mul_ip2_ok r Hf 2 t _ T2) as [u [U1 U2]]. rewrite U1. cbn [bind].
    destruct (norm2_ok r Hf 1 2 (5 * 2) u _ ltac:(lia) ltac:(lia) ltac:(lia) ltac:(lia) U2) as [w [W1 W2]]. exists w. split; [exact W1|]. eapply rep2_cong; [apply eq2_sym; exact Hbt|exact W2].
Qed.
Lemma rhs2_ok e x v : e <= 524288 -> rep2 r 0 1 e x v -> exists z, ecp2_rhs r tw x = Some z /\ rep2 r 0 1 1 z (g2x v) /\ V (fx (f2a z)) < p /\ V (fx (f2b z)) < p.
Proof.
  intros He H. unfold ecp2_rhs. destruct (sqr2_ok r Hf Hs e x v H) as [s [S1 S2]]. rewrite S1. cbn [bind]. destruct b_ok as [b [B1 B2]].
  destruct (fp2_new_big r (r_CURVE_B r)) as [b0|]; [|discriminate B1]. cbn [bind] in B1 |- *.
  assert (B1' : (match tw with DType => fp2_div_ip r b0 | MType => b <- fp2_norm r b0 ;; b <- fp2_mul_ip r b ;; fp2_norm r b end) = Some b) by exact B1. rewrite B1'. cbn [bind].
  destruct (mul2e 2 e s x _ _ He S2 H) as [m [M1 M2]]. rewrite M1. cbn [bind]. destruct (add2_ok r Hf 0 1 3 0 1 10 m b _ _ ltac:(lia) ltac:(lia) ltac:(lia) ltac:(lia) ltac:(lia) ltac:(lia) ltac:(left; lia) M2 B2) as [a [A1 A2]]. rewrite A1. cbn [bind].
  destruct (reduce2_ok r Hf (0 + 0) (1 + 1) (3 + 10) a _ ltac:(lia) ltac:(lia) ltac:(lia) ltac:(lia) A2) as [z [Z1 Z2]]. exists z. split; [exact Z1|]. split; [exact Z2|]. destruct Z2 as [Za Zb]. split; [exact (V_of1 r _ _ Za)|exact (V_of1 r _ _ Zb)].
Qed.
Lemma one2_ok : exists o, fp2_new_int r 1 = Some o /\ rep2 r 0 1 2 o one2.
Proof.
  pose proof (cf_B _ (cfg_ok_facts _ Hok)) as HB. assert (X1 : 0 <= 1 < X). { split; [lia|]. assert (2 ^ 16 <= X) by (apply pow2_le; lia). change (2 ^ 16) with 65536 in *. lia. }
  unfold fp2_new_int. destruct (inewint r Hf 1 X1) as [f [E1 E2]]. rewrite E1. cbn [bind]. eexists. split; [reflexivity|]. split; cbn [f2a f2b one2 fst snd]; [exact E2|eapply (frep_mono r Hf); [| | |apply inew; exact Hf]; lia].
Qed.
Lemma one2_ok' : exists o, fp2_one r = Some o /\ rep2 r 0 1 2 o one2.
Proof.
  unfold fp2_one. destruct (ione r Hf) as [f [E1 E2]]. rewrite E1. cbn [bind]. eexists. split; [reflexivity|]. unfold fp_zero. split; cbn [f2a f2b one2 fst snd]; [exact E2|eapply (frep_mono r Hf); [| | |apply inew; exact Hf]; lia].
Qed.
Lemma new2_ok : rep2 r 0 1 1 (fp2_new r) zero2.
Proof. split; apply inew; exact Hf. Qed.
(** coordinates of an object *)
Definition rep3 (e : Z) (P : ecp2) (x y z : Z2) : Prop := rep2 r 0 1 e (x2 P) x /\ rep2 r 0 1 e (y2 P) y /\ rep2 r 0 1 e (z2 P) z.
Lemma inf2_ok : exists P, ecp2_inf r = Some P /\ rep3 2 P zero2 one2 zero2.
Proof.
  unfold ecp2_inf. destruct one2_ok' as [o [O1 O2]]. rewrite O1. cbn [bind]. eexists. split; [reflexivity|]. split; [|split]; cbn [x2 y2 z2]; [|exact O2|]; (eapply (rep2_mono r Hf); [| | |apply new2_ok]; lia).
Qed.
Lemma enew_ok : exists P, ecp2_new r = Some P /\ rep3 2 P zero2 one2 zero2.
Proof.
  unfold ecp2_new. destruct one2_ok as [o [O1 O2]]. rewrite O1. cbn [bind]. eexists. split; [reflexivity|]. split; [|split]; cbn [x2 y2 z2]; [|exact O2|]; (eapply (rep2_mono r Hf); [| | |apply new2_ok]; lia).
Qed.
Definition eqb2 (u v : Z2) : bool := (fst u mod p =? fst v mod p) && (snd u mod p =? snd v mod p).
Lemma eqb2_iff u v : eqb2 u v = true <-> u == v.
Proof. unfold eqb2, eq2. rewrite andb_true_iff, !Z.eqb_eq. tauto. Qed.
Theorem new_fp2s_ok e x y u v : 2 <= e <= 524288 -> rep2 r 0 1 e x u -> rep2 r 0 1 e y v ->
  exists P, ecp2_new_fp2s r tw x y = Some P /\ ((mul2 v v == g2x u /\ rep3 e P u v one2 /\ y2 P = y /\ fp2_norm r x = Some (x2 P)) \/ (~ mul2 v v == g2x u /\ rep3 2 P zero2 one2 zero2)).
Proof.
  intros He HX HY. unfold ecp2_new_fp2s. destruct one2_ok as [o [O1 O2]]. rewrite O1. cbn [bind]. destruct (norm2_ok r Hf 0 1 e x u ltac:(lia) ltac:(lia) ltac:(lia) ltac:(lia) HX) as [x' [N1 N2]]. rewrite N1. cbn [bind].
  destruct (rhs2_ok e x' u ltac:(lia) N2) as [h [H1 [H2 _]]]. rewrite H1. cbn [bind]. destruct (sqr2_ok r Hf Hs e y v HY) as [s [S1 S2]]. rewrite S1. cbn [bind].
  rewrite (equals2_ok r Hf 0 1 2 0 1 1 s h (mul2 v v) (g2x u)) by (try lia; assumption). cbn [bind]. change ((fst (mul2 v v) mod p =? fst (g2x u) mod p) && (snd (mul2 v v) mod p =? snd (g2x u) mod p)) with (eqb2 (mul2 v v) (g2x u)). pose proof (eqb2_iff (mul2 v v) (g2x u)) as Q.
  destruct (eqb2 (mul2 v v) (g2x u)); cbn [negb].
  - eexists. split; [reflexivity|]. left. split; [apply Q; reflexivity|]. split; [|split; [reflexivity|exact eq_refl]]. split; [exact N2|]. split; [exact HY|]. cbn [z2]. eapply (rep2_mono r Hf); [| | |exact O2]; lia.
  - destruct inf2_ok as [P [P1 P2]]. exists P. split; [exact P1|]. right. split; [|exact P2]. intros E. apply Q in E. discriminate E.
Qed.
Theorem new_fp2_ok e x u : 2 <= e <= 524288 -> rep2 r 0 1 e x u ->
  exists P, ecp2_new_fp2 r tw x = Some P /\
   ((~ real_nonres p (g2x u) /\ exists w, mul2 w w == g2x u /\ rep3 e P u w one2 /\ fp2_norm r x = Some (x2 P)) \/
    (((~ is_sq p (norm2 (g2x u))) \/ real_nonres p (g2x u)) /\ rep3 2 P zero2 one2 zero2)).
Proof.
  intros He HX. unfold ecp2_new_fp2. destruct enew_ok as [E0 [E1 _]]. rewrite E1. cbn [bind]. destruct one2_ok' as [o [O1 O2]]. rewrite O1. cbn [bind]. destruct (norm2_ok r Hf 0 1 e x u ltac:(lia) ltac:(lia) ltac:(lia) ltac:(lia) HX) as [x' [N1 N2]]. rewrite N1. cbn [bind].
  destruct (rhs2_ok e x' u ltac:(lia) N2) as [h [H1 [H2 _]]]. rewrite H1. cbn [bind]. destruct (sqrt2_ok r Hf Hs Hp H34 H8 1 ltac:(lia) Hw Hw 1 h _ H2) as [b [z [S1 [S2 S3]]]]. rewrite S1. cbn [bind fst snd]. destruct b.
  - destruct (S2 eq_refl) as [R0 [w [R1 R2]]]. eexists. split; [reflexivity|]. left. split; [exact R0|]. exists w. split; [exact R2|]. split; [|exact eq_refl]. split; [exact N2|]. split; cbn [y2 z2].
    + destruct R1 as [R1|[R1 [R3 ->]]]; [eapply (rep2_mono r Hf); [| | |exact R1]; lia|]. eapply rep2_cong; [|eapply (rep2_mono r Hf); [| | |exact H2]; lia]. eapply eq2_trans; [exact R1|apply eq2_sym; exact R3].
    + eapply (rep2_mono r Hf); [| | |exact O2]; lia.
  - destruct inf2_ok as [P [P1 P2]]. exists P. split; [exact P1|]. right. split; [exact (proj2 (S3 eq_refl))|exact P2].
Qed.
Lemma is_inf2_ok e P x y z : rep3 e P x y z -> ecp2_is_infinity r P = Some (eqb2 x zero2 && eqb2 z zero2).
Proof.
  intros [A [_ B]]. unfold ecp2_is_infinity. rewrite (iszilch2_ok r Hf 0 1 e _ x) by (try lia; assumption). cbn [bind]. unfold eqb2, zero2. cbn [fst snd]. rewrite !Z.mod_0_l by lia. destruct ((fst x mod p =? 0) && (snd x mod p =? 0)); [|reflexivity].
  rewrite (iszilch2_ok r Hf 0 1 e _ z) by (try lia; assumption). reflexivity.
Qed.
Lemma neg3_ok e P x y z : 9 * e <= FE -> rep3 e P x y z -> exists Q, ecp2_neg r P = Some Q /\ rep3 (9 * e) Q x (neg2 y) z /\ x2 Q = x2 P /\ z2 Q = z2 P.
Proof.
  intros He [A [B C]]. assert (E1 : 1 <= e) by (destruct A as [A _]; apply (frep_e r) in A; lia). unfold ecp2_neg. destruct (norm2_ok r Hf 0 1 e _ _ ltac:(lia) ltac:(lia) ltac:(lia) ltac:(lia) B) as [a [N1 N2]]. rewrite N1. cbn [bind].
  destruct (neg2_ok r Hf 0 1 e a _ ltac:(lia) ltac:(lia) ltac:(lia) ltac:(lia) He N2) as [b [M1 M2]]. rewrite M1. cbn [bind].
  destruct (norm2_ok r Hf 1 (0 + 1) (9 * e) b _ ltac:(lia) ltac:(lia) ltac:(lia) ltac:(lia) M2) as [d [K1 K2]]. rewrite K1. cbn [bind]. eexists. split; [reflexivity|]. split; [|split; reflexivity].
  split; cbn [x2 y2 z2]; [eapply (rep2_mono r Hf); [| | |exact A]; lia|]. split; [exact K2|eapply (rep2_mono r Hf); [| | |exact C]; lia].
Qed.
Lemma one_nz : ~ one2 == zero2.
Proof. intros [H _]. unfold one2, zero2 in H. cbn [fst] in H. rewrite Z.mod_1_l, Z.mod_0_l in H by lia. discriminate H. Qed.
Lemma norm_nz z : ~ z == zero2 -> norm2 z mod p <> 0.
Proof. intros H E. apply H. exact (norm2_zero p Hp z H34 E). Qed.
(** affine(): the object itself when z is one, reduced coordinates otherwise *)
Lemma aff2_ok e P x y z : 2 <= e -> rep3 e P x y z -> ~ z == zero2 ->
  exists W, ecp2_affine r P = Some W /\ exists x' y', mul2 x' z == x /\ mul2 y' z == y /\ rep3 e W x' y' one2 /\
   ((z == one2 /\ W = P) \/ (~ z == one2 /\ rep2 r 0 1 1 (x2 W) x' /\ rep2 r 0 1 1 (y2 W) y')).
Proof.
  intros He H NZ. unfold ecp2_affine. rewrite (is_inf2_ok e P x y z H). cbn [bind]. replace (eqb2 x zero2 && eqb2 z zero2) with false.
  2:{ symmetry. apply andb_false_iff. right. destruct (eqb2 z zero2) eqn:E; [|reflexivity]. apply eqb2_iff in E. contradiction. }
  destruct H as [A [B C]]. destruct one2_ok as [o [O1 O2]]. rewrite O1. cbn [bind]. rewrite (equals2_ok r Hf 0 1 e 0 1 2 (z2 P) o z one2) by (try lia; assumption). cbn [bind].
  change ((fst z mod p =? fst one2 mod p) && (snd z mod p =? snd one2 mod p)) with (eqb2 z one2). pose proof (eqb2_iff z one2) as Q. destruct (eqb2 z one2).
  - pose proof (proj1 Q eq_refl) as E. exists P. split; [reflexivity|]. exists x, y. split; [|split; [|split; [|left; auto]]].
    + eapply eq2_trans; [apply eq2_mul; [exact pn|apply eq2_refl|exact E]|]. replace (mul2 x one2) with x by ring. apply eq2_refl.
    + eapply eq2_trans; [apply eq2_mul; [exact pn|apply eq2_refl|exact E]|]. replace (mul2 y one2) with y by ring. apply eq2_refl.
    + split; [exact A|]. split; [exact B|]. eapply rep2_cong; [exact E|exact C].
  - destruct (inverse2_ok r Hf Hs 0 1 e (z2 P) z ltac:(lia) ltac:(lia) ltac:(lia) ltac:(lia) C) as [i [I1 I2]]. rewrite I1. cbn [bind]. set (w := scale2 (norm2 z ^ (p - 2)) (conj2 z)) in *.
    destruct (mul2e e 2 _ _ _ _ ltac:(lia) A I2) as [a [A1 A2]]. rewrite A1. cbn [bind]. destruct (reduce2_ok r Hf 0 1 3 a _ ltac:(lia) ltac:(lia) ltac:(lia) ltac:(lia) A2) as [a' [A3 A4]]. rewrite A3. cbn [bind].
    destruct (mul2e e 2 _ _ _ _ ltac:(lia) B I2) as [b [B1 B2]]. rewrite B1. cbn [bind]. destruct (reduce2_ok r Hf 0 1 3 b _ ltac:(lia) ltac:(lia) ltac:(lia) ltac:(lia) B2) as [b' [B3 B4]]. rewrite B3. cbn [bind].
    assert (IW : mul2 z w == one2) by (exact (inv2v_ok p Hp z (norm_nz z NZ))).
    assert (KK : forall t, mul2 (mul2 t w) z == t). { intros t. replace (mul2 (mul2 t w) z) with (mul2 t (mul2 z w)) by ring. eapply eq2_trans; [apply eq2_mul; [exact pn|apply eq2_refl|exact IW]|]. replace (mul2 t one2) with t by ring. apply eq2_refl. }
    eexists. split; [reflexivity|]. exists (mul2 x w), (mul2 y w). split; [apply KK|]. split; [apply KK|]. cbn [x2 y2 z2]. split.
    + split; cbn [x2 y2 z2]; [eapply (rep2_mono r Hf); [| | |exact A4]; lia|]. split; [eapply (rep2_mono r Hf); [| | |exact B4]; lia|eapply (rep2_mono r Hf); [| | |exact O2]; lia].
    + right. split; [|split; assumption]. intros E. apply Q in E. discriminate E.
Qed.
Lemma cancel2 a b z : ~ z == zero2 -> mul2 a z == mul2 b z -> a == b.
Proof.
  intros NZ E. pose proof (inv2v_ok p Hp z (norm_nz z NZ)) as I. match type of I with eq2 _ (mul2 _ ?t) _ => set (w := t) in * end.
  assert (K : forall t, mul2 (mul2 t z) w == t). { intros t. replace (mul2 (mul2 t z) w) with (mul2 t (mul2 z w)) by ring. eapply eq2_trans; [apply eq2_mul; [exact pn|apply eq2_refl|exact I]|]. replace (mul2 t one2) with t by ring. apply eq2_refl. }
  eapply eq2_trans; [apply eq2_sym; apply K|]. eapply eq2_trans; [apply eq2_mul; [exact pn|exact E|apply eq2_refl]|]. apply K.
Qed.
End E2.
