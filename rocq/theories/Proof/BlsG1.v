(** G1 encodings of bls381/core.rs. *)
From Verif Require Import Base.Word Base.Arr Model.Big Model.Roms Model.Fp Model.Fp2 Model.Ecp Model.HashToCurve Model.Bls
  Spec.Bytes Spec.BigSpec Spec.RomSpec Spec.FpSpec Spec.CurveSpec Spec.EcpSpec Spec.JacobiSpec Spec.BlsSpec
  Proof.NumTheory Proof.BigVal Proof.BigBytes Proof.BigMod Proof.FpBase Proof.FpOps Proof.FpIv Proof.FpPow Proof.FpExp Proof.FpSqrt Proof.FieldP Proof.Weier Proof.EcpOps Proof.EcpW Proof.EcpBridge Proof.EcpMul Proof.EcpInst
  Proof.EcpCodec Proof.EcpCodec2 Proof.EcpCodec3.
From Coq Require Import Lia Znumtheory.

Section G1.
Variable r : rom.
Notation c := (r_cfg r).
Notation p := (pmod r).
Notation FX := (FEXCESS r).
Notation V := (bval c).
Notation RHS := (w_rhs r).
Hypothesis Hw : w_ok r.
Hypothesis Hc : codec r.
Hypothesis Hns : special r = false.
Hypothesis Hn2 : no_order2 p (cA r) (cB r).
Let Hf : fp_ok r := proj1 Hw.
Let HMX : MX r = FX := proj1 (proj2 Hw).
Let Hfp : fpow_ok r := proj1 (proj2 (proj2 Hw)).
Let Hp : prime p := proj1 Hc.
Let Hs5 : sqrt_ok5 r := proj1 (proj2 Hc).
Let Hok : cfg_ok c := ff_ok r (fp_ok_facts r Hf).
Let Hmg : 4 <= maxg r := maxg_ge r Hf.
Let Hp3 : 3 < p := p_gt3 r Hf.

Lemma new_big_ok ix : big_wf c ix -> V ix < p ->
  exists P, ecp_new_big r ix = Some P /\
    ((exists w, (w * w) mod p = RHS (V ix) mod p /\ RHS (V ix) mod p <> 0 /\ prep r P (V ix, w, 1)) \/
     (~ (RHS (V ix) mod p <> 0 /\ exists w, (w * w) mod p = RHS (V ix) mod p) /\ neutral r P)).
Proof.
  intros WX LX. unfold ecp_new_big. destruct (new_ok r Hf) as [E0 [N1 N2]]. rewrite N1. cbn [bind]. destruct (nbig r Hf ix WX LX) as [x [X1 X2]]. destruct (ione r Hf) as [o [O1 O2]].
  rewrite X1. cbn [bind]. destruct (nrm r Hf _ _ _ X2) as [x' [M1 M2]]. rewrite M1. cbn [bind]. rewrite O1. cbn [bind]. destruct (rhs_w r Hw 2 x' _ ltac:(lia) M2) as [h [H1 H2]]. rewrite H1. cbn [bind].
  destruct (jac_ok r Hf Hp 1 h _ H2 (V_of1 r _ _ H2)) as [j [J1 J2]]. rewrite J1. cbn [bind].
  destruct (Z.eqb_spec j 1) as [Ej|Ej].
  - assert (Sq : RHS (V ix) mod p <> 0 /\ exists w, (w * w) mod p = RHS (V ix) mod p) by (destruct J2 as [[_ J2]|[[A [B _]]|[_ [_ J2]]]]; [lia|split; [exact A|exact B]|lia]). destruct Sq as [Nz Sq].
    rewrite (w_nm r Hw).
    destruct (sqrt_rep r Hf 1 h (RHS (V ix)) Hp ltac:(lia) Hfp Hs5 (frep_rep r Hf 0 1 1 h _ 1 ltac:(lia) ltac:(lia) H2) Sq) as [ny [w [Y1 [Y2 Y3]]]]. rewrite Y1. cbn [bind].
    assert (Y4 : frep r 0 1 FX ny w) by (apply rep_frep1; [destruct Y2 as [[_ [_ [Y2 _]]] _]; lia|exact Y2]).
    eexists. split; [reflexivity|]. left. exists w. split; [exact Y3|]. split; [exact Nz|]. unfold prep. cbn [ex ey ez fst snd].
    split; [eapply frep_up; eassumption|]. split; [exact Y4|eapply frep_up; eassumption].
  - destruct (inf_ok r Hf (w_nm r Hw) (mkecp x' (ey E0) o)) as [P [P1 P2]]. exists P. split; [exact P1|]. right. split; [|exact P2]. intros [Nz Sq].
    destruct J2 as [[A _]|[[_ [_ A]]|[_ [A _]]]]; [apply Nz; exact A|lia|apply A; exact Sq].
Qed.
Lemma y_nz x y : on_w p (cA r) (cB r) (Aff x y) -> 0 < y.
Proof.
  intros [Hx [Hy E]]. unfold residue in *. destruct (Z.eq_dec y 0) as [->|]; [|lia]. exfalso. apply (Hn2 x). unfold cong in *. rewrite <- E. reflexivity.
Qed.
Lemma is_inf_aff P x y : w_point r P (Aff x y) -> ecp_is_infinity r P = Some false.
Proof.
  intros H. pose proof (proj1 (w_point_den r Hw Hp P _) H) as [_ HD]. destruct (w_is_inf r Hw Hp P _ HD) as [i [I1 I2]].
  destruct i; [|exact I1]. pose proof (proj1 I2 eq_refl) as I3. cbn [ak] in I3. discriminate I3.
Qed.
Lemma is_inf_inf P : w_point r P Inf -> ecp_is_infinity r P = Some true.
Proof. intros H. pose proof (proj1 (w_point_den r Hw Hp P _) H) as [_ HD]. destruct (w_is_inf r Hw Hp P _ HD) as [i [I1 I2]]. rewrite I1. f_equal. apply I2. reflexivity. Qed.
Lemma up f u : fp_rep r 1 f u -> frep r 0 1 FX f u.
Proof. intros H. apply (rep_frep1 r); [destruct H as [[_ [_ [H _]]] _]; lia|exact H]. Qed.
Lemma gety_ok P x y : w_point r P (Aff x y) -> exists yr, ecp_gety r P = Some yr /\ big_wf c yr /\ V yr = y.
Proof.
  intros H. pose proof (is_inf_aff P x y H) as HI. pose proof (y_nz x y (proj1 H)) as Y0. destruct H as [[Hx [Hy He]] [X [Y [Z [[CX [CY CZ]] [NZ [E1 E2]]]]]]]. unfold residue, cong in *. pose proof (p_gt3 r Hf) as H3.
  rewrite (Z.mod_0_l p) in NZ by lia.
  destruct (aff_store r Hf HMX Hfp (w_nm r Hw) P X Y Z ltac:(unfold prep; cbn [fst snd]; auto using up) NZ HI) as [W [EA D]].
  unfold ecp_gety. rewrite EA. cbn [bind].
  assert (YM : (Y * Z ^ (p - 2)) mod p = y). { rewrite Z.mul_mod by lia. rewrite <- E2. rewrite <- Z.mul_mod by lia. rewrite <- Z.mul_assoc. rewrite Z.mul_mod by lia. rewrite fermat_inv by assumption. rewrite Z.mul_1_r, Z.mod_mod by lia. apply Z.mod_small. lia. }
  destruct D as [[D1 D2]|[D1 [D2 D3]]].
  - subst W. destruct (redc_any r Hf FX (ey P) Y (up _ _ CY)) as [yr [R1 [R2 [R3 [R4 R5]]]]]. exists yr. split; [exact R1|]. split; [exact R2|].
    assert (Ym : Y mod p = y). { rewrite <- E2. rewrite Z.mul_mod, D1 by lia. rewrite Z.mul_1_r, Z.mod_mod by lia. apply Z.mod_small. lia. }
    unfold bval. rewrite (R5 Hns) by (rewrite Ym; lia). exact Ym.
  - destruct (redc_any r Hf 1 (ey W) _ D3) as [yr [R1 [R2 [R3 [R4 R5]]]]]. exists yr. split; [exact R1|]. split; [exact R2|]. unfold bval. rewrite (R4 (V_of1 r _ _ D3)). exact YM.
Qed.
Lemma getx_ok P x y : w_point r P (Aff x y) -> x_writable r P x -> exists xr, ecp_getx r P = Some xr /\ big_wf c xr /\ V xr = x.
Proof.
  intros H HX. pose proof (is_inf_aff P x y H) as HI. destruct H as [[Hx [Hy He]] [X [Y [Z [[CX [CY CZ]] [NZ [E1 E2]]]]]]]. unfold residue, cong in *. pose proof (p_gt3 r Hf) as H3.
  rewrite (Z.mod_0_l p) in NZ by lia.
  destruct (aff_store r Hf HMX Hfp (w_nm r Hw) P X Y Z ltac:(unfold prep; cbn [fst snd]; auto using up) NZ HI) as [W [EA D]].
  unfold ecp_getx. rewrite EA. cbn [bind].
  destruct D as [[D1 D2]|[D1 [D3 D2]]].
  - subst W. destruct (redc_any r Hf FX (ex P) X (up _ _ CX)) as [xr [R1 [R2 [R3 [R4 R5]]]]]. exists xr. split; [exact R1|]. split; [exact R2|].
    assert (Xm : X mod p = x). { rewrite <- E1. rewrite Z.mul_mod, D1 by lia. rewrite Z.mul_1_r, Z.mod_mod by lia. apply Z.mod_small. lia. }
    unfold bval. destruct HX as [HX|[HX|HX]].
    + exfalso. apply HX. unfold fp_rep, den in *. destruct CZ as [L CZ]. split; [exact L|]. rewrite CZ. rewrite <- Z.mul_mod_idemp_l, D1 by lia. reflexivity.
    + rewrite R4 by exact HX. exact Xm.
    + rewrite (R5 Hns) by (rewrite Xm; exact HX). exact Xm.
  - destruct (redc_any r Hf 1 (ex W) _ D3) as [xr [R1 [R2 [R3 [R4 R5]]]]]. exists xr. split; [exact R1|]. split; [exact R2|]. unfold bval. rewrite (R4 (V_of1 r _ _ D3)).
    rewrite Z.mul_mod by lia. rewrite <- E1. rewrite <- Z.mul_mod by lia. rewrite <- Z.mul_assoc. rewrite Z.mul_mod by lia. rewrite fermat_inv by assumption. rewrite Z.mul_1_r, Z.mod_mod by lia. apply Z.mod_small. lia.
Qed.
Lemma affine_ok P A : w_point r P A -> exists W, ecp_affine r P = Some W /\ w_point r W A.
Proof.
  intros H. pose proof (proj1 (w_point_den r Hw Hp P _) H) as [O HD]. destruct (w_affine r Hw Hp P _ HD) as [W [E [D _]]]. exists W. split; [exact E|]. apply w_point_den; auto.
Qed.
Lemma neg_ok P A : w_point r P A -> exists R, ecp_neg r P = Some R /\ w_point r R (w_neg p A).
Proof.
  intros H. pose proof (proj1 (w_point_den r Hw Hp P _) H) as [O HD]. destruct (w_negate r Hw Hp P _ HD) as [R [R1 R2]]. exists R. split; [exact R1|]. apply (den_w_point r Hw Hp) in R2. rewrite <- w_neg_sp, (sp_ak _ _ _ A O) in R2. exact R2.
Qed.
Lemma comp_gt a b : big_wf c a -> big_wf c b -> (0 <? comp a b) = (V b <? V a).
Proof.
  intros [L W] [L2 W2]. rewrite (comp_spec c); [|pose proof (cf_B _ (cfg_ok_facts _ Hok)); lia|apply canon_nrm; exact W|apply canon_nrm; exact W2|congruence].
  unfold bval. destruct (Z.compare_spec (val (BASEBITS c) a) (val (BASEBITS c) b)) as [E|E|E]; destruct (Z.ltb_spec (val (BASEBITS c) b) (val (BASEBITS c) a)); try lia; reflexivity.
Qed.
Notation N := (mbytes r).
Hypothesis HN : (1 <= N)%nat.
Hypothesis Hbits : p <= 2 ^ (8 * Z.of_nat N - 3).
Lemma tob w : big_wf c w -> tobytes c w (repeat 0 N) = Some (i2osp (V w) N).
Proof.
  intros W. unfold tobytes. rewrite (tobytearray_spec c Hok w (repeat 0 N) 0 W) by (rewrite repeat_length; unfold mbytes; lia). cbn [firstn app Nat.add]. rewrite skipn_all2 by (rewrite repeat_length; unfold mbytes; lia). rewrite app_nil_r. reflexivity.
Qed.
(** head and tail of an N-byte big-endian encoding *)
Lemma i2osp_head v m : i2osp v (S m) = (v / 256 ^ Z.of_nat m) mod 256 :: i2osp v m.
Proof.
  revert v. induction m as [|m IH]; intros v.
  - cbn [i2osp app]. change (Z.of_nat 0) with 0. rewrite Z.pow_0_r, Z.div_1_r. reflexivity.
  - cbn [i2osp] in *. rewrite IH. cbn [app]. rewrite Z.div_div, <- Z.pow_succ_r by lia. rewrite <- Nat2Z.inj_succ. reflexivity.
Qed.
Lemma i2osp_low v k m : i2osp (k * 256 ^ Z.of_nat m + v) m = i2osp v m.
Proof. rewrite <- (i2osp_os2ip (i2osp (k * 256 ^ Z.of_nat m + v) m)) by apply i2osp_bytes. rewrite <- (i2osp_os2ip (i2osp v m)) by apply i2osp_bytes. rewrite !i2osp_length, !os2ip_i2osp. f_equal. rewrite Z.add_comm. apply Z.mod_add. lia. Qed.
Notation T := (256 ^ Z.of_nat (N - 1)).
Lemma T_pow k : 0 <= k <= 8 -> 2 ^ (8 * Z.of_nat N - k) = 2 ^ (8 - k) * T.
Proof. intros H. change 256 with (2 ^ 8). rewrite <- Z.pow_mul_r, <- Z.pow_add_r by lia. f_equal. lia. Qed.
Lemma flag_head k x : 0 <= k < 8 -> 0 <= x < 2 ^ (8 * Z.of_nat N - 3) -> i2osp (k * 2 ^ (8 * Z.of_nat N - 3) + x) N = (32 * k + x / T) :: i2osp x (N - 1) /\ 0 <= x / T < 32.
Proof.
  intros Hk Hx. rewrite (T_pow 3) in * by lia. change (2 ^ (8 - 3)) with 32 in *. assert (TP : 0 < T) by (apply Z.pow_pos_nonneg; lia).
  assert (D : 0 <= x / T < 32) by (split; [apply Z.div_pos; lia|apply Z.div_lt_upper_bound; lia]). split; [|exact D].
  replace N with (S (N - 1)) at 2 by lia. rewrite i2osp_head. replace (k * (32 * T) + x) with ((32 * k) * T + x) by ring. rewrite i2osp_low. rewrite Z.div_add_l by lia. rewrite Z.mod_small by lia. reflexivity.
Qed.
Lemma x_head x : 0 <= x < p -> i2osp x N = (x / T) :: i2osp x (N - 1) /\ 0 <= x / T < 32.
Proof. intros H. destruct (flag_head 0 x ltac:(lia) ltac:(lia)) as [E1 E2]. rewrite Z.mul_0_l, Z.add_0_l in E1. rewrite Z.mul_0_r, Z.add_0_l in E1. auto. Qed.
Lemma xuadd bd x v : x + v < 256 -> 0 <= x -> 0 <= v -> uadd bd 8 x v = Some (x + v).
Proof. intros H H1 H2. unfold uadd, chku, in_u, wrapu. change (2 ^ 8) with 256. destruct bd; [|rewrite Z.mod_small by lia; reflexivity]. destruct (Z.leb_spec 0 (x + v)); [|lia]. destruct (Z.ltb_spec (x + v) 256); [reflexivity|lia]. Qed.
Lemma zeros_osp m : i2osp 0 m = repeat 0 m.
Proof. induction m as [|m IH]; [reflexivity|]. cbn [i2osp]. rewrite Z.div_0_l, Z.mod_0_l, IH by lia. change [0] with (repeat 0 1). rewrite <- repeat_app. f_equal. lia. Qed.
Lemma cinf : compress1 p N Inf = (64 + 128) :: repeat 0 (N - 1).
Proof.
  unfold compress1, bit_compressed, bit_infinity. destruct (flag_head 6 0 ltac:(lia)) as [E _]. { split; [lia|]. apply Z.pow_pos_nonneg; lia. }
  rewrite Z.add_0_r in E. rewrite <- zeros_osp. rewrite Z.div_0_l in E by (apply Z.pow_nonzero; lia). change (64 + 128) with (32 * 6 + 0). rewrite <- E. f_equal. rewrite (T_pow 1), (T_pow 2), (T_pow 3) by lia. change (2 ^ (8 - 1)) with 128. change (2 ^ (8 - 2)) with 64. change (2 ^ (8 - 3)) with 32. ring.
Qed.
Lemma pinf : plain1 N Inf = 64 :: repeat 0 (2 * N - 1).
Proof.
  unfold plain1, bit_infinity. destruct (flag_head 2 0 ltac:(lia)) as [E _]. { split; [lia|]. apply Z.pow_pos_nonneg; lia. }
  rewrite Z.add_0_r in E. rewrite zeros_osp in E. rewrite Z.div_0_l in E by (apply Z.pow_nonzero; lia).
  replace (2 ^ (8 * Z.of_nat N - 2)) with (2 * 2 ^ (8 * Z.of_nat N - 3)) by (rewrite (T_pow 2), (T_pow 3) by lia; change (2 ^ (8 - 2)) with 64; change (2 ^ (8 - 3)) with 32; ring). rewrite E. cbn [app]. rewrite <- repeat_app. f_equal. f_equal. lia.
Qed.
Lemma caff x y : 0 <= x < p -> compress1 p N (Aff x y) = (x / T + (if larger p y then 32 else 0) + 128) :: i2osp x (N - 1).
Proof.
  intros H. unfold compress1, bit_compressed, bit_y. destruct (flag_head (if larger p y then 5 else 4) x ltac:(destruct (larger p y); lia) ltac:(lia)) as [E _].
  replace (x / T + (if larger p y then 32 else 0) + 128) with (32 * (if larger p y then 5 else 4) + x / T) by (destruct (larger p y); lia). rewrite <- E. f_equal. rewrite (T_pow 1), (T_pow 3) by lia. change (2 ^ (8 - 1)) with 128. change (2 ^ (8 - 3)) with 32. destruct (larger p y); ring.
Qed.
Theorem serialize_ok bd P A : w_point r P A -> (forall x y, A = Aff x y -> x_writable r P x) -> serialize_g1 r bd P = Some (compress1 p N A).
Proof.
  intros H HW. unfold serialize_g1. change (Bls.mb r) with N. destruct A as [|x y].
  - rewrite (is_inf_inf P H). cbn [bind]. rewrite cinf. reflexivity.
  - rewrite (is_inf_aff P x y H). cbn [bind]. destruct (getx_ok P x y H (HW x y eq_refl)) as [xr [E1 [W1 V1]]]. rewrite E1. cbn [bind].
    rewrite (tob xr W1), V1. cbn [bind]. destruct (affine_ok P _ H) as [W [EA HA]]. rewrite EA. cbn [bind].
    destruct (gety_ok W x y HA) as [yr [Y1 [Y2 Y3]]]. rewrite Y1. cbn [bind]. destruct (neg_ok W _ HA) as [R [R1 R2]]. rewrite R1. cbn [bind]. cbn [w_neg] in R2.
    destruct (gety_ok R _ _ R2) as [yn [N1 [N2 N3]]]. rewrite N1. cbn [bind]. rewrite (comp_gt yr yn Y2 N2), Y3, N3. fold (larger p y).
    destruct H as [[Hx [Hy _]] _]. unfold residue in *. rewrite (caff x y Hx). destruct (x_head x Hx) as [EX RX]. rewrite EX.
    destruct (larger p y); cbn [add0]; unfold Y_FLAG, COMPRESION_FLAG.
    + rewrite (xuadd bd (x / T) 32) by lia. cbn [bind add0]. rewrite xuadd by lia. reflexivity.
    + cbn [bind add0]. rewrite xuadd by lia. cbn [bind]. rewrite Z.add_0_r. reflexivity.
Qed.
Theorem serialize_u_ok P A : w_point r P A -> (forall x y, A = Aff x y -> x_writable r P x) -> serialize_uncompressed_g1 r P = Some (plain1 N A).
Proof.
  intros H HW. unfold serialize_uncompressed_g1. change (Bls.mb r) with N. destruct A as [|x y].
  - rewrite (is_inf_inf P H). cbn [bind]. rewrite pinf. reflexivity.
  - rewrite (is_inf_aff P x y H). cbn [bind]. destruct (getx_ok P x y H (HW x y eq_refl)) as [xr [E1 [W1 V1]]]. destruct (gety_ok P x y H) as [yr [E2 [W2 V2]]]. rewrite E1. cbn [bind].
    rewrite (tob xr W1), V1. cbn [bind]. rewrite E2. cbn [bind]. rewrite (tob yr W2), V2. reflexivity.
Qed.

(** *** decoding *)
Definition byte_facts (h : Z) : bool :=
  (Z.land h 128 =? 128 * (h / 128)) && (Z.land h 64 =? 64 * (h / 64 mod 2)) && (Z.land h 32 =? 32 * (h / 32 mod 2)) && (Z.land h 31 =? h mod 32) && (Z.land h 63 =? h mod 64).
Lemma bfacts h : 0 <= h < 256 -> Z.land h 128 = 128 * (h / 128) /\ Z.land h 64 = 64 * (h / 64 mod 2) /\ Z.land h 32 = 32 * (h / 32 mod 2) /\ Z.land h 31 = h mod 32 /\ Z.land h 63 = h mod 64.
Proof.
  intros H. assert (G : forallb byte_facts byte_list = true) by (vm_compute; reflexivity). rewrite forallb_forall in G.
  assert (I : In h byte_list). { unfold byte_list. apply in_map_iff. exists (Z.to_nat h). split; [lia|]. apply in_seq. lia. }
  specialize (G h I). unfold byte_facts in G. rewrite !andb_true_iff, !Z.eqb_eq in G. tauto.
Qed.
Lemma tz h t : 0 <= h < 256 -> trailing_zero (h :: t) = true <-> h mod 64 = 0 /\ t = repeat 0 (length t).
Proof.
  intros H. unfold trailing_zero. destruct (bfacts h H) as [_ [_ [_ [_ ->]]]]. rewrite andb_true_iff, Z.eqb_eq. apply and_iff_compat_l. induction t as [|x t IH]; [split; reflexivity|].
  cbn [forallb length repeat]. rewrite andb_true_iff, Z.eqb_eq, IH. split; [intros [-> E]; f_equal; exact E|]. intros E. injection E as -> E. auto.
Qed.
Lemma neutral_inf P : neutral r P -> w_point r P Inf.
Proof.
  intros H. unfold neutral, prep in H. cbn [fst snd] in H. destruct H as [H1 [H2 H3]]. split; [exact I|]. exists 0, 1, 0. split.
  - split; [|split]; (eapply (frep_rep r Hf 0 1 FX); [lia|lia|]); [exact H1|exact H2|]. unfold zi in H3. pose proof Hw as [_ [_ [_ [E _]]]]. rewrite E in H3. exact H3.
  - unfold cong. split; [reflexivity|]. split; [reflexivity|]. rewrite Z.mod_1_l, Z.mod_0_l by lia. lia.
Qed.
Lemma prep_point P x w : prep r P (x, w, 1) -> 0 <= x < p -> (w * w) mod p = RHS x mod p -> w_point r P (Aff x (w mod p)).
Proof.
  intros [H1 [H2 H3]] Hx E. cbn [fst snd] in *. pose proof (Z.mod_pos_bound w p ltac:(lia)). split.
  - split; [exact Hx|]. split; [assumption|]. unfold cong. rewrite <- Z.mul_mod by lia. exact E.
  - exists x, w, 1. split; [split; [|split]; (eapply (frep_rep r Hf 0 1 FX); [lia|lia|]); assumption|]. rewrite !Z.mul_1_r. unfold cong. rewrite Z.mod_1_l, Z.mod_0_l, Z.mod_mod by lia. repeat split. lia.
Qed.
Lemma opp_mod y : 0 < y < p -> (- y) mod p = p - y.
Proof. intros H. symmetry. apply Z.mod_unique with (-1); [left|]; lia. Qed.
Lemma larger_neg y : 0 < y < p -> larger p ((- y) mod p) = negb (larger p y).
Proof.
  intros H. unfold larger. rewrite (opp_mod y H), (opp_mod (p - y)) by lia. pose proof (p_odd r Hf Hp) as O.
  assert (p <> 2 * y). { intros Q. rewrite Q, Z.odd_mul in O. discriminate. }
  destruct (Z.ltb_spec (p - (p - y)) (p - y)); destruct (Z.ltb_spec (p - y) y); try reflexivity; lia.
Qed.
Lemma larger_b2 y : 0 < y < p -> ((- y) mod p <? y) = larger p y. Proof. reflexivity. Qed.
Lemma root_two w y : 0 < y < p -> (w * w) mod p = (y * y) mod p -> w mod p = y \/ w mod p = (- y) mod p.
Proof.
  intros H E. assert (D : (p | (w - y) * (w + y))). { apply Z.mod_divide; [lia|]. replace ((w - y) * (w + y)) with (w * w - y * y) by ring. rewrite Zminus_mod, E, Z.sub_diag. apply Z.mod_0_l. lia. }
  apply prime_mult in D; [|exact Hp]. destruct D as [[k D]|[k D]].
  - left. replace w with (y + k * p) by lia. rewrite Z.mod_add, Z.mod_small by lia. reflexivity.
  - right. replace w with (- y + k * p) by lia. apply Z.mod_add. lia.
Qed.
Notation R0 := (deserialize_compressed_g1 r).
Section Dec.
Variables (d f : Z) (t : list Z).
Hypothesis Hd : 0 <= d < 32.
Hypothesis Hfl : f = 0 \/ f = 1.
Hypothesis Ht : bytes t.
Hypothesis Lt : length t = (N - 1)%nat.
Let h := 128 + 32 * f + d.
Let x := os2ip (d :: t).
Lemma hfacts : Z.land h 128 = 128 /\ Z.land h 64 = 0 /\ Z.land h 32 = 32 * f /\ Z.land h 31 = d.
Proof.
  destruct (bfacts h) as [E1 [E2 [E3 [E4 _]]]]; [unfold h; lia|]. rewrite E1, E2, E3, E4. unfold h. destruct Hfl as [-> | ->].
  - replace (128 + 32 * 0 + d) with (128 + d) by lia. replace ((128 + d) / 128) with 1 by (apply Z.div_unique with d; lia). replace ((128 + d) / 64) with 2 by (apply Z.div_unique with d; lia). replace ((128 + d) / 32) with 4 by (apply Z.div_unique with d; lia).
    replace ((128 + d) mod 32) with d by (apply Z.mod_unique with 4; lia). repeat split.
  - replace (128 + 32 * 1 + d) with (160 + d) by lia. replace ((160 + d) / 128) with 1 by (apply Z.div_unique with (32 + d); lia). replace ((160 + d) / 64) with 2 by (apply Z.div_unique with (32 + d); lia). replace ((160 + d) / 32) with 5 by (apply Z.div_unique with d; lia).
    replace ((160 + d) mod 32) with d by (apply Z.mod_unique with 5; lia). repeat split.
Qed.
Lemma x0 : 0 <= x.
Proof. unfold x. apply os2ip_range. constructor; [unfold is_byte; lia|exact Ht]. Qed.
Lemma dec_c : (p <= x -> R0 (h :: t) = Some (Err InvalidPoint)) /\
  (x < p -> (forall y, ~ on_w p (cA r) (cB r) (Aff x y)) -> R0 (h :: t) = Some (Err InvalidPoint)) /\
  (forall y, on_w p (cA r) (cB r) (Aff x y) -> (if larger p y then 1 else 0) = f -> exists P, R0 (h :: t) = Some (Ok P) /\ w_point r P (Aff x y)).
Proof.
  destruct hfacts as [F1 [F2 [F3 F4]]].
  assert (E0 : R0 (h :: t) = (x <- frombytes c (d :: t) ;; if 0 <=? comp x (r_MODULUS r) then Some (Err InvalidPoint) else
      P <- ecp_new_big r x ;; i <- ecp_is_infinity r P ;; if (i : bool) then Some (Err InvalidPoint) else
      N <- ecp_neg r P ;; y <- ecp_gety r P ;; yn <- ecp_gety r N ;; Some (Ok (if Bool.eqb (0 <? comp y yn) (0 <? 32 * f) then P else N)))).
  { unfold deserialize_compressed_g1. change (Bls.mb r) with N. cbn [length]. rewrite Lt. replace (S (N - 1)) with N by lia. rewrite Nat.eqb_refl. cbn [negb]. unfold INFINITY_FLAG, Y_FLAG. rewrite F2, F3, F4. change (0 =? 0) with true. cbn [negb]. reflexivity. }
  rewrite E0. clear E0. assert (Hb : bytes (d :: t)) by (constructor; [unfold is_byte; lia|exact Ht]).
  destruct (frb r Hf (d :: t) Hb) as [w [E1 [W1 V1]]]. { cbn [length]. rewrite Lt. unfold mbytes in *. lia. }
  fold x in V1. rewrite E1. cbn [bind]. rewrite (comp_p r Hf w W1). rewrite V1. pose proof x0 as X0. split.
  { intros H. destruct (Z.leb_spec p x); [reflexivity|lia]. }
  assert (HH : x < p -> exists P, ecp_new_big r w = Some P /\
    ((exists w, (w * w) mod p = RHS x mod p /\ RHS x mod p <> 0 /\ prep r P (x, w, 1)) \/ (~ (RHS x mod p <> 0 /\ exists w, (w * w) mod p = RHS x mod p) /\ neutral r P))).
  { intros L. destruct (new_big_ok w W1) as [P0 HP0]; [unfold bval; rewrite V1; exact L|]. unfold bval in HP0. rewrite V1 in HP0. exists P0. exact HP0. }
  split.
  - intros L NO. destruct (Z.leb_spec p x); [lia|]. destruct (HH L) as [P [P1 P2]]. rewrite P1. cbn [bind]. destruct P2 as [[z [Z1 [Z2 Z3]]]|[_ P2]].
    + exfalso. apply (NO (z mod p)). exact (proj1 (prep_point P x z Z3 ltac:(lia) Z1)).
    + rewrite (is_inf_inf P (neutral_inf P P2)). reflexivity.
  - intros y O EF. pose proof O as [Hx [Hy Ey]]. pose proof (y_nz x y O) as Y0. unfold residue, cong in *. destruct (Z.leb_spec p x); [lia|]. destruct (HH ltac:(lia)) as [P [P1 P2]]. rewrite P1. cbn [bind].
    assert (RX : RHS x mod p = (y * y) mod p) by (rewrite Ey; reflexivity).
    destruct P2 as [[z [Z1 [Z2 Z3]]]|[P2 _]].
    2:{ exfalso. apply P2. split; [|exists y; symmetry; exact RX]. intros Q. apply (Hn2 x). unfold cong. rewrite (Z.mod_0_l p) by lia. rewrite <- Ey, <- RX. exact Q. }
    pose proof (prep_point P x z Z3 ltac:(lia) Z1) as HP. rewrite (is_inf_aff P _ _ HP). cbn [bind]. destruct (neg_ok P _ HP) as [Q [Q1 Q2]]. rewrite Q1. cbn [bind]. cbn [w_neg] in Q2.
    destruct (gety_ok P _ _ HP) as [yr [Y1 [Y2 Y3]]]. rewrite Y1. cbn [bind]. destruct (gety_ok Q _ _ Q2) as [yn [N1 [N2 N3]]]. rewrite N1. cbn [bind]. rewrite (comp_gt yr yn Y2 N2), Y3, N3. fold (larger p (z mod p)).
    assert (YB : 0 < y < p) by lia. pose proof (larger_neg y YB) as LN. destruct (root_two z y YB ltac:(congruence)) as [S|S].
    + exists P. rewrite S in *. split; [|exact HP]. do 2 f_equal. rewrite <- EF. destruct (larger p y); reflexivity.
    + exists Q. rewrite S in *. split; [|]. * do 2 f_equal. rewrite LN, <- EF. destruct (larger p y); reflexivity.
      * rewrite (opp_mod y YB) in Q2. rewrite (opp_mod (p - y)) in Q2 by lia. replace (p - (p - y)) with y in Q2 by lia. exact Q2.
Qed.
End Dec.

Lemma dec_u b : bytes b -> length b = (2 * N)%nat -> hd 0 b < 32 ->
  let x := os2ip (firstn N b) in let y := os2ip (skipn N b) in
  (on_w p (cA r) (cB r) (Aff x y) -> exists P, deserialize_uncompressed_g1 r b = Some (Ok P) /\ w_point r P (Aff x y)) /\
  (~ on_w p (cA r) (cB r) (Aff x y) -> deserialize_uncompressed_g1 r b = Some (Err InvalidPoint)).
Proof.
  intros Hb L H32 x y.
  assert (E0 : deserialize_uncompressed_g1 r b = (x <- frombytes c (firstn N b) ;; y <- frombytes c (skipn N b) ;;
      if (0 <=? comp x (r_MODULUS r)) || (0 <=? comp y (r_MODULUS r)) then Some (Err InvalidPoint) else
      P <- ecp_new_bigs r x y ;; i <- ecp_is_infinity r P ;; if (i : bool) then Some (Err InvalidPoint) else Some (Ok P))).
  { unfold deserialize_uncompressed_g1. change (Bls.mb r) with N. rewrite L, Nat.eqb_refl. cbn [negb]. destruct b as [|h t]; [cbn [length] in L; lia|]. cbn [hd] in H32. inversion_clear Hb as [|? ? B1 B2]. unfold is_byte in B1.
    destruct (bfacts h B1) as [_ [F2 [F3 [F4 _]]]]. unfold INFINITY_FLAG, Y_FLAG. rewrite F2, F3, F4. rewrite (Z.div_small h 64), (Z.div_small h 32), (Z.mod_small h 32) by lia. rewrite Z.mod_0_l by lia. reflexivity. }
  rewrite E0. clear E0.
  assert (B1 : bytes (firstn N b)) by (exact (bytes_sub b 0 N Hb)).
  assert (B2 : bytes (skipn N b)). { unfold bytes in *. rewrite <- (firstn_skipn N b) in Hb. apply Forall_app in Hb. tauto. }
  assert (L1 : length (firstn N b) = N) by (rewrite firstn_length; lia). assert (L2 : length (skipn N b) = N) by (rewrite skipn_length; lia).
  destruct (frb r Hf _ B1 L1) as [ix [X1 [X2 X3]]]. destruct (frb r Hf _ B2 L2) as [iy [Y1 [Y2 Y3]]]. fold x in X3. fold y in Y3. rewrite X1. cbn [bind]. rewrite Y1. cbn [bind]. rewrite (comp_p r Hf ix X2), (comp_p r Hf iy Y2), X3, Y3.
  pose proof (os2ip_range _ B1) as RX. pose proof (os2ip_range _ B2) as RY. fold x in RX. fold y in RY.
  destruct (Z.leb_spec p x) as [Lx|Lx]; cbn [orb]. { split; [|reflexivity]. intros [[_ H] _]. lia. }
  destruct (Z.leb_spec p y) as [Ly|Ly]; cbn [orb]. { split; [|reflexivity]. intros [_ [[_ H] _]]. lia. }
  destruct (new_bigs_ok r Hf HMX RHS (rhs_w r Hw) (w_nm r Hw) ix iy X2 Y2) as [P [P1 P2]]; [rewrite X3; exact Lx|rewrite Y3; exact Ly|]. rewrite X3, Y3 in P2. rewrite P1. cbn [bind].
  destruct P2 as [[P2 [P3 _]]|[P2 P3]].
  - pose proof (prep_point P x y P3 ltac:(lia) P2) as HP. rewrite (Z.mod_small y) in HP by lia. rewrite (is_inf_aff P _ _ HP). cbn [bind]. split; [|intros NO; contradiction (NO (proj1 HP))]. intros _. exists P. auto.
  - rewrite (is_inf_inf P (neutral_inf P P3)). cbn [bind]. split; [|reflexivity]. intros [_ [_ O]]. exfalso. apply P2. exact O.
Qed.
Lemma dec_inf : (exists P, deserialize_g1 r (compress1 p N Inf) = Some (Ok P) /\ w_point r P Inf) /\ (exists P, deserialize_g1 r (plain1 N Inf) = Some (Ok P) /\ w_point r P Inf).
Proof.
  destruct (new_ok r Hf) as [E0 [N1 N2]]. rewrite cinf, pinf. split; exists E0; (split; [|exact (neutral_inf E0 N2)]); unfold deserialize_g1, COMPRESION_FLAG.
  - change (Z.land (64 + 128) 128 =? 0) with false. unfold deserialize_compressed_g1. change (Bls.mb r) with N. cbn [length]. rewrite repeat_length. replace (S (N - 1)) with N by lia. rewrite Nat.eqb_refl. cbn [negb].
    unfold INFINITY_FLAG. change (Z.land (64 + 128) 64 =? 0) with false. cbn [negb]. rewrite (proj2 (tz (64 + 128) (repeat 0 (N - 1)) ltac:(lia))) by (rewrite repeat_length; split; reflexivity). rewrite N1. reflexivity.
  - change (Z.land 64 128 =? 0) with true. unfold deserialize_uncompressed_g1. change (Bls.mb r) with N. cbn [length]. rewrite repeat_length. replace (S (2 * N - 1)) with (2 * N)%nat by lia. rewrite Nat.eqb_refl. cbn [negb].
    unfold INFINITY_FLAG. change (Z.land 64 64 =? 0) with false. cbn [negb]. rewrite (proj2 (tz 64 (repeat 0 (2 * N - 1)) ltac:(lia))) by (rewrite repeat_length; split; reflexivity). rewrite N1. reflexivity.
Qed.
Lemma land128 h : 0 <= h < 256 -> (Z.land h COMPRESION_FLAG =? 0) = (h <? 128).
Proof.
  intros H. unfold COMPRESION_FLAG. destruct (bfacts h H) as [-> _]. destruct (Z.ltb_spec h 128) as [L|L].
  - rewrite Z.div_small by lia. reflexivity.
  - replace (h / 128) with 1 by (apply Z.div_unique with (h - 128); lia). reflexivity.
Qed.
Lemma os_x x : 0 <= x < p -> os2ip (x / T :: i2osp x (N - 1)) = x.
Proof. intros H. destruct (x_head x H) as [<- _]. rewrite os2ip_i2osp. apply Z.mod_small. pose proof (T_pow 0 ltac:(lia)) as E. rewrite Z.sub_0_r in E. change 256 with (2 ^ 8). rewrite <- Z.pow_mul_r by lia.
  assert (2 ^ (8 * Z.of_nat N - 3) <= 2 ^ (8 * Z.of_nat N)) by (apply Z.pow_le_mono_r; lia). lia. Qed.
Theorem decode_g1_ok A b : on_w p (cA r) (cB r) A -> b = compress1 p N A \/ b = plain1 N A -> exists P, deserialize_g1 r b = Some (Ok P) /\ w_point r P A.
Proof.
  intros O Hb. destruct A as [|x y].
  { destruct dec_inf as [D1 D2]. destruct Hb as [-> | ->]; assumption. }
  pose proof O as [Hx [Hy _]]. unfold residue in *. destruct (x_head x Hx) as [EX RX]. destruct Hb as [-> | ->].
  - rewrite (caff x y Hx). set (f := if larger p y then 1 else 0). replace (x / T + (if larger p y then 32 else 0) + 128) with (128 + 32 * f + x / T) by (unfold f; destruct (larger p y); lia).
    assert (FF : f = 0 \/ f = 1) by (unfold f; destruct (larger p y); lia).
    unfold deserialize_g1. rewrite land128 by lia. destruct (Z.ltb_spec (128 + 32 * f + x / T) 128); [lia|].
    destruct (dec_c (x / T) f (i2osp x (N - 1)) RX FF (i2osp_bytes _ _) (i2osp_length _ _)) as [_ [_ D]]. rewrite (os_x x Hx) in D. exact (D y O eq_refl).
  - assert (B : bytes (plain1 N (Aff x y))) by (apply Forall_app; split; apply i2osp_bytes).
    assert (L : length (plain1 N (Aff x y)) = (2 * N)%nat) by (unfold plain1; rewrite app_length, !i2osp_length; lia).
    assert (H32 : hd 0 (plain1 N (Aff x y)) < 32) by (unfold plain1; rewrite EX; cbn [app hd]; lia).
    pose proof (dec_u _ B L H32) as D. cbv zeta in D. destruct (x_head y Hy) as [EY RY].
    assert (F1 : os2ip (firstn N (plain1 N (Aff x y))) = x) by (unfold plain1; rewrite firstn_app, i2osp_length, Nat.sub_diag, firstn_O, app_nil_r, firstn_all2 by (rewrite i2osp_length; lia); rewrite EX; apply os_x; exact Hx).
    assert (F2 : os2ip (skipn N (plain1 N (Aff x y))) = y) by (unfold plain1; rewrite skipn_app, i2osp_length, Nat.sub_diag, skipn_O; rewrite skipn_all2 by (rewrite i2osp_length; lia); cbn [app]; rewrite EY; apply os_x; exact Hy).
    rewrite F1, F2 in D. destruct D as [D _].
    unfold deserialize_g1. revert D. unfold plain1. rewrite EX. cbn [app]. rewrite land128 by lia. destruct (Z.ltb_spec (x / T) 128); [|lia]. intros D. exact (D O).
Qed.
Theorem decode_g1_err b : bytes b -> (forall A, on_w p (cA r) (cB r) A -> b <> compress1 p N A /\ b <> plain1 N A) -> deserialize_g1 r b = Some (Err (g1_error N b)).
Proof.
  intros Hb NO. destruct b as [|h t]; [reflexivity|]. pose proof Hb as Hb0. inversion_clear Hb as [|? ? B1 B2]. unfold is_byte in B1. unfold deserialize_g1, g1_error. rewrite land128 by lia.
  destruct (bfacts h B1) as [_ [F2 [F3 [F4 _]]]]. destruct (Z.ltb_spec h 128) as [Lh|Lh]; destruct (Z.leb_spec 128 h) as [Lh'|Lh']; try lia.
  - unfold deserialize_uncompressed_g1. change (Bls.mb r) with N. destruct (Nat.eqb_spec (length (h :: t)) (2 * N)) as [L|L]; cbn [negb]; [|reflexivity].
    unfold INFINITY_FLAG, Y_FLAG. rewrite F2. destruct (Z_lt_ge_dec h 64) as [L64|L64].
    + rewrite (Z.div_small h 64) by lia. rewrite Z.mod_0_l, Z.mul_0_r by lia. change (negb (0 =? 0)) with false. cbv iota. rewrite F3. destruct (Z.leb_spec 32 h) as [L32|L32]; cbn [andb].
      * destruct (Z.ltb_spec h 64); [|lia]. replace (h / 32) with 1 by (apply Z.div_unique with (h - 32); lia). reflexivity.
      * rewrite (Z.div_small h 32) by lia. rewrite Z.mod_0_l, Z.mul_0_r by lia. change (0 <? 0) with false. cbv iota. destruct (dec_u (h :: t) Hb0 L ltac:(cbn [hd]; lia)) as [_ D].
        revert D. unfold deserialize_uncompressed_g1. change (Bls.mb r) with N. rewrite L, Nat.eqb_refl. cbn [negb]. unfold INFINITY_FLAG, Y_FLAG. rewrite F2, F3, (Z.div_small h 64), (Z.div_small h 32) by lia. rewrite Z.mod_0_l, Z.mul_0_r, Z.mul_0_r by lia. change (negb (0 =? 0)) with false. change (0 <? 0) with false. cbv iota. intros D. apply D. clear D.
        intros O. destruct (NO _ O) as [_ N2]. apply N2. unfold plain1.
        assert (Q : forall l, bytes l -> length l = N -> i2osp (os2ip l) N = l) by (intros l A1 A2; rewrite <- A2; apply i2osp_os2ip; exact A1).
        rewrite !Q; [symmetry; apply firstn_skipn| | | |].
        -- unfold bytes in *. rewrite <- (firstn_skipn N (h :: t)) in Hb0. apply Forall_app in Hb0. tauto.
        -- rewrite skipn_length. lia.
        -- exact (bytes_sub (h :: t) 0 N Hb0).
        -- rewrite firstn_length. lia.
    + replace (h / 64) with 1 by (apply Z.div_unique with (h - 64); lia). change (64 * (1 mod 2)) with 64. change (negb (64 =? 0)) with true. cbv iota.
      replace ((32 <=? h) && (h <? 64)) with false by (destruct (Z.ltb_spec h 64); [lia|rewrite andb_false_r; reflexivity]).
      destruct (trailing_zero (h :: t)) eqn:TZ; [|reflexivity]. apply tz in TZ; [|lia]. destruct TZ as [T1 T2]. exfalso. destruct (NO Inf I) as [_ N2]. apply N2. rewrite pinf.
      assert (h = 64) by (rewrite (Z.mod_eq h 64) in T1 by lia; replace (h / 64) with 1 in T1 by (apply Z.div_unique with (h - 64); lia); lia). subst h. cbn [length] in L. rewrite T2. do 2 f_equal. lia.
  - destruct (Nat.eqb_spec (length (h :: t)) N) as [L|L].
    2:{ unfold deserialize_compressed_g1. change (Bls.mb r) with N. destruct (Nat.eqb_spec (length (h :: t)) N); [contradiction|reflexivity]. }
    cbn [length] in L. set (q := h / 32) in *. assert (Q : h = 32 * q + h mod 32) by (unfold q; apply Z.div_mod; lia). pose proof (Z.mod_pos_bound h 32 ltac:(lia)) as HM.
    destruct (Z_lt_ge_dec q 6) as [Q6|Q6].
    + assert (FF : q - 4 = 0 \/ q - 4 = 1) by lia. assert (LT : length t = (N - 1)%nat) by lia. pose proof (dec_c (h mod 32) (q - 4) t HM FF B2 LT) as D. replace (128 + 32 * (q - 4) + h mod 32) with h in D by lia. destruct D as [D1 [D2 D3]].
      set (x := os2ip (h mod 32 :: t)) in *. destruct (Z_lt_ge_dec x p) as [Lx|Lx]; [|apply D1; lia]. apply D2; [exact Lx|].
      assert (X0 : 0 <= x) by (apply os2ip_range; constructor; [unfold is_byte; lia|exact B2]).
      assert (EE : i2osp x (N - 1) = t /\ x / T = h mod 32).
      { assert (E : i2osp x N = h mod 32 :: t) by (unfold x; replace N with (length (h mod 32 :: t)) at 1 by (cbn [length]; lia); apply i2osp_os2ip; constructor; [unfold is_byte; lia|exact B2]). destruct (x_head x ltac:(lia)) as [E' _]. rewrite E in E'. injection E' as E1 E2. auto. }
      assert (K : forall y, on_w p (cA r) (cB r) (Aff x y) -> (if larger p y then 1 else 0) <> q - 4).
      { intros y O EF. destruct (NO _ O) as [N1 _]. apply N1. rewrite (caff x y) by lia. destruct EE as [-> ->]. f_equal. destruct (larger p y); lia. }
      intros y O. pose proof (y_nz x y O) as Y0. pose proof O as [_ [Hy Ey]]. unfold residue in Hy. pose proof (K y O) as K1.
      assert (O2 : on_w p (cA r) (cB r) (Aff x ((- y) mod p))).
      { split; [split; lia|]. split; [apply Z.mod_pos_bound; lia|]. rewrite <- Ey || idtac. unfold cong in *. rewrite <- Ey. rewrite <- Z.mul_mod by lia. f_equal. ring. }
      pose proof (K _ O2) as K2. rewrite (larger_neg y ltac:(lia)) in K2. destruct (larger p y); cbn [negb] in *; lia.
    + unfold deserialize_compressed_g1. change (Bls.mb r) with N. cbn [length]. rewrite L, Nat.eqb_refl. cbn [negb]. unfold INFINITY_FLAG. rewrite F2. replace (h / 64) with 3 by (apply Z.div_unique with (h - 192); lia). change (64 * (3 mod 2)) with 64. change (negb (64 =? 0)) with true. cbv iota.
      destruct (trailing_zero (h :: t)) eqn:TZ; [|reflexivity]. apply tz in TZ; [|lia]. destruct TZ as [T1 T2]. exfalso. destruct (NO Inf I) as [N1 _]. apply N1. rewrite cinf.
      assert (h = 64 + 128) by (rewrite (Z.mod_eq h 64) in T1 by lia; replace (h / 64) with 3 in T1 by (apply Z.div_unique with (h - 192); lia); lia). subst h. rewrite T2. do 2 f_equal. lia.
Qed.

(** the stored x coordinate of a decoded point with x = 0 is 0 *)
Definition zero_stored : Prop := forall x0 x1, fp_new_big r (repeat 0 (NLEN c)) = Some x0 -> fp_norm r x0 = Some x1 -> V (fx x1) < p.
Lemma zeros_of : forall B l, 0 <= B -> Forall (fun d => 0 <= d < 2 ^ B) l -> val B l = 0 -> l = repeat 0 (length l).
Proof.
  intros B l HB H. induction H as [|d l Hd H IH]; intros E; [reflexivity|]. cbn [val length repeat] in *. assert (0 < 2 ^ B) by (apply Z.pow_pos_nonneg; lia).
  assert (V0 : 0 <= val B l). { clear -H HB. induction H as [|x t Hx Ht IH]; cbn [val]; [lia|]. assert (0 <= 2 ^ B * val B t) by (apply Z.mul_nonneg_nonneg; [apply Z.pow_nonneg; lia|exact IH]). lia. }
  assert (0 <= 2 ^ B * val B l) by (apply Z.mul_nonneg_nonneg; lia). assert (d = 0) by lia. subst d. f_equal. apply IH. assert (Q : 2 ^ B * val B l = 0) by lia. apply Z.mul_eq_0 in Q. destruct Q as [Q|Q]; [lia|exact Q].
Qed.
Lemma fp_new_0 : V (fx (fp_new r)) < p.
Proof. unfold fp_new. cbn [fx]. unfold bval. assert (Z0 : forall m, val (BASEBITS c) (repeat 0 m) = 0) by (induction m as [|m IH]; [reflexivity|]; cbn [repeat val]; rewrite IH; lia). change (big_new c) with (repeat 0 (NLEN c)). rewrite Z0. lia. Qed.
Lemma stored_1 ix P : zero_stored -> big_wf c ix -> V ix = 0 -> ecp_new_big r ix = Some P -> V (fx (ex P)) < p.
Proof.
  intros HZ [L W] E H. assert (EZ : ix = repeat 0 (NLEN c)) by (rewrite <- L; apply (zeros_of (BASEBITS c)); [pose proof (cf_B _ (cfg_ok_facts _ Hok)); lia|exact W|exact E]). rewrite EZ in H. clear EZ.
  unfold ecp_new_big in H. destruct (ecp_new r) as [E0|]; cbn [bind] in H; [|discriminate H]. destruct (fp_new_big r (repeat 0 (NLEN c))) as [x0|] eqn:X0; cbn [bind] in H; [|discriminate H].
  destruct (fp_norm r x0) as [x1|] eqn:X1; cbn [bind] in H; [|discriminate H]. destruct (fp_one r); cbn [bind] in H; [|discriminate H]. destruct (ecp_rhs r x1); cbn [bind] in H; [|discriminate H]. destruct (fp_jacobi r f0); cbn [bind] in H; [|discriminate H]. destruct (z =? 1).
  - match type of H with bind ?t _ = _ => destruct t; cbn [bind] in H; [|discriminate H] end. injection H as <-. cbn [ex]. exact (HZ x0 x1 X0 X1).
  - unfold ecp_inf in H. match type of H with bind ?t _ = _ => destruct t; cbn [bind] in H; [|discriminate H] end. match type of H with bind ?t _ = _ => destruct t; cbn [bind] in H; [|discriminate H] end. injection H as <-. cbn [ex]. exact fp_new_0.
Qed.
Lemma stored_2 ix iy P : zero_stored -> big_wf c ix -> V ix = 0 -> ecp_new_bigs r ix iy = Some P -> V (fx (ex P)) < p.
Proof.
  intros HZ [L W] E H. assert (EZ : ix = repeat 0 (NLEN c)) by (rewrite <- L; apply (zeros_of (BASEBITS c)); [pose proof (cf_B _ (cfg_ok_facts _ Hok)); lia|exact W|exact E]). rewrite EZ in H. clear EZ.
  unfold ecp_new_bigs in H. rewrite (w_nm r Hw) in H. destruct (fp_new_big r (repeat 0 (NLEN c))) as [x0|] eqn:X0; cbn [bind] in H; [|discriminate H]. destruct (fp_new_big r iy); cbn [bind] in H; [|discriminate H]. destruct (fp_one r); cbn [bind] in H; [|discriminate H].
  destruct (fp_norm r x0) as [x1|] eqn:X1; cbn [bind] in H; [|discriminate H]. destruct (ecp_rhs r x1); cbn [bind] in H; [|discriminate H]. destruct (fp_sqr r f); cbn [bind] in H; [|discriminate H]. destruct (fp_equals r f2 f1); cbn [bind] in H; [|discriminate H]. destruct b; cbn [negb] in H.
  - injection H as <-. cbn [ex]. exact (HZ x0 x1 X0 X1).
  - unfold ecp_inf in H. match type of H with bind ?t _ = _ => destruct t; cbn [bind] in H; [|discriminate H] end. match type of H with bind ?t _ = _ => destruct t; cbn [bind] in H; [|discriminate H] end. injection H as <-. cbn [ex]. exact fp_new_0.
Qed.
Lemma neg_x P Q : ecp_neg r P = Some Q -> ex Q = ex P.
Proof. pose proof Hw as [_ [_ [_ [E _]]]]. unfold ecp_neg. rewrite E. destruct (fp_neg r (ey P)); cbn [bind]; [|discriminate]. destruct (fp_norm r f); cbn [bind]; [|discriminate]. intros H. injection H as <-. reflexivity. Qed.
Theorem decode_stored b P y : zero_stored -> bytes b -> deserialize_g1 r b = Some (Ok P) -> w_point r P (Aff 0 y) -> V (fx (ex P)) < p.
Proof.
  intros HZ Hb H HP. destruct b as [|h t]; [discriminate H|]. inversion_clear Hb as [|? ? B1 B2]. unfold is_byte in B1. unfold deserialize_g1 in H. destruct (bfacts h B1) as [_ [F2 [F3 [F4 _]]]].
  pose proof (Z.mod_pos_bound h 32 ltac:(lia)) as M32. destruct (new_ok r Hf) as [E0 [N1 N2]].
  assert (BB : bytes (h mod 32 :: t)) by (constructor; [unfold is_byte; lia|exact B2]).
  assert (NI : w_point r E0 (Aff 0 y) -> False). { intros Q. pose proof (is_inf_aff E0 _ _ Q) as A1. pose proof (is_inf_inf E0 (neutral_inf E0 N2)) as A2. congruence. }
  assert (XV : forall R w, big_wf c w -> V w < p -> prep r R (V w, w_rhs r 0, 1) -> True) by auto. clear XV.
  assert (XZ : forall R w zz, 0 <= V w < p -> prep r R (V w, zz, 1) -> ex P = ex R -> ez P = ez R -> V w = 0).
  { intros R w zz HV [PR1 [_ PR3]] X1 X3. cbn [fst snd] in *. destruct HP as [_ [X [Y [Z [[CX [CY CZ]] [NZ [Q1 Q2]]]]]]]. unfold cong in *. rewrite Z.mul_0_l, (Z.mod_0_l p) in Q1 by lia.
    pose proof (frep_rep r Hf 0 1 FX (ex R) (V w) 1 ltac:(lia) ltac:(lia) PR1) as RX. rewrite <- X1 in RX. assert (EQ : X mod p = V w mod p) by (apply (mod_cancel _ _ (fK r) p); [lia|exact (gcd_K r Hf)|destruct CX as [_ CX]; destruct RX as [_ RX]; unfold den in *; congruence]). rewrite <- Q1 in EQ. rewrite Z.mod_small in EQ by lia. lia. }
  destruct (Z.land h COMPRESION_FLAG =? 0).
  - unfold deserialize_uncompressed_g1 in H. change (Bls.mb r) with N in H. destruct (Nat.eqb_spec (length (h :: t)) (2 * N)) as [L|L]; cbn [negb] in H; [|discriminate H].
    destruct (negb (Z.land h INFINITY_FLAG =? 0)). { destruct (trailing_zero (h :: t)); [|discriminate H]. rewrite N1 in H. cbn [bind] in H. injection H as <-. destruct (NI HP). }
    destruct (0 <? Z.land h Y_FLAG); [discriminate H|]. rewrite F4 in H.
    destruct (frb r Hf (firstn N (h mod 32 :: t)) (bytes_sub _ 0 N BB)) as [w [E1 [E2 E3]]]. { rewrite firstn_length. cbn [length] in *. unfold mbytes in *. lia. }
    rewrite E1 in H. cbn [bind] in H. destruct (frb r Hf (skipn N (h mod 32 :: t))) as [v [G1 [G2 G3]]].
    { unfold bytes in *. rewrite <- (firstn_skipn N (h mod 32 :: t)) in BB. apply Forall_app in BB. tauto. } { rewrite skipn_length. cbn [length] in *. unfold mbytes in *. lia. }
    rewrite G1 in H. cbn [bind] in H. rewrite (comp_p r Hf w E2), (comp_p r Hf v G2) in H. destruct (Z.leb_spec p (val (BASEBITS c) w)) as [Lw|Lw]; cbn [orb] in H; [discriminate H|]. destruct (Z.leb_spec p (val (BASEBITS c) v)) as [Lv|Lv]; cbn [orb] in H; [discriminate H|].
    destruct (new_bigs_ok r Hf HMX RHS (rhs_w r Hw) (w_nm r Hw) w v E2 G2 Lw Lv) as [R [R1 R2]]. rewrite R1 in H. cbn [bind] in H.
    destruct (ecp_is_infinity r R) as [[|]|]; cbn [bind] in H; [discriminate H| |discriminate H]. injection H as <-.
    pose proof (wf_range c Hok _ w E2) as [W0 _]. destruct R2 as [[_ [R2 _]]|[_ R2]].
    + apply (stored_2 w v R HZ E2); [|exact R1]. apply (XZ R w _ ltac:(unfold bval; lia) R2 eq_refl eq_refl).
    + pose proof (is_inf_aff R _ _ HP) as A1. pose proof (is_inf_inf R (neutral_inf R R2)) as A2. congruence.
  - unfold deserialize_compressed_g1 in H. change (Bls.mb r) with N in H. destruct (Nat.eqb_spec (length (h :: t)) N) as [L|L]; cbn [negb] in H; [|discriminate H].
    destruct (negb (Z.land h INFINITY_FLAG =? 0)). { destruct (trailing_zero (h :: t)); [|discriminate H]. rewrite N1 in H. cbn [bind] in H. injection H as <-. destruct (NI HP). }
    rewrite F4 in H. destruct (frb r Hf (h mod 32 :: t) BB) as [w [E1 [E2 E3]]]. { cbn [length] in *. unfold mbytes in *. lia. }
    rewrite E1 in H. cbn [bind] in H. rewrite (comp_p r Hf w E2) in H. destruct (Z.leb_spec p (val (BASEBITS c) w)) as [Lw|Lw]; cbn [orb] in H; [discriminate H|].
    destruct (new_big_ok w E2 Lw) as [R [R1 R2]]. rewrite R1 in H. cbn [bind] in H. destruct (ecp_is_infinity r R) as [[|]|] eqn:EI; cbn [bind] in H; [discriminate H| |discriminate H].
    destruct (ecp_neg r R) as [Q|] eqn:EQ; cbn [bind] in H; [|discriminate H]. destruct (ecp_gety r R); cbn [bind] in H; [|discriminate H]. destruct (ecp_gety r Q); cbn [bind] in H; [|discriminate H]. injection H as H.
    assert (EX : ex P = ex R /\ ez P = ez R). { rewrite <- H. destruct (Bool.eqb _ _); [auto|]. split; [exact (neg_x R Q EQ)|]. revert EQ. clear -Hw. pose proof Hw as [_ [_ [_ [E _]]]]. unfold ecp_neg. rewrite E. destruct (fp_neg r (ey R)); cbn [bind]; [|discriminate]. destruct (fp_norm r f); cbn [bind]; [|discriminate]. intros H. injection H as <-. reflexivity. }
    destruct EX as [EX EZ]. rewrite EX. pose proof (wf_range c Hok _ w E2) as [W0 _]. destruct R2 as [[zz [_ [_ R2]]]|[_ R2]].
    + apply (stored_1 w R HZ E2); [|exact R1]. apply (XZ R w _ ltac:(unfold bval; lia) R2 EX EZ).
    + pose proof (is_inf_inf R (neutral_inf R R2)) as A2. congruence.
Qed.
End G1.
