(** Key pairs, Diffie-Hellman and ECDSA over Weierstrass curves. *)
From Verif Require Import Base.Word Base.Arr Model.Big Model.Roms Model.Fp Model.Ecp Model.Sha2 Model.Rand Model.Ecdh Model.EccProto
  Spec.BigSpec Spec.RomSpec Spec.FpSpec Spec.CurveSpec Spec.EcpSpec Spec.Bytes Spec.Sha2Spec Spec.ProtoSpec
  Proof.BigVal Proof.BigBytes Proof.BigMod Proof.BigInv Proof.NumTheory Proof.RomCheck Proof.FpBase Proof.FpOps Proof.FpExp Proof.FpSqrt Proof.FpIv Proof.FieldP Proof.Weier
  Proof.EcpOps Proof.EcpW Proof.EcpBridge Proof.EcpMul Proof.EcpInst Proof.EcpCodec Proof.EcpCodec2 Proof.EcpCodec3 Proof.RandProof Proof.RandNum Proof.EcdhSym.
From Coq Require Import Znumtheory.

(** the base point and the group order stored in the ROM *)
Definition gpoint (r : rom) : point := Aff (bval (r_cfg r) (r_GX r)) (bval (r_cfg r) (r_GY r)).
Definition order (r : rom) : Z := bval (r_cfg r) (r_ORDER r).
(** the conditions: arithmetic conditions on the curve, no point with x = 0, a prime-order base point, room for sums of two scalars *)
Record ec_group (r : rom) : Prop := mkeg {
  eg_w : weierstrass r;
  eg_codec : codec r;
  eg_sp : special r = false;
  eg_x0 : ~ is_square (pmod r) (cB r);
  eg_gwf : big_wf (r_cfg r) (r_GX r) /\ big_wf (r_cfg r) (r_GY r);
  eg_g : on_w (pmod r) (cA r) (cB r) (gpoint r);
  eg_nwf : big_wf (r_cfg r) (r_ORDER r);
  eg_n : prime (order r);
  eg_n2 : 2 < order r;
  eg_ng : w_times (pmod r) (cA r) (gpoint r) (Z.to_nat (order r)) Inf;
  eg_cap : 2 * order r + 4 < 2 ^ (Z.of_nat (NLEN (r_cfg r)) * BASEBITS (r_cfg r) - 4);
  eg_enc : order r <= 256 ^ Z.of_nat (mbytes r) /\ order r + 256 ^ Z.of_nat (mbytes r) <= bmax (r_cfg r) }.

Section Proto.
Variable r : rom.
Hypothesis HE : ec_group r.
Notation c := (r_cfg r).
Notation p := (pmod r).
Notation a := (cA r).
Notation b := (cB r).
Notation n := (order r).
Notation B := (BASEBITS c).
Notation V := (val B).
Let Hw : w_ok r := proj1 (eg_w r HE).
Let Hp : prime p := proj1 (proj2 (eg_w r HE)).
Let Hn2 : no_order2 p a b := proj2 (proj2 (eg_w r HE)).
Let Hf : fp_ok r := proj1 Hw.
Let Hok : cfg_ok c := ff_ok r (fp_ok_facts r Hf).
Let Hc : codec r := eg_codec r HE.
Let Wn : big_wf c (r_ORDER r) := eg_nwf r HE.
Let Np : prime n := eg_n r HE.
Let N2 : 2 < n := eg_n2 r HE.
Let WG := w_group r Hw Hp Hn2.
Let WP := w_pops r Hw Hp Hn2.
Notation K := (apt p).
Notation O := (AInf p).
Notation kplus := (asum p (mk p a)).
Notation kneg := (aneg p).
Notation kon := (aon p (mk p a) (mk p b)).
Notation zt := (ztimes K O kplus kneg).
Notation AK := (ak p).
Notation SP := (sp p).
Notation MB := (mbytes r).
Definition g : K := AK (gpoint r).

Lemma HBB : 8 <= B. Proof. pose proof (cf_B _ (cfg_ok_facts _ Hok)). lia. Qed.
Lemma Vn : V (r_ORDER r) = n. Proof. reflexivity. Qed.
Lemma g_on : kon g. Proof. apply on_ak; [exact Hp|exact (eg_g r HE)]. Qed.
Lemma g_nz : g <> O. Proof. unfold g, gpoint. cbn [ak]. discriminate. Qed.
Lemma n_odd : n mod 2 = 1.
Proof.
  pose proof (Z.mod_pos_bound n 2 ltac:(lia)). destruct (Z.eq_dec (n mod 2) 0) as [E|E]; [|lia]. apply Z.mod_divide in E; [|lia].
  apply prime_div_prime in E; [lia|exact prime_2|exact Np].
Qed.
Lemma times_iff A m C : on_w p a b A -> 0 <= m -> (w_times p a A (Z.to_nat m) C <-> C = SP (zt m (AK A))).
Proof. intros OA Hm. rewrite (w_times_iff r Hw Hp Hn2 A (Z.to_nat m) C OA). rewrite ztimes_nat by exact Hm. reflexivity. Qed.
Lemma ng : zt n g = O.
Proof.
  pose proof (eg_ng r HE) as H. apply times_iff in H; [|exact (eg_g r HE)|lia]. unfold g. destruct (zt n (AK (gpoint r))) as [|x y]; [reflexivity|discriminate H].
Qed.
Lemma mul_n k : zt (k * n) g = O.
Proof. rewrite <- (ztimes_mul _ _ _ _ _ WG) by exact g_on. rewrite ng. destruct (Z.le_gt_cases 0 k) as [L|L].
  - rewrite ztimes_nat by exact L. generalize (Z.to_nat k). intros m. induction m as [|m IH]; [reflexivity|]. cbn [ntimes]. rewrite IH. reflexivity.
  - assert (Z0 : forall m, 0 <= m -> zt m O = O). { intros m Hm. rewrite ztimes_nat by exact Hm. generalize (Z.to_nat m). intros q. induction q as [|q IH]; [reflexivity|]. cbn [ntimes]. rewrite IH. reflexivity. }
    replace k with (- (- k)) by ring. rewrite (ztimes_opp _ _ _ _ _ WG) by exact I. rewrite Z0 by lia. reflexivity.
Qed.
Lemma zt_cong k k' : k mod n = k' mod n -> zt k g = zt k' g.
Proof.
  intros E. rewrite (Z.div_mod k n), (Z.div_mod k' n) by lia. rewrite E. rewrite !(ztimes_add _ _ _ _ _ WG) by exact g_on. f_equal. rewrite !(Z.mul_comm n), !mul_n. reflexivity.
Qed.
Lemma zt_zt m k : zt m (zt k g) = zt (m * k) g. Proof. apply (ztimes_mul _ _ _ _ _ WG). exact g_on. Qed.
Lemma zt_one A : kon A -> zt 1 A = A. Proof. apply (ztimes_1 _ _ _ _ _ WG). Qed.
Lemma zt_nz k : k mod n <> 0 -> zt k g <> O.
Proof.
  intros Hk E. set (u := k ^ (n - 2)). pose proof (fermat_inv n k Np Hk) as H. fold u in H.
  apply g_nz. rewrite <- (ztimes_1 _ _ _ _ _ WG g g_on). rewrite (zt_cong 1 (u * k)).
  - rewrite <- (ztimes_mul _ _ _ _ _ WG) by exact g_on. rewrite E. rewrite <- (mul_n 0), (ztimes_mul _ _ _ _ _ WG) by exact g_on. rewrite (zt_cong (u * (0 * n)) 0); [reflexivity|]. f_equal. ring.
  - rewrite (Z.mod_small 1) by lia. rewrite Z.mul_comm. symmetry. exact H.
Qed.
Lemma nm : is_mont r = false. Proof. exact (w_nm r Hw). Qed.
Lemma gen_ok : exists G, ecp_generator r = Some G /\ wden r G g.
Proof.
  unfold ecp_generator. rewrite nm. destruct (eg_gwf r HE) as [W1 W2]. pose proof (eg_g r HE) as [R1 [R2 R3]]. unfold residue, bval in *.
  pose proof Hw as [_ [HMX [Hfp [Hct _]]]].
  destruct (new_bigs_ok r Hf HMX (w_rhs r) (rhs_w r Hw) nm (r_GX r) (r_GY r) W1 W2 ltac:(lia) ltac:(lia)) as [P [E D]]. exists P. split; [exact E|].
  destruct D as [[_ [PR _]]|[NE _]]; [|contradiction NE; exact R3].
  unfold g. apply (w_point_den r Hw Hp). split; [exact (eg_g r HE)|]. exists (V (r_GX r)), (V (r_GY r)), 1. destruct PR as [P1 [P2 P3]]. cbn [fst snd] in *.
  split; [split; [|split]; eapply (frep_rep r Hf 0 1 (FEXCESS r)); try lia; eassumption|]. unfold gpoint, bval; cbv iota; rewrite !Z.mul_1_r. split; [apply not1; exact (p_gt3 r Hf)|]. split; reflexivity.
Qed.
Lemma no_x0 x y : on_w p a b (Aff x y) -> x <> 0 /\ y <> 0.
Proof.
  intros [_ [_ H]]. split.
  - intros ->. apply (eg_x0 r HE). exists y. unfold cong in *. rewrite H. f_equal. ring.
  - intros ->. apply (Hn2 x). unfold cong in *. rewrite <- H. reflexivity.
Qed.
Lemma getx_ok P A x y : wden r P A -> SP A = Aff x y -> exists xr, ecp_getx r P = Some xr /\ big_wf c xr /\ V xr = x.
Proof.
  intros HP E. pose proof (den_w_point r Hw Hp P A HP) as W. rewrite E in W. pose proof (proj1 W) as OA. destruct (no_x0 x y OA) as [X0 Y0].
  destruct (w_redc r P x y Hw Hp W) as [Q [xr [yr [E1 [E2 [E3 [W1 [W2 [V1 V2]]]]]]]]].
  - right. right. split; [exact (eg_sp r HE)|]. auto.
  - exists xr. unfold ecp_getx. rewrite E1. cbn [bind]. auto.
Qed.
Lemma is_inf_ok P A : wden r P A -> ecp_is_infinity r P = Some (match A with AInf _ => true | AAff _ _ _ => false end).
Proof.
  intros H. destruct (w_is_inf r Hw Hp P A H) as [i [I1 I2]]. rewrite I1. f_equal. destruct A as [|x y]; [apply I2; reflexivity|]. destruct i; [|reflexivity]. discriminate (proj1 I2 eq_refl).
Qed.
Lemma scal_ok v : 0 <= v < n -> v + 2 < 2 ^ (NBITS r - 4).
Proof. intros H. unfold NBITS. pose proof (eg_cap r HE). lia. Qed.
Lemma mulP P A e : wden r P A -> big_wf c e -> V e < n -> exists R, ecp_mul r P e = Some R /\ wden r R (zt (V e) A).
Proof.
  intros H W L. pose proof (brange c Hok e W). destruct (mul_ok r Hok nm _ _ _ _ _ WG _ _ WP P A e H W (scal_ok (V e) ltac:(lia))) as [R [R1 [R2 _]]]. exists R. auto.
Qed.
Lemma getx_new P e R : wden r P g -> big_wf c e -> V e = 0 -> ecp_mul r P e = Some R -> exists xr, ecp_getx r R = Some xr /\ big_wf c xr /\ V xr = 0.
Proof.
  intros HP W E M. unfold ecp_mul in M. rewrite (iszilch_spec c HBB e (canon_nrm _ _ (proj2 W))), E in M. change (0 =? 0) with true in M. cbn [bind] in M.
  destruct (w_new r Hw Hp) as [R0 [N1 N2']]. assert (R0 = R) by congruence. subst R0. unfold ecp_getx, ecp_affine. rewrite (is_inf_ok R _ N2'). cbn [bind].
  unfold ecp_new in N1. destruct (fp_new_int r 1) as [o|]; [|discriminate]. cbn [bind] in N1. rewrite (proj1 (proj2 (proj2 (proj2 Hw)))) in N1. injection N1 as <-. cbn [ex].
  pose proof (inew r Hf) as F0. destruct (redc_any r Hf _ _ _ F0) as [x [X1 [X2 [_ [X3 _]]]]]. exists x. split; [exact X1|]. split; [exact X2|].
  rewrite X3; [apply Z.mod_0_l; pose proof (p_gt3 r Hf); lia|]. unfold fp_new. cbn [fx]. destruct (BigMod.zero_wf c Hok) as [_ Z0]. rewrite Z0. pose proof (p_gt3 r Hf). lia.
Qed.
Lemma rmod_n x : big_wf c x -> exists y, rmod c x (r_ORDER r) = Some y /\ big_wf c y /\ V y = V x mod n.
Proof. intros W. apply (rmod_spec c Hok x (r_ORDER r) W Wn). rewrite Vn. lia. Qed.
Lemma modmul_n x y : big_wf c x -> big_wf c y -> exists z, modmul c x y (r_ORDER r) = Some z /\ big_wf c z /\ V z = (V x * V y) mod n.
Proof. intros W1 W2. apply (modmul_spec c Hok x y (r_ORDER r) W1 W2 Wn). rewrite Vn. lia. Qed.
Lemma inv_n x : big_wf c x -> V x mod n <> 0 -> exists y, invmodp c x (r_ORDER r) = Some y /\ big_wf c y /\ V y < n /\ (V y * V x) mod n = 1.
Proof. intros W H. apply (invmodp_spec c Hok x (r_ORDER r) W Wn); rewrite ?Vn; [lia|exact n_odd|]. apply prime_coprime; [exact Np|exact H]. Qed.
Lemma inv_0 x : big_wf c x -> V x mod n = 0 -> invmodp c x (r_ORDER r) = None.
Proof. intros W H. apply (invmodp_zero c Hok x (r_ORDER r) W Wn); rewrite ?Vn; [lia|exact H]. Qed.
(** the sum handed un-normalised to modmul *)
Lemma modmul_sum x y z : big_wf c x -> big_wf c y -> big_wf c z -> V x + V y < bmax c ->
  exists s t, add c x y = Some s /\ modmul c s z (r_ORDER r) = Some t /\ big_wf c t /\ V t = ((V x + V y) * V z) mod n.
Proof.
  intros Wx Wy Wz HS. pose proof (cf_B _ (cfg_ok_facts _ Hok)) as CB. pose proof (cf_C _ (cfg_ok_facts _ Hok)) as CC. pose proof (brange c Hok x Wx). pose proof (brange c Hok y Wy).
  assert (P2 : 2 ^ (B + 2) <= 2 ^ (CHUNK c - 1)) by (apply pow2_le; lia). assert (E2 : 2 ^ (B + 2) = 4 * 2 ^ B) by (rewrite Z.pow_add_r by lia; change (2 ^ 2) with 4; ring). assert (0 < 2 ^ B) by (apply pow2_pos; lia).
  assert (Wi : forall w, big_wf c w -> within 0 (2 ^ B - 1) w) by (intros w [_ Hw']; unfold within; eapply Forall_impl; [|exact Hw']; intros q Hq; cbv beta in *; lia).
  destruct (add_total c HBB ltac:(lia) 0 (2 ^ B - 1) 0 (2 ^ B - 1) x y (Wi x Wx) (Wi y Wy)) as [s [S1 S2]]; [rewrite (proj1 Wx), (proj1 Wy); reflexivity|lia|lia|].
  destruct (add_val c x y s S1) as [S3 S4]; [rewrite (proj1 Wx), (proj1 Wy); reflexivity|].
  destruct (norm_to_wf c Hok 2 s) as [s' [M1 [M2 M3]]]; [lia|lia|rewrite S4; exact (proj1 Wx)| |lia|].
  { unfold within in *. eapply Forall_impl; [|exact S2]. intros q Hq; cbv beta in *. lia. }
  destruct (modmul_n s' z M3 Wz) as [t [T1 [T2 T3]]]. exists s, t. split; [exact S1|]. split; [|split; [exact T2|rewrite T3, M2, S3; reflexivity]].
  rewrite <- T1. unfold modmul, rmod. rewrite M1. rewrite (norm_wf c Hok s' M3). reflexivity.
Qed.
End Proto.
