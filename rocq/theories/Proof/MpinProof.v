(** M-Pin on G1: identity hashing, PIN extraction and restoration, recombination. *)
From Verif Require Import Base.Word Base.Arr Model.Big Model.Roms Model.Fp Model.Ecp Model.Sha2 Model.Rand Model.Ecdh Model.Mpin Spec.Bytes Spec.BigSpec Spec.RomSpec Spec.FpSpec Spec.CurveSpec Spec.EcpSpec Spec.Sha2Spec Spec.KdfSpec Spec.MpinSpec
  Proof.NumTheory Proof.BigVal Proof.BigInv Proof.BigMod Proof.BigBytes Proof.BigMul Proof.FpBase Proof.FpOps Proof.FpExp Proof.FpSqrt Proof.FpIv Proof.FpWide Proof.FieldP Proof.Weier Proof.EcpOps Proof.EcpW Proof.EcpBridge Proof.EcpMul Proof.EcpInst
  Proof.EcpRaw Proof.EcpCodec Proof.EcpCodec2 Proof.EcpCodec3 Proof.Sha2Block Proof.Sha2Stream Proof.EcdhSym Proof.MapIt.
From Coq Require Import Lia Znumtheory.
(** what the theorems need of the curve constants: a Weierstrass curve in Montgomery representation, without points of order two,
    with head room for one un-normalised operand, and a cofactor the multiplication accepts *)
Definition mpin_rom (r : rom) : Prop :=
  weierstrass r /\ codec r /\ special r = false /\ wide_ok (r_cfg r) 1 1 /\ big_wf (r_cfg r) (r_COF r) /\ scalar_ok r (bval (r_cfg r) (r_COF r)).
Section MpinProof.
Variable r : rom.
Hypothesis HM : mpin_rom r.
Notation c := (r_cfg r).
Notation p := (pmod r).
Notation a := (cA r).
Notation b := (cB r).
Notation rm := (Z.to_nat (MODBYTES c)).
Let Hw : w_ok r := proj1 (proj1 HM).
Let Hp : prime p := proj1 (proj2 (proj1 HM)).
Let Hno2 : no_order2 p a b := proj2 (proj2 (proj1 HM)).
Let Hcod : codec r := proj1 (proj2 HM).
Let Hsp : special r = false := proj1 (proj2 (proj2 HM)).
Let HW : wide_ok c 1 1 := proj1 (proj2 (proj2 (proj2 HM))).
Let Hcw : big_wf c (r_COF r) := proj1 (proj2 (proj2 (proj2 (proj2 HM)))).
Let Hcs : scalar_ok r (bval c (r_COF r)) := proj2 (proj2 (proj2 (proj2 (proj2 HM)))).
Let Hs5 : sqrt_ok5 r := proj1 (proj2 Hcod).
Let SC : sqrt_canon r := or_introl Hsp.
Let Hf : fp_ok r := proj1 Hw.
Let Hct : r_CURVETYPE r = Weierstrass := proj1 (proj2 (proj2 (proj2 Hw))).
Let P3 : 3 < p := p_gt3 r Hf.
Let Hok : cfg_ok c := ff_ok r (fp_ok_facts r Hf).
Let WG := w_group r Hw Hp Hno2.
Let HP := r_pops r Hw HW Hp Hno2.
Notation ka := (mk p a).
Notation kb := (mk p b).
Notation zt := (ztimes (apt p) (AInf p) (asum p ka) (aneg p)).
(** the identity hash *)
Lemma hashit_ok bd sha P id : In (sha, P) sha_types -> bytes id -> room P bd (length id) -> mpin_hashit r bd sha 0 id (repeat 0 rm) = Some (true, id_string P (mbytes r) id).
Proof.
  intros HT Hb HR. destruct (hash_C sha P HT) as [C [EC M]]. unfold mpin_hashit. rewrite EC. change (0 <? 0) with false. cbv iota. cbn [bind].
  destruct (process_array_ok C P M bd id [] (h_new C) (new_ok C P M) Hb) as [s [E I]]; [eapply fits_le; [|exact HR]; cbn [length]; lia|]. rewrite E. cbn [bind]. rewrite app_nil_l in I.
  destruct (hash_ok C P M bd _ s I) as [s4 [E4 _]]; [eapply fits_le; [|exact HR]; lia|]. rewrite E4. cbn [bind fst].
  pose proof (SHA_len sha P HT id) as L. fold (mbytes r). unfold id_string. rewrite (sha_out sha P HT).
  destruct (Nat.ltb_spec (mbytes r) sha) as [Q|Q].
  - rewrite put_from_ok by (rewrite firstn_length, repeat_length; lia). cbn [firstn app Nat.add bind]. rewrite skipn_all2 by (rewrite repeat_length, firstn_length; lia). rewrite app_nil_r. reflexivity.
  - rewrite (firstn_all2 (SHA2 P id)) by lia. rewrite put_from_ok by (rewrite app_length, !repeat_length; lia). cbn [firstn app Nat.add bind]. rewrite skipn_all2 by (rewrite app_length, !repeat_length; lia). rewrite app_nil_r. reflexivity.
Qed.
Lemma id_string_bytes sha P id : In (sha, P) sha_types -> bytes (id_string P (mbytes r) id) /\ length (id_string P (mbytes r) id) = mbytes r.
Proof.
  intros HT. pose proof (SHA_len sha P HT id) as L. destruct (hash_C sha P HT) as [C [_ M]]. assert (B : bytes (SHA2 P id)) by apply SHA2_bytes. unfold id_string. rewrite (sha_out sha P HT).
  destruct (Nat.ltb_spec (mbytes r) sha) as [Q|Q].
  - split; [apply bytes_firstn; exact B|rewrite firstn_length; lia].
  - split; [|rewrite app_length, repeat_length; lia]. apply Forall_app. split; [|exact B]. apply Forall_forall. intros x Hx. apply repeat_spec in Hx. subst. unfold is_byte. lia.
Qed.
(** decoding and encoding *)
Lemma dec_r x y : on_w p a b (Aff x y) -> exists P, ecp_frombytes r (enc_xy r x y) = Some P /\ rden r P (ak p (Aff x y)).
Proof. intros O. destruct (w_decode r x y Hw Hcod O) as [P [E [W _]]]. exists P. split; [exact E|]. apply wden_r; [exact Hw|]. apply (w_point_den r Hw Hp) in W. exact (proj2 W). Qed.
Lemma y_nz0 x y : on_w p a b (Aff x y) -> y <> 0.
Proof. intros [_ [_ H]] ->. apply (Hno2 x). unfold cong in *. rewrite <- H. reflexivity. Qed.
Lemma enc_w P A x y buf : wden r P A -> A = ak p (Aff x y) -> on_w p a b (Aff x y) -> x <> 0 -> (2 * mbytes r + 1 <= length buf)%nat -> ecp_tobytes r P buf false = Some (enc_xy r x y ++ skipn (2 * mbytes r + 1) buf).
Proof.
  intros D EA O Nx L. assert (W : w_point r P (Aff x y)) by (apply (w_point_den r Hw Hp); rewrite <- EA; auto).
  apply (proj1 (w_tobytes r P x y buf Hw Hp W ltac:(right; right; split; [exact Hsp|split; [exact Nx|exact (y_nz0 x y O)]]))). exact L.
Qed.
Lemma enc_len x y : length (enc_xy r x y) = (2 * mbytes r + 1)%nat.
Proof. unfold enc_xy. cbn [length]. rewrite app_length, !i2osp_length. lia. Qed.
(** T - F = S and S + F = T *)
Lemma diff A B C : on_w p a b A -> on_w p a b B -> w_sum p a A B C -> asum p ka (ak p C) (aneg p (ak p B)) = ak p A.
Proof.
  intros OA OB H. pose proof (proj1 (spec_sum_iff p Hp P3 a b A B C OA OB) H) as E. rewrite E, ak_sp by exact Hp. apply (add_sub _ _ _ _ _ WG); apply on_ak; assumption.
Qed.
Lemma summ A B C : on_w p a b A -> on_w p a b B -> w_sum p a A B C -> asum p ka (ak p A) (ak p B) = ak p C.
Proof. intros OA OB H. pose proof (proj1 (spec_sum_iff p Hp P3 a b A B C OA OB) H) as E. rewrite E, ak_sp by exact Hp. reflexivity. Qed.
Lemma times_on A n B : on_w p a b A -> w_times p a A n B -> on_w p a b B /\ ak p B = ntimes (apt p) (AInf p) (asum p ka) n (ak p A).
Proof.
  intros OA H. apply (w_times_iff r Hw Hp Hno2) in H; [|exact OA]. assert (O : aon p ka kb (ntimes (apt p) (AInf p) (asum p ka) n (ak p A))) by (apply (ntimes_on _ _ _ _ _ WG); apply on_ak; assumption).
  subst B. rewrite ak_sp by exact Hp. split; [apply on_sp; [exact Hp|exact O]|reflexivity].
Qed.
(** only the low bits of the factor are read *)
Lemma ladder_ext bits : forall e e' P Q, (forall i, In i bits -> Z.land (Z.shiftr e (Z.of_nat i)) 1 = Z.land (Z.shiftr e' (Z.of_nat i)) 1) -> ladder_p r bits e P Q = ladder_p r bits e' P Q.
Proof.
  induction bits as [|i bits IH]; intros e e' P Q H; cbn [ladder_p]; [reflexivity|]. rewrite (H i (or_introl eq_refl)). destruct (ecp_add r Q P) as [X|]; cbn [bind]; [|reflexivity].
  destruct (ecp_cswap r P Q _) as [sw|]; cbn [bind]; [|reflexivity]. destruct (ecp_dbl r (fst sw)) as [D|]; cbn [bind]; [|reflexivity]. destruct (ecp_cswap r D X _) as [sw'|]; cbn [bind]; [|reflexivity]. apply IH. intros j Hj. apply H. right. exact Hj.
Qed.
Lemma bit_mod e n i : (i < n)%nat -> Z.land (Z.shiftr e (Z.of_nat i)) 1 = Z.land (Z.shiftr (e mod 2 ^ Z.of_nat n) (Z.of_nat i)) 1.
Proof.
  intros Hi. apply Z.bits_inj'. intros k Hk. rewrite !Z.land_spec. destruct (Z.eq_dec k 0) as [->|N].
  - rewrite !Z.shiftr_spec by lia. rewrite Z.mod_pow2_bits_low by lia. reflexivity.
  - replace (Z.testbit 1 k) with false; [rewrite !Bool.andb_false_r; reflexivity|]. symmetry. apply Z.bits_above_log2; [lia|]. change (Z.log2 1) with 0. lia.
Qed.
Lemma pinmul_mod P e n : ecp_pinmul r P e n = ecp_pinmul r P (e mod 2 ^ Z.of_nat n) n.
Proof.
  unfold ecp_pinmul. rewrite (w_nm r Hw). destruct (ecp_new r); cbn [bind]; [|reflexivity]. erewrite ladder_ext; [reflexivity|]. intros i Hi. apply bit_mod. apply in_rev, in_seq in Hi. lia.
Qed.
(** the common part of extract_factor and restore_factor: the identity's multiple is subtracted or added *)
Theorem shift_ok add bd fuel sha P cid n H f bits F xs ys xt yt :
  In (sha, P) sha_types -> bytes cid -> room P bd (length cid) -> maps_to r (id_string P (mbytes r) cid) n H -> (n < fuel)%nat ->
  0 <= bits -> w_times p a H (Z.to_nat (f mod 2 ^ bits)) F -> w_sum p a (Aff xs ys) F (Aff xt yt) -> on_w p a b (Aff xs ys) -> on_w p a b (Aff xt yt) -> (if add : bool then xt else xs) <> 0 ->
  shift_factor r bd fuel add sha cid f bits (if add then enc_xy r xs ys else enc_xy r xt yt) = Some (0, if add then enc_xy r xt yt else enc_xy r xs ys).
Proof.
  intros HT Hb HR HMt Hn Hbits TF S OS OT Nx. unfold shift_factor.
  assert (Hfb : 0 <= f mod 2 ^ bits < 2 ^ bits) by (apply Z.mod_pos_bound; apply pow2_pos; exact Hbits).
  destruct (id_string_bytes sha P cid HT) as [B1 B2]. destruct (mapit_ok r Hw HW Hp Hno2 Hs5 SC Hcw Hcs fuel _ n H B1 ltac:(lia) HMt Hn) as [R [R1 [OH R2]]].
  destruct (times_on H _ F OH TF) as [OF EF].
  assert (DD : exists X, ecp_frombytes r (if add then enc_xy r xs ys else enc_xy r xt yt) = Some X /\ rden r X (ak p (if add then Aff xs ys else Aff xt yt))) by (destruct add; apply dec_r; assumption).
  destruct DD as [X [X1 X2]]. rewrite X1. cbn [bind]. destruct (r_is_inf r Hw Hp X _ X2) as [i [I1 I2]]. rewrite I1. cbn [bind].
  assert (i = false). { destruct i; [|reflexivity]. pose proof (proj1 I2 eq_refl) as Z. destruct add; discriminate Z. } subst i.
  rewrite (hashit_ok bd sha P cid HT Hb HR). cbn [bind snd]. rewrite R1. cbn [bind].
  rewrite pinmul_mod, Z2Nat.id by exact Hbits. destruct (pinmul_ok r (w_nm r Hw) (apt p) (AInf p) (asum p ka) (aneg p) (aon p ka kb) WG (rden r) (rnrm r) HP R _ (f mod 2 ^ bits) (Z.to_nat bits) R2) as [Y [Y1 [Y2 _]]]. { rewrite Z2Nat.id by exact Hbits. exact Hfb. }
  rewrite Y1. cbn [bind]. rewrite ztimes_nat, <- EF in Y2 by lia.
  assert (DS : exists W, (if add then ecp_add r X Y else ecp_sub r X Y) = Some W /\ wden r W (ak p (if add then Aff xt yt else Aff xs ys))).
  { destruct add.
    - destruct (r_add r Hw HW Hp Hno2 X Y _ _ X2 Y2) as [W [W1 W2]]. exists W. split; [exact W1|]. rewrite (summ _ _ _ OS OF S) in W2. exact W2.
    - destruct (r_sub r Hw HW Hp Hno2 X Y _ _ X2 Y2) as [W [W1 W2]]. exists W. split; [exact W1|]. rewrite (diff _ _ _ OS OF S) in W2. exact W2. }
  destruct DS as [W [W1 W2]]. rewrite W1. cbn [bind].
  destruct add.
  - rewrite (enc_w W _ xt yt (enc_xy r xs ys) W2 eq_refl OT Nx) by (rewrite enc_len; lia). cbn [bind]. rewrite skipn_all2, app_nil_r by (rewrite enc_len; lia). reflexivity.
  - rewrite (enc_w W _ xs ys (enc_xy r xt yt) W2 eq_refl OS Nx) by (rewrite enc_len; lia). cbn [bind]. rewrite skipn_all2, app_nil_r by (rewrite enc_len; lia). reflexivity.
Qed.
(** strings that are no encoding of a finite point decode to infinity *)
Lemma bad_inf t : bytes t -> (2 * mbytes r + 1 <= length t)%nat -> (forall x y, on_w p a b (Aff x y) -> firstn (2 * mbytes r + 1) t <> enc_xy r x y /\ firstn (mbytes r + 1) t <> enc_x r x y) ->
  exists P, ecp_frombytes r t = Some P /\ ecp_is_infinity r P = Some true.
Proof.
  intros Hb Hl Hbad. pose proof Hw as [_ [HMX [Hfp _]]].
  assert (NI : forall P, neutral r P -> ecp_is_infinity r P = Some true).
  { intros P N. unfold neutral, zi in N. rewrite Hct in N. assert (D : rden r P (AInf p)). { exists (0, 1, 0). split; [apply prep_1; [exact Hw|exact N]|]. split; [|exact I]. cbn [kk kden]. split; [reflexivity|]. split; [reflexivity|]. intros E. apply mk_0 in E; [rewrite Z.mod_1_l in E by lia; lia|exact Hp]. }
    destruct (r_is_inf r Hw Hp P _ D) as [i [I1 I2]]. rewrite I1, (proj2 I2 eq_refl). reflexivity. }
  unfold ecp_frombytes. cbv zeta. fold (mbytes r). rewrite get_range_ok by lia. cbn [bind].
  destruct (frb r Hf (firstn (mbytes r) (skipn 1 t)) (bytes_sub _ _ _ Hb) (len_sub t 1 (mbytes r) ltac:(lia))) as [px [X1 [X2 X3]]]. rewrite X1. cbn [bind]. rewrite (comp_p r Hf px X2). pose proof (wf_range c Hok _ px X2) as RX.
  destruct (EcpCodec.new_ok r Hf) as [N0 [N1 N2]]. destruct (Z.leb_spec p (val (BASEBITS c) px)) as [L|L]; [exists N0; auto|]. rewrite (w_nm r Hw).
  destruct t as [|tag t']; [cbn [length] in Hl; lia|]. cbn [nth_error bind]. cbn [length] in Hl. cbn [skipn] in X3.
  assert (EX : i2osp (val (BASEBITS c) px) (mbytes r) = firstn (mbytes r) t').
  { rewrite X3. rewrite <- (i2osp_os2ip (firstn (mbytes r) t')) at 2; [rewrite firstn_length, Nat.min_l by lia; reflexivity|]. apply bytes_firstn. inversion Hb; assumption. }
  destruct (Z.eqb_spec tag 4) as [T|T].
  - subst tag. rewrite get_range_ok by (cbn [length]; lia). cbn [bind]. replace (mbytes r + 1)%nat with (S (mbytes r)) by lia. cbn [skipn].
    assert (Hb' : bytes t') by (inversion Hb; assumption).
    destruct (frb r Hf (firstn (mbytes r) (skipn (mbytes r) t')) (bytes_sub _ _ _ Hb') (len_sub t' (mbytes r) (mbytes r) ltac:(lia))) as [py [Y1 [Y2 Y3]]]. rewrite Y1. cbn [bind]. rewrite (comp_p r Hf py Y2). pose proof (wf_range c Hok _ py Y2) as RY.
    destruct (Z.leb_spec p (val (BASEBITS c) py)) as [L'|L']; [exists N0; auto|].
    destruct (new_bigs_ok r Hf HMX (w_rhs r) (rhs_w r Hw) (w_nm r Hw) px py X2 Y2 L L') as [P [P1 [[P2 _]|[_ P2]]]]; [exfalso|exists P; auto].
    assert (O : on_w p a b (Aff (val (BASEBITS c) px) (val (BASEBITS c) py))) by (cbn [on_w]; unfold residue; split; [lia|]; split; [lia|exact P2]).
    apply (proj1 (Hbad _ _ O)). unfold enc_xy. replace (2 * mbytes r + 1)%nat with (S (mbytes r + mbytes r)) by lia. cbn [firstn]. f_equal. rewrite EX.
    assert (EY : i2osp (val (BASEBITS c) py) (mbytes r) = firstn (mbytes r) (skipn (mbytes r) t')).
    { rewrite Y3. rewrite <- (i2osp_os2ip (firstn (mbytes r) (skipn (mbytes r) t'))) at 2; [rewrite firstn_length, skipn_length, Nat.min_l by lia; reflexivity|]. apply bytes_sub. exact Hb'. }
    rewrite EY. rewrite <- (firstn_skipn (mbytes r) t') at 1. rewrite firstn_app, firstn_firstn, firstn_length. replace (Nat.min (mbytes r + mbytes r) (mbytes r)) with (mbytes r) by lia. replace (mbytes r + mbytes r - Nat.min (mbytes r) (length t'))%nat with (mbytes r) by lia. reflexivity.
  - destruct ((tag =? 2) || (tag =? 3)) eqn:Et; [|exists N0; auto].
    assert (T23 : tag = 2 \/ tag = 3) by (rewrite Bool.orb_true_iff, !Z.eqb_eq in Et; exact Et). assert (Es : Z.land tag 1 = tag - 2) by (destruct T23 as [-> | ->]; reflexivity). rewrite Es.
    destruct (bigint_w r Hw Hp Hno2 Hs5 SC px (tag - 2) X2 L ltac:(lia)) as [P [P1 [[y [O [Ey _]]]|[_ D]]]].
    + exfalso. apply (proj2 (Hbad _ _ O)). unfold enc_x. replace (mbytes r + 1)%nat with (S (mbytes r)) by lia. cbn [firstn]. rewrite EX. f_equal. lia.
    + exists P. split; [exact P1|]. destruct (r_is_inf r Hw Hp P _ D) as [i [I1 I2]]. rewrite I1, (proj2 I2 eq_refl). reflexivity.
Qed.
Theorem recombine_ok x1 y1 x2 y2 xs ys out : on_w p a b (Aff x1 y1) -> on_w p a b (Aff x2 y2) -> w_sum p a (Aff x1 y1) (Aff x2 y2) (Aff xs ys) -> xs <> 0 -> (2 * mbytes r + 1 <= length out)%nat ->
  recombine_g1 r (enc_xy r x1 y1) (enc_xy r x2 y2) out = Some (0, enc_xy r xs ys ++ skipn (2 * mbytes r + 1) out).
Proof.
  intros O1 O2 S Nx L. pose proof (spec_sum_on p Hp P3 a b Hno2 _ _ _ O1 O2 S) as OS. unfold recombine_g1. destruct (dec_r x1 y1 O1) as [P [E1 D1]]. destruct (dec_r x2 y2 O2) as [Q [E2 D2]]. rewrite E1. cbn [bind]. rewrite E2. cbn [bind].
  destruct (r_is_inf r Hw Hp P _ D1) as [i [I1 I2]]. rewrite I1. cbn [bind]. assert (i = false) by (destruct i; [pose proof (proj1 I2 eq_refl) as Z; discriminate Z|reflexivity]). subst i. cbv iota.
  destruct (r_is_inf r Hw Hp Q _ D2) as [j [J1 J2]]. rewrite J1. cbn [bind]. assert (j = false) by (destruct j; [pose proof (proj1 J2 eq_refl) as Z; discriminate Z|reflexivity]). subst j. cbv iota.
  destruct (r_add r Hw HW Hp Hno2 P Q _ _ D1 D2) as [W [W1 W2]]. rewrite W1. cbn [bind]. rewrite (summ _ _ _ O1 O2 S) in W2. rewrite (enc_w W _ xs ys out W2 eq_refl OS Nx L). reflexivity.
Qed.
Lemma sub_ex A B : on_w p a b A -> on_w p a b B -> exists C, on_w p a b C /\ w_sum p a C B A.
Proof.
  intros OA OB. destruct (spec_sum_total p Hp P3 a b Hno2 A (w_neg p B) OA (spec_neg_on p Hp a b B OB)) as [C [S OC]]. exists C. split; [exact OC|].
  apply (spec_sum_iff p Hp P3 a b); [exact OC|exact OB|]. rewrite <- (sp_ak p a b A OA). f_equal. pose proof (summ _ _ _ OA (spec_neg_on p Hp a b B OB) S) as E. rewrite <- E, (ak_neg p Hp a b) by exact OB.
  symmetry. apply (sub_add _ _ _ _ _ WG); apply on_ak; assumption.
Qed.
Lemma times_ex A n : on_w p a b A -> exists B, w_times p a A n B /\ on_w p a b B.
Proof.
  intros OA. exists (sp p (ntimes (apt p) (AInf p) (asum p ka) n (ak p A))). split; [apply (w_times_iff r Hw Hp Hno2); [exact OA|reflexivity]|]. apply on_sp; [exact Hp|]. apply (ntimes_on _ _ _ _ _ WG). apply on_ak; assumption.
Qed.
Lemma mapped_on h n Q : bytes h -> (mbytes r <= length h)%nat -> maps_to r h n Q -> on_w p a b Q.
Proof. intros B L M. destruct (mapit_ok r Hw HW Hp Hno2 Hs5 SC Hcw Hcs (S n) h n Q B L M ltac:(lia)) as [P [_ [O _]]]. exact O. Qed.
End MpinProof.
