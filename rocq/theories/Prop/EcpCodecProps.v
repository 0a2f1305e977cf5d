(** C22: point encodings.  [ecp_frombytes r b] is ECP::frombytes on the bytes b, [ecp_tobytes r P b compress] the contents of
    the buffer b after P.tobytes(b, compress).  With n = MODBYTES an uncompressed encoding is 04 || X || Y (2n + 1 bytes) and a
    compressed one 02/03 || X (n + 1 bytes), coordinates big-endian. *)
From Verif Require Import Base.Word Base.Arr Model.Big Model.Roms Model.Fp Model.Ecp Spec.BigSpec Spec.RomSpec Spec.FpSpec Spec.CurveSpec Spec.EcpSpec Spec.Bytes
  Proof.BigVal Proof.NumTheory Proof.RomCheck Proof.FpBase Proof.FpOps Proof.FpExp Proof.FpSqrt Proof.FpCheck Proof.FpIv Proof.FieldP Proof.Weier Proof.Edw Proof.EcpOps Proof.EcpW Proof.EcpE Proof.EcpBridge Proof.EcpMul
  Proof.EcpInst Proof.EcpCheck Proof.EcpCodec Proof.EcpCodec2 Proof.EcpCodec3 Proof.Pocklington Proof.Primes Proof.CurveFacts.
From Coq Require Import Znumtheory.

(** ** Weierstrass curves *)
(** whatever the bytes, frombytes does not panic on an input of sufficient length and returns a point of the curve *)
Theorem C22_frombytes_on_curve : forall r b, w_ok r -> codec r -> bytes b -> (mbytes r + 1 <= length b)%nat -> (nth_error b 0 = Some 4 -> (2 * mbytes r + 1 <= length b)%nat) ->
  exists P A, ecp_frombytes r b = Some P /\ w_point_raw r 2 P A.
Proof.
  intros r b Hw [Hp [Hs _]] Hb Hl Hl4. pose proof Hw as [Hf [HMX [Hfp [Hct _]]]]. pose proof (p_gt3 r Hf) as H3.
  destruct (frombytes_ok r Hf HMX Hfp Hp Hs (w_rhs r) (rhs_w r Hw) (w_nm r Hw) b Hb Hl Hl4) as [P [E D]]. destruct D as [N|[x [y [Hx [Hc A2]]]]].
  - exists P, Inf. split; [exact E|]. split; [exact I|]. exists 0, 1, 0. unfold neutral, zi in N. rewrite Hct in N. destruct N as [N1 [N2 N3]]. cbn [fst snd] in *.
    split; [apply (frep_rep r Hf 0 1 (FEXCESS r)); [lia|lia|exact N1]|]. split; [apply (frep_rep r Hf 0 1 (FEXCESS r)); [lia|lia|exact N2]|]. split; [apply (frep_rep r Hf 0 1 (FEXCESS r)); [lia|lia|exact N3]|].
    split; [reflexivity|]. split; [reflexivity|apply not1; exact H3].
  - exists P, (Aff x (y mod pmod r)). split; [exact E|]. destruct (at2_raw r P x y Hf A2) as [B1 [B2 B3]]. split.
    + split; [exact Hx|]. split; [apply Z.mod_pos_bound; lia|]. unfold cong. rewrite <- Z.mul_mod by lia. exact Hc.
    + exists x, (y mod pmod r), 1. split; [exact B1|]. split; [apply rep_mod; assumption|]. split; [exact B3|]. rewrite !Z.mul_1_r. split; [apply not1; exact H3|]. split; reflexivity.
Qed.
Print Assumptions C22_frombytes_on_curve.

(** an uncompressed encoding of a curve point decodes to it *)
Theorem C22_decode_uncompressed : forall r x y, w_ok r -> codec r -> on_w (pmod r) (cA r) (cB r) (Aff x y) ->
  exists P, ecp_frombytes r (enc_xy r x y) = Some P /\ w_point r P (Aff x y) /\ (special r = true -> limbs_reduced r P) /\ coords r P x y 1.
Proof.
  exact w_decode.
Qed.
Print Assumptions C22_decode_uncompressed.

(** a compressed encoding of a curve point decodes to it, when the square root routine returns reduced values *)
Theorem C22_decode_compressed : forall r x y, w_ok r -> codec r -> special r = false \/ r_MOD8 r = 5 -> on_w (pmod r) (cA r) (cB r) (Aff x y) -> y <> 0 ->
  exists P, ecp_frombytes r (enc_x r x y) = Some P /\ w_point_raw r 2 P (Aff x y).
Proof.
  intros r x y Hw [Hp [Hs Hm]] SC O Ny. pose proof O as [Hx [Hy Hc]]. pose proof Hw as [Hf [HMX [Hfp [Hct _]]]]. pose proof (p_gt3 r Hf) as H3. unfold residue in *.
  assert (C1 : firstn (mbytes r) (skipn 1 (enc_x r x y)) = i2osp x (mbytes r)) by (unfold enc_x; cbn [skipn]; apply firstn_all2; rewrite i2osp_length; lia).
  assert (EX : xpart r (enc_x r x y) = x) by (unfold xpart; change (Z.to_nat (MODBYTES (r_cfg r))) with (mbytes r); rewrite C1, os2ip_i2osp; apply Z.mod_small; lia).
  destruct (decode_x r Hf Hfp Hp Hs (w_rhs r) (rhs_w r Hw) (w_nm r Hw) (enc_x r x y) y SC) as [P [E D]].
  - apply bytes_cons; [|apply i2osp_bytes]. pose proof (Z.mod_pos_bound y 2 ltac:(lia)). unfold is_byte. lia.
  - unfold enc_x. cbn [length]. rewrite i2osp_length. unfold mbytes. lia.
  - reflexivity.
  - rewrite EX. lia.
  - lia.
  - rewrite EX. exact Hc.
  - rewrite EX in *. exists P. split; [exact E|]. destruct (at2_raw r P x y Hf D) as [B1 [B2 B3]]. split; [exact O|]. exists x, y, 1. split; [exact B1|]. split; [exact B2|]. split; [exact B3|].
    rewrite !Z.mul_1_r. split; [apply not1; exact H3|]. split; reflexivity.
Qed.
Print Assumptions C22_decode_compressed.

(** what tobytes writes *)
Theorem C22_tobytes : forall r P x y b, w_ok r -> prime (pmod r) -> w_point r P (Aff x y) -> writable r P x y ->
  ((2 * mbytes r + 1 <= length b)%nat -> ecp_tobytes r P b false = Some (enc_xy r x y ++ skipn (2 * mbytes r + 1) b)) /\
  ((mbytes r + 1 <= length b)%nat -> ecp_tobytes r P b true = Some (enc_x r x y ++ skipn (mbytes r + 1) b)).
Proof.
  exact w_tobytes.
Qed.
Print Assumptions C22_tobytes.

(** round trips *)
Theorem C22_roundtrip : forall r P x y b, w_ok r -> codec r -> w_point r P (Aff x y) -> writable r P x y -> length b = (2 * mbytes r + 1)%nat ->
  exists b' Q, ecp_tobytes r P b false = Some b' /\ ecp_frombytes r b' = Some Q /\ w_point r Q (Aff x y).
Proof.
  intros r P x y b Hw Hc HP HW Hl. destruct (C22_tobytes r P x y b Hw (proj1 Hc) HP HW) as [T _]. specialize (T ltac:(lia)). rewrite skipn_all2, app_nil_r in T by lia.
  destruct (C22_decode_uncompressed r x y Hw Hc (proj1 HP)) as [Q [Q1 [Q2 _]]]. exists (enc_xy r x y), Q. auto.
Qed.
Print Assumptions C22_roundtrip.
Theorem C22_compressed_roundtrip : forall r P x y b, w_ok r -> codec r -> special r = false \/ r_MOD8 r = 5 -> w_point r P (Aff x y) -> writable r P x y -> y <> 0 -> length b = (mbytes r + 1)%nat ->
  exists b' Q, ecp_tobytes r P b true = Some b' /\ ecp_frombytes r b' = Some Q /\ w_point_raw r 2 Q (Aff x y).
Proof.
  intros r P x y b Hw Hc SC HP HW Ny Hl. destruct (C22_tobytes r P x y b Hw (proj1 Hc) HP HW) as [_ T]. specialize (T ltac:(lia)). rewrite skipn_all2, app_nil_r in T by lia.
  destruct (C22_decode_compressed r x y Hw Hc SC (proj1 HP) Ny) as [Q [Q1 Q2]]. exists (enc_x r x y), Q. auto.
Qed.
Print Assumptions C22_compressed_roundtrip.
(** decoding then encoding gives the bytes back: encodings of affine points are unique *)
Theorem C22_decode_encode : forall r x y b, w_ok r -> codec r -> on_w (pmod r) (cA r) (cB r) (Aff x y) -> special r = true \/ x <> 0 /\ y <> 0 -> length b = (2 * mbytes r + 1)%nat ->
  exists P, ecp_frombytes r (enc_xy r x y) = Some P /\ ecp_tobytes r P b false = Some (enc_xy r x y).
Proof.
  intros r x y b Hw Hc O Nz Hl. destruct (C22_decode_uncompressed r x y Hw Hc O) as [P [P1 [P2 [P3 _]]]]. exists P. split; [exact P1|].
  destruct (C22_tobytes r P x y b Hw (proj1 Hc) P2) as [T _].
  - right. destruct (special r) eqn:Es; [left; apply P3; reflexivity|right]. destruct Nz as [Nz|Nz]; [discriminate|auto].
  - rewrite T by lia. rewrite skipn_all2, app_nil_r by lia. reflexivity.
Qed.
Print Assumptions C22_decode_encode.

(** ** Edwards curves *)
Definition edw (r : rom) : Prop := e_ok r /\ ~ is_square (pmod r) (cB r).
Lemma e_rhs_iff r x y : fp_ok r -> prime (pmod r) -> ~ is_square (pmod r) (cB r) ->
  ((y * y) mod pmod r = e_rhs r x mod pmod r <-> cong (pmod r) (cA r * x * x + y * y) (1 + cB r * x * x * y * y)).
Proof.
  intros Hf Hp Hn. pose proof (p_gt3 r Hf) as H3. set (p := pmod r) in *. unfold e_rhs, cong. fold p. set (D := cB r * x * x - 1). set (N := cA r * x * x - 1).
  assert (ND : D mod p <> 0).
  { intros E. apply Hn. destruct (Z.eq_dec (x mod p) 0) as [X0|X0].
    - exfalso. apply Z.mod_divide in E; [|lia]. apply Z.mod_divide in X0; [|lia]. assert (p | 1) as [q Q]; [|assert (q = 0 \/ q <> 0) as [-> |Nq] by lia; [lia|]; assert (p * 1 <= p * Z.abs q) by (apply Z.mul_le_mono_nonneg_l; lia); assert (Z.abs (q * p) = 1) by (rewrite <- Q; reflexivity); rewrite Z.abs_mul, (Z.abs_eq p) in H0 by lia; lia].
      replace 1 with (cB r * x * x - D) by (unfold D; ring). apply Z.divide_sub_r; [|exact E]. apply Z.divide_mul_r. exact X0.
    - exists (x ^ (p - 2)). unfold cong. pose proof (fermat_inv p x Hp X0) as F. set (i := x ^ (p - 2)) in *. apply Z.mod_divide in E; [|lia]. apply mod_eq_divide; [lia|].
      assert (F1 : (p | x * i - 1)) by (apply mod_eq_divide; [lia|]; rewrite F; symmetry; apply Z.mod_1_l; lia).
      replace (i * i - cB r) with (- (i * i * D) + (x * i - 1) * (cB r * (x * i + 1))) by (unfold D; ring). apply Z.divide_add_r; [apply Z.divide_opp_r; apply Z.divide_mul_r; exact E|apply Z.divide_mul_l; exact F1]. }
  pose proof (fermat_inv p D Hp ND) as F. set (i := D ^ (p - 2)) in *. assert (F1 : (p | D * i - 1)) by (apply mod_eq_divide; [lia|]; rewrite F; symmetry; apply Z.mod_1_l; lia).
  split; intros H; (apply mod_eq_divide in H; [|lia]); (apply mod_eq_divide; [lia|]).
  - replace (cA r * x * x + y * y - (1 + cB r * x * x * y * y)) with (- ((y * y - N * i) * D) - (D * i - 1) * N) by (unfold D, N; ring).
    apply Z.divide_sub_r; [apply Z.divide_opp_r|]; apply Z.divide_mul_l; assumption.
  - replace (y * y - N * i) with (- ((cA r * x * x + y * y - (1 + cB r * x * x * y * y)) * i) - (D * i - 1) * (y * y)) by (unfold D, N; ring).
    apply Z.divide_sub_r; [apply Z.divide_opp_r|]; apply Z.divide_mul_l; assumption.
Qed.
Theorem C22_edwards_frombytes_on_curve : forall r b, edw r -> codec r -> bytes b -> (mbytes r + 1 <= length b)%nat -> (nth_error b 0 = Some 4 -> (2 * mbytes r + 1 <= length b)%nat) ->
  exists P A, ecp_frombytes r b = Some P /\ e_point_raw r 2 P A.
Proof.
  intros r b [Hw Hn] [Hp [Hs _]] Hb Hl Hl4. pose proof Hw as [Hf [HMX [Hfp [Hct _]]]]. pose proof (p_gt3 r Hf) as H3.
  destruct (frombytes_ok r Hf HMX Hfp Hp Hs (e_rhs r) (rhs_e r Hw) (e_not_mont r Hw) b Hb Hl Hl4) as [P [E D]]. destruct D as [N|[x [y [Hx [Hc A2]]]]].
  - exists P, e_zero. split; [exact E|]. split; [split; [unfold residue; lia|]; split; [unfold residue; lia|]; unfold cong; f_equal; ring|]. exists 0, 1, 1. unfold neutral, zi in N. rewrite Hct in N. destruct N as [N1 [N2 N3]]. cbn [fst snd e_zero] in *.
    split; [apply (frep_rep r Hf 0 1 (FEXCESS r)); [lia|lia|exact N1]|]. split; [apply (frep_rep r Hf 0 1 (FEXCESS r)); [lia|lia|exact N2]|]. split; [apply (frep_rep r Hf 0 1 (FEXCESS r)); [lia|lia|exact N3]|].
    split; [apply not1; exact H3|]. split; reflexivity.
  - exists P, (x, y mod pmod r). split; [exact E|]. destruct (at2_raw r P x y Hf A2) as [B1 [B2 B3]]. split.
    + split; [exact Hx|]. split; [apply Z.mod_pos_bound; lia|]. apply (e_rhs_iff r x (y mod pmod r) Hf Hp Hn). rewrite <- Z.mul_mod by lia. exact Hc.
    + exists x, (y mod pmod r), 1. split; [exact B1|]. split; [apply rep_mod; assumption|]. split; [exact B3|]. cbn [fst snd]. rewrite !Z.mul_1_r. split; [apply not1; exact H3|]. split; reflexivity.
Qed.
Print Assumptions C22_edwards_frombytes_on_curve.
Theorem C22_edwards_decode_uncompressed : forall r x y, edw r -> codec r -> on_e (pmod r) (cA r) (cB r) (x, y) ->
  exists P, ecp_frombytes r (enc_xy r x y) = Some P /\ e_point r P (x, y) /\ (special r = true -> limbs_reduced r P).
Proof.
  intros r x y [Hw Hn] [Hp [Hs Hm]] O. pose proof O as [Hx [Hy Hc]]. pose proof Hw as [Hf [HMX [Hfp [Hct _]]]]. pose proof (p_gt3 r Hf) as H3. unfold residue in *.
  destruct (cut1 4 (i2osp x (mbytes r)) (i2osp y (mbytes r)) (mbytes r) (mbytes r) (i2osp_length _ _) (i2osp_length _ _)) as [C1 C2]. fold (enc_xy r x y) in C1, C2.
  assert (EX : xpart r (enc_xy r x y) = x) by (unfold xpart; change (Z.to_nat (MODBYTES (r_cfg r))) with (mbytes r); rewrite C1, os2ip_i2osp; apply Z.mod_small; lia).
  assert (EY : ypart r (enc_xy r x y) = y) by (unfold ypart; change (Z.to_nat (MODBYTES (r_cfg r))) with (mbytes r); rewrite C2, os2ip_i2osp; apply Z.mod_small; lia).
  destruct (decode_xy r Hf HMX (e_rhs r) (rhs_e r Hw) (e_not_mont r Hw) (enc_xy r x y)) as [P [E [D S]]].
  - apply bytes_cons; [unfold is_byte; lia|]. apply Forall_app. split; apply i2osp_bytes.
  - unfold enc_xy. cbn [length]. rewrite app_length, !i2osp_length. unfold mbytes. lia.
  - reflexivity.
  - rewrite EX. lia.
  - rewrite EY. lia.
  - rewrite EX, EY. apply (e_rhs_iff r x y Hf Hp Hn). exact Hc.
  - rewrite EX, EY in *. exists P. split; [exact E|]. destruct D as [D1 [D2 D3]]. cbn [fst snd] in *.
    assert (CO : coords r P x y 1) by (split; [|split]; (apply (frep_rep r Hf 0 1 (FEXCESS r)); [lia|lia|assumption])).
    split; [|intros Es; exact (S Es)]. split; [exact O|]. exists x, y, 1. split; [exact CO|]. cbn [fst snd]. rewrite !Z.mul_1_r. split; [apply not1; exact H3|]. split; reflexivity.
Qed.
Print Assumptions C22_edwards_decode_uncompressed.
Theorem C22_edwards_decode_compressed : forall r x y, edw r -> codec r -> special r = false \/ r_MOD8 r = 5 -> on_e (pmod r) (cA r) (cB r) (x, y) -> y <> 0 ->
  exists P, ecp_frombytes r (enc_x r x y) = Some P /\ e_point_raw r 2 P (x, y).
Proof.
  intros r x y [Hw Hn] [Hp [Hs Hm]] SC O Ny. pose proof O as [Hx [Hy Hc]]. pose proof Hw as [Hf [HMX [Hfp [Hct _]]]]. pose proof (p_gt3 r Hf) as H3. unfold residue in *.
  assert (C1 : firstn (mbytes r) (skipn 1 (enc_x r x y)) = i2osp x (mbytes r)) by (unfold enc_x; cbn [skipn]; apply firstn_all2; rewrite i2osp_length; lia).
  assert (EX : xpart r (enc_x r x y) = x) by (unfold xpart; change (Z.to_nat (MODBYTES (r_cfg r))) with (mbytes r); rewrite C1, os2ip_i2osp; apply Z.mod_small; lia).
  destruct (decode_x r Hf Hfp Hp Hs (e_rhs r) (rhs_e r Hw) (e_not_mont r Hw) (enc_x r x y) y SC) as [P [E D]].
  - apply bytes_cons; [|apply i2osp_bytes]. pose proof (Z.mod_pos_bound y 2 ltac:(lia)). unfold is_byte. lia.
  - unfold enc_x. cbn [length]. rewrite i2osp_length. unfold mbytes. lia.
  - reflexivity.
  - rewrite EX. lia.
  - lia.
  - rewrite EX. apply (e_rhs_iff r x y Hf Hp Hn). exact Hc.
  - rewrite EX in *. exists P. split; [exact E|]. destruct (at2_raw r P x y Hf D) as [B1 [B2 B3]]. split; [exact O|]. exists x, y, 1. split; [exact B1|]. split; [exact B2|]. split; [exact B3|].
    cbn [fst snd]. rewrite !Z.mul_1_r. split; [apply not1; exact H3|]. split; reflexivity.
Qed.
Print Assumptions C22_edwards_decode_compressed.
Lemma e_redc r P x y : edw r -> prime (pmod r) -> is_square (pmod r) (cA r) -> e_point r P (x, y) -> (x, y) <> e_zero -> writable r P x y ->
  exists W xr yr, ecp_affine r P = Some W /\ fp_redc r (ex W) = Some xr /\ fp_redc r (ey W) = Some yr /\ big_wf (r_cfg r) xr /\ big_wf (r_cfg r) yr /\ bval (r_cfg r) xr = x /\ bval (r_cfg r) yr = y.
Proof.
  intros [Hw Hn] Hp Hsq HP Nz HW. pose proof HP as [[Hx [Hy Hc]] [X [Y [Z [[CX [CY CZ]] [NZ [E1 E2]]]]]]]. pose proof Hw as [Hf [HMX [Hfp [Hct _]]]]. unfold residue, cong in *. cbn [fst snd] in *. pose proof (p_gt3 r Hf) as H3.
  pose proof (proj1 (e_point_den r Hw Hp P _) HP) as [_ HD]. destruct (e_is_inf r Hw Hp P _ HD) as [i [I1 I2]].
  assert (i = false).
  { destruct i; [|reflexivity]. exfalso. apply Nz. pose proof (proj1 I2 eq_refl) as I3. unfold ake, ezero in I3. cbn [fst snd] in I3. injection I3 as I3 I4.
    unfold e_zero. rewrite (Z.mod_small x) in I3 by lia. rewrite (Z.mod_small y), (Z.mod_small 1) in I4 by lia. rewrite I4. f_equal. rewrite Z.mod_0_l in I3 by lia. exact I3. }
  subst i.
  assert (UP : forall f u, fp_rep r 1 f u -> frep r 0 1 (FEXCESS r) f u) by (intros f u H; apply (rep_frep1 r); [destruct H as [[_ [_ [H _]]] _]; lia|exact H]).
  apply (aff_redc r Hf HMX Hfp Hp (e_not_mont r Hw) P X Y Z x y).
  - unfold prep. cbn [fst snd]. auto.
  - rewrite Z.mod_0_l in NZ by lia. exact NZ.
  - exact I1.
  - exact Hx.
  - exact Hy.
  - exact E1.
  - exact E2.
  - destruct HW as [HW|HW]; [left|right; exact HW]. intros Z1. apply HW. unfold fp_rep, den in *. destruct CZ as [L CZ]. split; [exact L|]. rewrite CZ. rewrite <- Z.mul_mod_idemp_l, Z1 by lia. reflexivity.
Qed.
Theorem C22_edwards_tobytes : forall r P x y b, edw r -> prime (pmod r) -> is_square (pmod r) (cA r) -> e_point r P (x, y) -> (x, y) <> e_zero -> writable r P x y ->
  ((2 * mbytes r + 1 <= length b)%nat -> ecp_tobytes r P b false = Some (enc_xy r x y ++ skipn (2 * mbytes r + 1) b)) /\
  ((mbytes r + 1 <= length b)%nat -> ecp_tobytes r P b true = Some (enc_x r x y ++ skipn (mbytes r + 1) b)).
Proof.
  intros r P x y b Hw Hp Hsq HP Nz HW. pose proof Hw as [[Hf _] _]. destruct (e_redc r P x y Hw Hp Hsq HP Nz HW) as [W [xr [yr [E1 [E2 [E3 [W1 [W2 [V1 V2]]]]]]]]]. unfold bval in *.
  split; intros Hl.
  - rewrite (encode_xy r Hf (e_not_mont r (proj1 Hw)) P W xr yr b E1 E2 E3 W1 W2 Hl). rewrite V1, V2. unfold enc_xy. cbn [app]. rewrite <- app_assoc. reflexivity.
  - rewrite (encode_x r Hf (e_not_mont r (proj1 Hw)) P W xr yr b E1 E2 E3 W1 W2 Hl). rewrite V1, V2. reflexivity.
Qed.
Print Assumptions C22_edwards_tobytes.
Theorem C22_edwards_roundtrip : forall r P x y b, edw r -> codec r -> is_square (pmod r) (cA r) -> e_point r P (x, y) -> (x, y) <> e_zero -> writable r P x y -> length b = (2 * mbytes r + 1)%nat ->
  exists b' Q, ecp_tobytes r P b false = Some b' /\ ecp_frombytes r b' = Some Q /\ e_point r Q (x, y).
Proof.
  intros r P x y b Hw Hc Hsq HP Nz HW Hl. destruct (C22_edwards_tobytes r P x y b Hw (proj1 Hc) Hsq HP Nz HW) as [T _]. specialize (T ltac:(lia)). rewrite skipn_all2, app_nil_r in T by lia.
  destruct (C22_edwards_decode_uncompressed r x y Hw Hc (proj1 HP)) as [Q [Q1 [Q2 _]]]. exists (enc_xy r x y), Q. auto.
Qed.
Print Assumptions C22_edwards_roundtrip.
Theorem C22_edwards_compressed_roundtrip : forall r P x y b, edw r -> codec r -> is_square (pmod r) (cA r) -> special r = false \/ r_MOD8 r = 5 -> e_point r P (x, y) -> (x, y) <> e_zero -> writable r P x y -> y <> 0 ->
  length b = (mbytes r + 1)%nat -> exists b' Q, ecp_tobytes r P b true = Some b' /\ ecp_frombytes r b' = Some Q /\ e_point_raw r 2 Q (x, y).
Proof.
  intros r P x y b Hw Hc Hsq SC HP Nz HW Ny Hl. destruct (C22_edwards_tobytes r P x y b Hw (proj1 Hc) Hsq HP Nz HW) as [_ T]. specialize (T ltac:(lia)). rewrite skipn_all2, app_nil_r in T by lia.
  destruct (C22_edwards_decode_compressed r x y Hw Hc SC (proj1 HP) Ny) as [Q [Q1 Q2]]. exists (enc_x r x y), Q. auto.
Qed.
Print Assumptions C22_edwards_compressed_roundtrip.

(** ** the conditions hold *)
Definition codecb (r : rom) : bool := sqrt_okb r && (pmod r <=? 256 ^ Z.of_nat (mbytes r)).
Lemma codecb_ok r : fp_ok r -> prime (pmod r) -> codecb r = true -> codec r.
Proof. intros Hf Hp H. apply andb_true_iff in H. destruct H as [H1 H2]. apply Z.leb_le in H2. split; [exact Hp|]. split; [apply sqrt_okb_ok; assumption|exact H2]. Qed.
Definition onb (p a b x y : Z) : bool := (0 <=? x) && (x <? p) && (0 <=? y) && (y <? p) && ((y * y) mod p =? (x * x * x + a * x + b) mod p).
Lemma onb_ok p a b x y : onb p a b x y = true -> on_w p a b (Aff x y).
Proof. unfold onb. rewrite !andb_true_iff, !Z.leb_le, !Z.ltb_lt, Z.eqb_eq. intros [[[[A B] C] D] E]. split; [split; assumption|]. split; [split; assumption|exact E]. Qed.
Definition oneb (p a d x y : Z) : bool := (0 <=? x) && (x <? p) && (0 <=? y) && (y <? p) && ((a * x * x + y * y) mod p =? (1 + d * x * x * y * y) mod p).
Lemma oneb_ok p a d x y : oneb p a d x y = true -> on_e p a d (x, y).
Proof. unfold oneb. rewrite !andb_true_iff, !Z.leb_le, !Z.ltb_lt, Z.eqb_eq. intros [[[[A B] C] D] E]. split; [split; assumption|]. split; [split; assumption|exact E]. Qed.
Definition gx (r : rom) : Z := bval (r_cfg r) (r_GX r).
Definition gy (r : rom) : Z := bval (r_cfg r) (r_GY r).
Lemma w_example r : w_okb r = true -> prime (pmod r) -> codecb r = true -> onb (pmod r) (cA r) (cB r) (gx r) (gy r) = true ->
  w_ok r /\ codec r /\ exists P, ecp_frombytes r (enc_xy r (gx r) (gy r)) = Some P /\ w_point r P (Aff (gx r) (gy r)).
Proof.
  intros H1 Hp H2 H3. apply w_okb_ok in H1. pose proof (codecb_ok r (proj1 H1) Hp H2) as Hc. apply onb_ok in H3. split; [exact H1|]. split; [exact Hc|].
  destruct (C22_decode_uncompressed r _ _ H1 Hc H3) as [P [P1 [P2 _]]]. exists P. auto.
Qed.
(** the theorems apply to secp256k1 with its generator *)
Example C22_secp256k1_64 : w_ok rom_secp256k1_64 /\ codec rom_secp256k1_64 /\ exists P, ecp_frombytes rom_secp256k1_64 (enc_xy rom_secp256k1_64 (gx rom_secp256k1_64) (gy rom_secp256k1_64)) = Some P /\ w_point rom_secp256k1_64 P (Aff (gx rom_secp256k1_64) (gy rom_secp256k1_64)).
Proof. apply w_example; [vm_compute; reflexivity|rewrite p_secp256k1_64; exact prime_secp256k1_p|vm_compute; reflexivity|vm_compute; reflexivity]. Qed.
Lemma e_example r : e_okb r = true -> prime (pmod r) -> ~ is_square (pmod r) (cB r) -> codecb r = true -> oneb (pmod r) (cA r) (cB r) (gx r) (gy r) = true ->
  edw r /\ codec r /\ exists P, ecp_frombytes r (enc_xy r (gx r) (gy r)) = Some P /\ e_point r P (gx r, gy r).
Proof.
  intros H1 Hp Hn H2 H3. apply e_okb_ok in H1. pose proof (codecb_ok r (proj1 H1) Hp H2) as Hc. apply oneb_ok in H3. assert (Hw : edw r) by (split; assumption). split; [exact Hw|]. split; [exact Hc|].
  destruct (C22_edwards_decode_uncompressed r _ _ Hw Hc H3) as [P [P1 [P2 _]]]. exists P. auto.
Qed.
Lemma cB_ed25519_64 : cB rom_ed25519_64 = ed25519_d. Proof. vm_compute. reflexivity. Qed.
Lemma cB_ed25519_32 : cB rom_ed25519_32 = ed25519_d. Proof. vm_compute. reflexivity. Qed.
Example C22_ed25519_64 : edw rom_ed25519_64 /\ codec rom_ed25519_64 /\ exists P, ecp_frombytes rom_ed25519_64 (enc_xy rom_ed25519_64 (gx rom_ed25519_64) (gy rom_ed25519_64)) = Some P /\ e_point rom_ed25519_64 P (gx rom_ed25519_64, gy rom_ed25519_64).
Proof. apply e_example; [vm_compute; reflexivity|rewrite p_ed25519_64; exact prime_ed25519_p|rewrite p_ed25519_64, cB_ed25519_64; exact ns_ed25519|vm_compute; reflexivity|vm_compute; reflexivity]. Qed.

(** ** where the round trip fails *)
Definition buf (r : rom) : list Z := repeat 0 (2 * mbytes r + 1).
Definition trip (r : rom) (P : ecp) (compress : bool) : option ecp := b <- ecp_tobytes r P (buf r) compress ;; ecp_frombytes r b.
(** On curves over special moduli -(-G) equals G, but its encoding (z = 1, coordinate stored as p + v) decodes to the point at infinity *)
Theorem C22_roundtrip_refuted : Forall (fun r =>
  (G <- ecp_generator r ;; N <- ecp_neg r G ;; P <- ecp_neg r N ;; Q <- trip r P false ;;
   same <- ecp_equals r P G ;; back <- ecp_equals r Q P ;; inf <- ecp_is_infinity r Q ;; Some (same, back, inf)) = Some (true, false, true))
  [rom_ed25519_64; rom_nums256w_64].
Proof. repeat (apply Forall_cons; [vm_compute; reflexivity|]). apply Forall_nil. Qed.
Print Assumptions C22_roundtrip_refuted.
(** nums256w: the compressed encoding of the curve point (x, 4) decodes to its negative *)
Theorem C22_compressed_roundtrip_refuted : Forall (fun r =>
  (P <- ecp_frombytes r (enc_xy r 14083434607570858927219708800507616451497627848257315469466551342619080369269 4) ;; inf <- ecp_is_infinity r P ;; Q <- trip r P true ;; N <- ecp_neg r P ;;
   back <- ecp_equals r Q P ;; neg <- ecp_equals r Q N ;; Some (inf, back, neg)) = Some (false, false, true)) [rom_nums256w_64].
Proof. repeat (apply Forall_cons; [vm_compute; reflexivity|]). apply Forall_nil. Qed.
Print Assumptions C22_compressed_roundtrip_refuted.
(** short inputs panic instead of being rejected *)
Theorem C22_short_input_refuted : forall r b, (length b <= mbytes r)%nat -> (0 < mbytes r)%nat -> ecp_frombytes r b = None.
Proof.
  intros r b H H0. unfold ecp_frombytes. cbv zeta. fold (mbytes r). assert (G : forall n i, (length b < i + n)%nat -> (0 < n)%nat -> get_range b i n = None).
  { induction n as [|n IH]; intros i L P; [lia|]. cbn [get_range]. destruct (nth_error b i) eqn:E; [|reflexivity]. cbn [bind]. assert (i < length b)%nat by (apply nth_error_Some; congruence). rewrite IH by lia. reflexivity. }
  rewrite G by lia. reflexivity.
Qed.
Print Assumptions C22_short_input_refuted.
