(** Decoding and encoding Weierstrass points: the conditions and the lemmas used by several property files. *)
From Verif Require Import Base.Word Base.Arr Model.Big Model.Roms Model.Fp Model.Ecp Spec.BigSpec Spec.RomSpec Spec.FpSpec Spec.CurveSpec Spec.EcpSpec Spec.Bytes
  Proof.BigVal Proof.NumTheory Proof.RomCheck Proof.FpBase Proof.FpOps Proof.FpExp Proof.FpSqrt Proof.FpCheck Proof.FpIv Proof.FieldP Proof.Weier Proof.Edw Proof.EcpOps Proof.EcpW Proof.EcpE Proof.EcpBridge Proof.EcpMul
  Proof.EcpInst Proof.EcpCheck Proof.EcpCodec Proof.EcpCodec2.
From Coq Require Import Znumtheory.

Definition weierstrass (r : rom) : Prop := w_ok r /\ prime (pmod r) /\ no_order2 (pmod r) (cA r) (cB r).
Definition edwards (r : rom) : Prop := e_ok r /\ prime (pmod r) /\ is_square (pmod r) (cA r) /\ ~ is_square (pmod r) (cB r).
(** scalars up to 2^(NLEN*BASEBITS-4)-3 (every value below the field prime and the group order is far below that) *)
Definition scalar_ok (r : rom) (v : Z) : Prop := v + 2 < 2 ^ (Z.of_nat (NLEN (r_cfg r)) * BASEBITS (r_cfg r) - 4).
(** the conditions: a consistent ROM, a prime field, coordinates fitting in MODBYTES bytes *)
Definition codec (r : rom) : Prop := prime (pmod r) /\ sqrt_ok5 r /\ pmod r <= 256 ^ Z.of_nat (mbytes r).

Lemma at2_raw r P x y : fp_ok r -> at2 r P x y -> fp_rep r 1 (ex P) x /\ fp_rep r 2 (ey P) y /\ fp_rep r 1 (ez P) 1.
Proof. intros Hf [A [B D]]. split; [|split]; [apply (frep_rep r Hf 0 1 (FEXCESS r)); [lia|lia|exact A]|apply (frep_rep r Hf 1 1 (FEXCESS r)); [lia|lia|exact B]|apply (frep_rep r Hf 0 1 (FEXCESS r)); [lia|lia|exact D]]. Qed.
Lemma rep_mod r g f u : fp_ok r -> fp_rep r g f u -> fp_rep r g f (u mod pmod r).
Proof. intros Hf. pose proof (p_pos r Hf). unfold fp_rep, den. intros [A D]. split; [exact A|]. rewrite Z.mul_mod_idemp_l by lia. exact D. Qed.
Lemma not1 p : 3 < p -> ~ cong p 1 0.
Proof. unfold cong. intros H. rewrite Z.mod_1_l, Z.mod_0_l by lia. lia. Qed.
Lemma w_nm r : w_ok r -> is_mont r = false.
Proof. intros [_ [_ [_ [E _]]]]. unfold is_mont. rewrite E. reflexivity. Qed.
Lemma cut1 {A} (h : A) s t n m : length s = n -> length t = m -> firstn n (skipn 1 (h :: s ++ t)) = s /\ firstn m (skipn (n + 1) (h :: s ++ t)) = t.
Proof.
  intros <- <-. split; [cbn [skipn]; rewrite firstn_app, firstn_all, Nat.sub_diag; cbn [firstn]; apply app_nil_r|].
  replace (length s + 1)%nat with (S (length s)) by lia. cbn [skipn]. rewrite skipn_app, skipn_all, Nat.sub_diag. cbn [skipn app]. apply firstn_all.
Qed.
Lemma bytes_cons h l : is_byte h -> bytes l -> bytes (h :: l).
Proof. intros A B. constructor; assumption. Qed.

Theorem w_decode : forall r x y, w_ok r -> codec r -> on_w (pmod r) (cA r) (cB r) (Aff x y) ->
  exists P, ecp_frombytes r (enc_xy r x y) = Some P /\ w_point r P (Aff x y) /\ (special r = true -> limbs_reduced r P) /\ coords r P x y 1.
Proof.
  intros r x y Hw [Hp [Hs Hm]] O. pose proof O as [Hx [Hy Hc]]. pose proof Hw as [Hf [HMX [Hfp [Hct _]]]]. pose proof (p_gt3 r Hf) as H3. unfold residue in *.
  destruct (cut1 4 (i2osp x (mbytes r)) (i2osp y (mbytes r)) (mbytes r) (mbytes r) (i2osp_length _ _) (i2osp_length _ _)) as [C1 C2]. fold (enc_xy r x y) in C1, C2.
  assert (EX : xpart r (enc_xy r x y) = x) by (unfold xpart; change (Z.to_nat (MODBYTES (r_cfg r))) with (mbytes r); rewrite C1, os2ip_i2osp; apply Z.mod_small; lia).
  assert (EY : ypart r (enc_xy r x y) = y) by (unfold ypart; change (Z.to_nat (MODBYTES (r_cfg r))) with (mbytes r); rewrite C2, os2ip_i2osp; apply Z.mod_small; lia).
  destruct (decode_xy r Hf HMX (w_rhs r) (rhs_w r Hw) (w_nm r Hw) (enc_xy r x y)) as [P [E [D S]]].
  - apply bytes_cons; [unfold is_byte; lia|]. apply Forall_app. split; apply i2osp_bytes.
  - unfold enc_xy. cbn [length]. rewrite app_length, !i2osp_length. unfold mbytes. lia.
  - reflexivity.
  - rewrite EX. lia.
  - rewrite EY. lia.
  - rewrite EX, EY. exact Hc.
  - rewrite EX, EY in *. exists P. split; [exact E|]. destruct D as [D1 [D2 D3]]. cbn [fst snd] in *.
    assert (CO : coords r P x y 1) by (split; [|split]; (apply (frep_rep r Hf 0 1 (FEXCESS r)); [lia|lia|assumption])).
    split; [|split; [intros Es; exact (S Es)|exact CO]]. split; [exact O|]. exists x, y, 1. split; [exact CO|]. rewrite !Z.mul_1_r. split; [apply not1; exact H3|]. split; reflexivity.
Qed.
Lemma w_redc r P x y : w_ok r -> prime (pmod r) -> w_point r P (Aff x y) -> writable r P x y ->
  exists W xr yr, ecp_affine r P = Some W /\ fp_redc r (ex W) = Some xr /\ fp_redc r (ey W) = Some yr /\ big_wf (r_cfg r) xr /\ big_wf (r_cfg r) yr /\ bval (r_cfg r) xr = x /\ bval (r_cfg r) yr = y.
Proof.
  intros Hw Hp HP HW. pose proof HP as [[Hx [Hy Hc]] [X [Y [Z [[CX [CY CZ]] [NZ [E1 E2]]]]]]]. pose proof Hw as [Hf [HMX [Hfp [Hct _]]]]. unfold residue, cong in *. pose proof (p_gt3 r Hf) as H3.
  pose proof (proj1 (w_point_den r Hw Hp P _) HP) as [_ HD]. destruct (w_is_inf r Hw Hp P _ HD) as [i [I1 I2]].
  assert (i = false). { destruct i; [|reflexivity]. pose proof (proj1 I2 eq_refl) as I3. cbn [ak] in I3. discriminate I3. } subst i.
  assert (UP : forall f u, fp_rep r 1 f u -> frep r 0 1 (FEXCESS r) f u) by (intros f u H; apply (rep_frep1 r); [destruct H as [[_ [_ [H _]]] _]; lia|exact H]).
  apply (aff_redc r Hf HMX Hfp Hp (w_nm r Hw) P X Y Z x y).
  - unfold prep. cbn [fst snd]. auto.
  - rewrite Z.mod_0_l in NZ by lia. exact NZ.
  - exact I1.
  - exact Hx.
  - exact Hy.
  - exact E1.
  - exact E2.
  - destruct HW as [HW|HW]; [left|right; exact HW]. intros Z1. apply HW. unfold fp_rep, den in *. destruct CZ as [L CZ]. split; [exact L|]. rewrite CZ. rewrite <- Z.mul_mod_idemp_l, Z1 by lia. reflexivity.
Qed.
Theorem w_tobytes : forall r P x y b, w_ok r -> prime (pmod r) -> w_point r P (Aff x y) -> writable r P x y ->
  ((2 * mbytes r + 1 <= length b)%nat -> ecp_tobytes r P b false = Some (enc_xy r x y ++ skipn (2 * mbytes r + 1) b)) /\
  ((mbytes r + 1 <= length b)%nat -> ecp_tobytes r P b true = Some (enc_x r x y ++ skipn (mbytes r + 1) b)).
Proof.
  intros r P x y b Hw Hp HP HW. pose proof Hw as [Hf _]. destruct (w_redc r P x y Hw Hp HP HW) as [W [xr [yr [E1 [E2 [E3 [W1 [W2 [V1 V2]]]]]]]]]. unfold bval in *.
  split; intros Hl.
  - rewrite (encode_xy r Hf (w_nm r Hw) P W xr yr b E1 E2 E3 W1 W2 Hl). rewrite V1, V2. unfold enc_xy. cbn [app]. rewrite <- app_assoc. reflexivity.
  - rewrite (encode_x r Hf (w_nm r Hw) P W xr yr b E1 E2 E3 W1 W2 Hl). rewrite V1, V2. reflexivity.
Qed.
