(** The right-hand sides of the curve equations as computed by ecp.rs, and what tobytes writes for a point. *)
From Verif Require Import Base.Word Base.Arr Model.Big Model.Roms Model.Fp Model.Fp2 Model.Ecp Spec.BigSpec Spec.RomSpec Spec.FpSpec Spec.CurveSpec Spec.EcpSpec Spec.JacobiSpec Spec.Bytes
  Proof.BigVal Proof.BigInv Proof.BigMod Proof.BigShift Proof.BigMonty Proof.BigMul Proof.BigMisc Proof.BigBytes Proof.NumTheory Proof.FpBase Proof.FpRed Proof.FpOps Proof.FpPow Proof.FpExp Proof.FpSqrt Proof.FpIv
  Proof.FieldP Proof.EcpOps Proof.EcpW Proof.EcpE Proof.EcpCodec.
From Coq Require Import Znumtheory.

Section WRhs.
Variable r : rom.
Hypothesis Hw : w_ok r.
Notation p := (pmod r).
Let Hf : fp_ok r := proj1 Hw.
Let Hmg : 4 <= maxg r := maxg_ge r Hf.
Definition w_rhs (x : Z) : Z := x * x * x + cA r * x + cB r.
Lemma rhs_w : forall e x u, e <= 2 -> frep r 0 1 e x u -> exists f, ecp_rhs r x = Some f /\ frep r 0 1 1 f (w_rhs u).
Proof.
  intros e x u He H. pose proof Hw as [Hf' [HMX [Hfp [Hct [Wb [Lb HA]]]]]]. unfold ecp_rhs. rewrite Hct.
  pose proof (frep_e _ _ _ _ _ _ H) as [He1 _]. pose proof (p_pos r Hf').
  assert (MK : mult_ok r e 3).
  { pose proof (cf_B _ (cfg_ok_facts _ (ff_ok r (fp_ok_facts r Hf')))). assert (2 ^ 16 <= 2 ^ BASEBITS (r_cfg r)) by (apply pow2_le; lia). change (2 ^ 16) with 65536 in *.
    split; [lia|]. right. split; [lia|]. change (2 ^ 31) with 2147483648. change (Z.abs 3) with 3. lia. }
  destruct (nres_rep r Hf' (r_CURVE_B r) Wb (fun _ => Lb)) as [b0 [E1 [E2 E3]]]. unfold fp_new_big. rewrite E1. cbn [bind]. apply (rep_frep1 r 2 b0 _ E2) in E3. fold (cB r) in E3.
  destruct (imulf r Hf' _ _ _ _ _ _ HMX H H) as [s [S1 S2]]. unfold fp_sqr.
  destruct (isqrf r Hf' _ _ _ HMX H) as [s' [S1' S2']]. unfold fp_sqr in S1'. rewrite S1'. cbn [bind].
  destruct (imulf r Hf' _ _ _ _ _ _ HMX S2' H) as [t [T1 T2]]. rewrite T1. cbn [bind].
  destruct HA as [[EA _]|[EA _]]; unfold w_rhs, cA; rewrite EA.
  - change (0 =? -3) with false. cbv iota. cbn [bind]. destruct (iadd r Hf' 0 1 2 0 1 2 t b0 _ _ ltac:(lia) ltac:(lia) ltac:(lia) ltac:(lia) ltac:(lia) ltac:(lia) ltac:(right; lia) T2 E3) as [g [G1 G2]]. rewrite G1. cbn [bind].
    destruct (ireduce r Hf' (0+0) (1+1) (2+2) _ _ ltac:(lia) ltac:(lia) ltac:(lia) ltac:(lia) G2) as [f [F1 [F2 _]]]. exists f. split; [exact F1|]. eapply frep_cong; [|exact F2]. f_equal. ring.
  - change (-3 =? -3) with true. cbv iota. destruct (iimul r Hf' e x u 3 MK H) as [c1 [C1 C2]]. rewrite C1. cbn [bind].
    destruct (ineg r Hf' 0 1 _ c1 _ ltac:(lia) ltac:(lia) ltac:(lia) ltac:(lia) ltac:(right; lia) C2) as [c2 [C3 C4]]. rewrite C3. cbn [bind].
    destruct (inorm r Hf' 1 (0+1) _ c2 _ ltac:(lia) ltac:(lia) ltac:(lia) ltac:(lia) C4) as [c3 [C5 C6]]. rewrite C5. cbn [bind].
    destruct (iadd r Hf' 0 1 2 0 1 _ t c3 _ _ ltac:(lia) ltac:(lia) ltac:(lia) ltac:(lia) ltac:(lia) ltac:(lia) ltac:(right; lia) T2 C6) as [g [G1 G2]]. rewrite G1. cbn [bind].
    destruct (iadd r Hf' (0+0) (1+1) _ 0 1 2 g b0 _ _ ltac:(lia) ltac:(lia) ltac:(lia) ltac:(lia) ltac:(lia) ltac:(lia) ltac:(right; lia) G2 E3) as [h [H1 H2]]. rewrite H1. cbn [bind].
    destruct (ireduce r Hf' (0+0+0) (1+1+1) _ _ _ ltac:(lia) ltac:(lia) ltac:(lia) ltac:(lia) H2) as [f [F1 [F2 _]]]. exists f. split; [exact F1|]. eapply frep_cong; [|exact F2]. f_equal. ring.
Qed.
End WRhs.

Section ERhs.
Variable r : rom.
Hypothesis Hw : e_ok r.
Notation p := (pmod r).
Let Hf : fp_ok r := proj1 Hw.
Let Hmg : 4 <= maxg r := maxg_ge r Hf.
Definition e_rhs (x : Z) : Z := (cA r * x * x - 1) * (cB r * x * x - 1) ^ (p - 2).
Lemma rhs_e : forall e x u, e <= 2 -> frep r 0 1 e x u -> exists f, ecp_rhs r x = Some f /\ frep r 0 1 1 f (e_rhs u).
Proof.
  intros e x u He H. pose proof Hw as [Hf' [HMX [Hfp [Hct [Wb [Lb HA]]]]]]. unfold ecp_rhs. rewrite Hct.
  pose proof (frep_e _ _ _ _ _ _ H) as [He1 _]. pose proof (p_pos r Hf').
  destruct (nres_rep r Hf' (r_CURVE_B r) Wb (fun _ => Lb)) as [b0 [E1 [E2 E3]]]. unfold fp_new_big. rewrite E1. cbn [bind]. apply (rep_frep1 r 2 b0 _ E2) in E3. fold (cB r) in E3.
  destruct (isqrf r Hf' _ _ _ HMX H) as [s' [S1' S2']]. rewrite S1'. cbn [bind]. assert (K1 : 0 <= 1 < 2 ^ BASEBITS (r_cfg r)).
  { split; [lia|]. pose proof (cf_B _ (cfg_ok_facts _ (ff_ok r (fp_ok_facts r Hf')))). assert (2 ^ 16 <= 2 ^ BASEBITS (r_cfg r)) by (apply pow2_le; lia). change (2 ^ 16) with 65536 in *. lia. }
  destruct (inewint r Hf' 1 K1) as [one [O1 O2]]. rewrite O1. cbn [bind].
  destruct (imulf r Hf' _ _ _ _ _ _ HMX E3 S2') as [b1 [B1 B2]]. rewrite B1. cbn [bind].
  destruct (isub r Hf' 0 1 2 0 1 2 b1 one _ _ ltac:(lia) ltac:(lia) ltac:(lia) ltac:(lia) ltac:(lia) ltac:(lia) B2 O2) as [b2 [B3 B4]]. rewrite B3. cbn [bind].
  destruct (inorm r Hf' (0+1) (1+0+1) _ b2 _ ltac:(lia) ltac:(lia) ltac:(lia) ltac:(lia) B4) as [b3 [B5 B6]]. rewrite B5. cbn [bind].
  assert (G : exists s, bind (if r_CURVE_A r =? -1 then fp_neg r s' else Some s') (fun s => bind (fp_sub r s one) (fun s => fp_norm r s)) = Some s /\ exists e', frep r 0 1 e' s (cA r * u * u - 1)).
  { unfold cA. destruct HA as [EA|EA]; rewrite EA.
    - change (1 =? -1) with false. cbv iota. cbn [bind]. destruct (isub r Hf' 0 1 2 0 1 2 s' one _ _ ltac:(lia) ltac:(lia) ltac:(lia) ltac:(lia) ltac:(lia) ltac:(lia) S2' O2) as [s2 [Q1 Q2]]. rewrite Q1. cbn [bind].
      destruct (inorm r Hf' (0+1) (1+0+1) _ s2 _ ltac:(lia) ltac:(lia) ltac:(lia) ltac:(lia) Q2) as [s3 [Q3 Q4]]. exists s3. split; [exact Q3|]. eexists. eapply frep_cong; [|exact Q4]. f_equal. ring.
    - change (-1 =? -1) with true. cbv iota. destruct (ineg r Hf' 0 1 _ s' _ ltac:(lia) ltac:(lia) ltac:(lia) ltac:(lia) ltac:(right; lia) S2') as [c2 [C3 C4]]. rewrite C3. cbn [bind].
      destruct (isub r Hf' 1 (0+1) _ 0 1 2 c2 one _ _ ltac:(lia) ltac:(lia) ltac:(lia) ltac:(lia) ltac:(lia) ltac:(lia) C4 O2) as [s2 [Q1 Q2]]. rewrite Q1. cbn [bind].
      destruct (inorm r Hf' (1+1) (0+1+0+1) _ s2 _ ltac:(lia) ltac:(lia) ltac:(lia) ltac:(lia) Q2) as [s3 [Q3 Q4]]. exists s3. split; [exact Q3|]. eexists. eapply frep_cong; [|exact Q4]. f_equal. ring. }
  destruct G as [s [G1 [e' G2]]].
  match type of G1 with bind ?X _ = _ => destruct X as [s1|]; [|discriminate G1] end. cbn [bind] in G1 |- *. destruct (fp_sub r s1 one) as [s2|]; [|discriminate G1]. cbn [bind] in G1 |- *. rewrite G1. cbn [bind].
  destruct (inverse_rep r Hf' 1 b3 _ ltac:(lia) ltac:(reflexivity) Hfp (or_introl HMX) (frep_rep r Hf' 0 1 _ _ _ 1 ltac:(lia) ltac:(lia) B6)) as [f' [I1 I2]]. rewrite I1. cbn [bind].
  assert (I3 : frep r 0 1 (FEXCESS r) f' ((cB r * (u * u) - 1) ^ (p - 2))) by (apply (rep_frep1 r); [destruct I2 as [[_ [_ [I2 _]]] _]; lia|exact I2]).
  destruct (imulf r Hf' _ _ _ _ _ _ HMX G2 I3) as [g [M1 M2]]. rewrite M1. cbn [bind].
  destruct (ireduce r Hf' 0 1 2 _ _ ltac:(lia) ltac:(lia) ltac:(lia) ltac:(lia) M2) as [f [F1 [F2 _]]]. exists f. split; [exact F1|]. eapply frep_cong; [|exact F2]. unfold e_rhs. rewrite Z.mul_assoc. reflexivity.
Qed.
End ERhs.

Section Enc.
Variable r : rom.
Notation p := (pmod r).
Notation c := (r_cfg r).
Notation FX := (FEXCESS r).
Hypothesis Hf : fp_ok r.
Hypothesis HMX : MX r = FX.
Hypothesis Hfp : fpow_ok r.
Hypothesis Hp : prime p.
Notation V := (val (BASEBITS c)).
Let Hmg : 4 <= maxg r := maxg_ge r Hf.
Hypothesis Hnm : is_mont r = false.
Lemma aff_store P X Y Z : prep r P (X, Y, Z) -> Z mod p <> 0 -> ecp_is_infinity r P = Some false ->
  exists W, ecp_affine r P = Some W /\ (Z mod p = 1 /\ W = P \/ Z mod p <> 1 /\ frep r 0 1 1 (ex W) (X * Z ^ (p - 2)) /\ frep r 0 1 1 (ey W) (Y * Z ^ (p - 2))).
Proof.
  intros [PX [PY PZ]] HZ Hi. cbn [fst snd] in *. unfold ecp_affine. rewrite Hi. cbn [bind]. pose proof (p_pos r Hf). pose proof (p_big r Hf) as P2. assert (2 ^ 1 <= 2 ^ 199) by (apply pow2_le; lia).
  assert (K1 : 0 <= 1 < 2 ^ BASEBITS (r_cfg r)).
  { split; [lia|]. pose proof (cf_B _ (cfg_ok_facts _ (ff_ok r (fp_ok_facts r Hf)))). assert (2 ^ 16 <= 2 ^ BASEBITS (r_cfg r)) by (apply pow2_le; lia). change (2 ^ 16) with 65536 in *. lia. }
  destruct (inewint r Hf 1 K1) as [one [O1 O2]]. rewrite O1. cbn [bind]. rewrite (iequals r Hf 0 1 FX 0 1 2 (ez P) one Z 1) by (try lia; assumption). cbn [bind]. rewrite (Z.mod_1_l p) by (change (2 ^ 1) with 2 in *; lia).
  destruct (Z.eqb_spec (Z mod p) 1) as [Q|Q].
  - exists P. split; [reflexivity|]. left. auto.
  - destruct (inverse_rep r Hf 1 (ez P) Z ltac:(lia) ltac:(reflexivity) Hfp (or_introl HMX) (frep_rep r Hf 0 1 _ _ _ 1 ltac:(lia) ltac:(lia) PZ)) as [z [Z2 Z3]]. rewrite Z2. cbn [bind]. rewrite Hnm.
    assert (Z4 : frep r 0 1 FX z (Z ^ (p - 2))) by (apply (rep_frep1 r); [destruct Z3 as [[_ [_ [Z3 _]]] _]; lia|exact Z3]).
    destruct (imulf r Hf FX FX (ex P) z X (Z ^ (p - 2)) HMX PX Z4) as [x' [X2 X3]]. rewrite X2. cbn [bind].
    destruct (ireduce r Hf 0 1 2 x' _ ltac:(lia) ltac:(lia) ltac:(lia) ltac:(lia) X3) as [x2 [X4 [X5 _]]]. rewrite X4. cbn [bind].
    destruct (imulf r Hf FX FX (ey P) z Y (Z ^ (p - 2)) HMX PY Z4) as [y' [Y2 Y3]]. rewrite Y2. cbn [bind].
    destruct (ireduce r Hf 0 1 2 y' _ ltac:(lia) ltac:(lia) ltac:(lia) ltac:(lia) Y3) as [y2 [Y4 [Y5 _]]]. rewrite Y4. cbn [bind].
    eexists. split; [reflexivity|]. right. cbn [ex ey]. auto.
Qed.
(** the stored coordinates read back as x and y *)
Definition plain (P : ecp) (x y : Z) : Prop :=
  V (fx (ex P)) < p /\ V (fx (ey P)) < p \/ special r = false /\ x <> 0 /\ y <> 0.
Lemma aff_redc P X Y Z x y : prep r P (X, Y, Z) -> Z mod p <> 0 -> ecp_is_infinity r P = Some false -> 0 <= x < p -> 0 <= y < p ->
  (x * Z) mod p = X mod p -> (y * Z) mod p = Y mod p -> Z mod p <> 1 \/ plain P x y ->
  exists W xr yr, ecp_affine r P = Some W /\ fp_redc r (ex W) = Some xr /\ fp_redc r (ey W) = Some yr /\ big_wf c xr /\ big_wf c yr /\ V xr = x /\ V yr = y.
Proof.
  intros HP HZ Hi Hx Hy Ex Ey HC. pose proof (p_pos r Hf). destruct (aff_store P X Y Z HP HZ Hi) as [W [EA D]]. exists W.
  destruct HP as [PX [PY PZ]]. cbn [fst snd] in *.
  assert (Inv : forall t T, (t * Z) mod p = T mod p -> (T * Z ^ (p - 2)) mod p = t mod p).
  { intros t T E. rewrite Z.mul_mod by lia. rewrite <- E. rewrite <- Z.mul_mod by lia. rewrite <- Z.mul_assoc. rewrite Z.mul_mod by lia. rewrite fermat_inv by assumption. rewrite Z.mul_1_r. apply Z.mod_mod. lia. }
  destruct D as [[E1 E2]|[N1 [F1 F2]]].
  - destruct HC as [HC|HC]; [contradiction|]. subst W.
    assert (One : forall t T, (t * Z) mod p = T mod p -> T mod p = t mod p) by (intros t T E; rewrite <- E; rewrite Z.mul_mod, E1, Z.mul_1_r, Z.mod_mod by lia; reflexivity).
    destruct (redc_any r Hf _ _ _ PX) as [xr [A1 [A2 [_ [A3 A4]]]]]. destruct (redc_any r Hf _ _ _ PY) as [yr [B1 [B2 [_ [B3 B4]]]]].
    rewrite (One _ _ Ex), (Z.mod_small x) in * by lia. rewrite (One _ _ Ey), (Z.mod_small y) in * by lia.
    exists xr, yr. do 5 (split; [assumption|]). destruct HC as [[C1 C2]|[C1 [C2 C3]]]; auto.
  - destruct (redc_any r Hf _ _ _ F1) as [xr [A1 [A2 [_ [A3 _]]]]]. destruct (redc_any r Hf _ _ _ F2) as [yr [B1 [B2 [_ [B3 _]]]]].
    specialize (A3 (V_of1 r _ _ F1)). specialize (B3 (V_of1 r _ _ F2)).
    rewrite (Inv _ _ Ex), Z.mod_small in A3 by lia. rewrite (Inv _ _ Ey), Z.mod_small in B3 by lia. exists xr, yr. auto 10.
Qed.
End Enc.
