(** simplified_swu_fp computes the map of RFC 9380 section 6.6.2. *)
From Verif Require Import Base.Word Model.Big Model.Roms Model.Fp Model.Fp2 Model.Ecp Model.Sswu Spec.Bytes Spec.BigSpec Spec.RomSpec Spec.FpSpec Spec.CurveSpec Spec.SswuSpec
  Proof.NumTheory Proof.BigVal Proof.BigShift Proof.BigMod Proof.BigMul Proof.BigMonty Proof.FpBase Proof.FpRed Proof.FpOps Proof.FpPow Proof.FpExp Proof.FpSqrt Proof.FpIv Proof.FpWide Proof.EcpCodec Proof.SswuMath.
From Coq Require Import Lia Znumtheory.

Section W.
Variable r : rom.
Hypothesis Hf : fp_ok r.
Hypothesis Hs : special r = false.
Notation c := (r_cfg r).
Notation X := (2 ^ BASEBITS (r_cfg r)).
Notation V := (val (BASEBITS (r_cfg r))).
Notation p := (pmod r).
Hypothesis Hp : prime p.
Hypothesis H34 : p mod 4 = 3.
Hypothesis H8 : r_MOD8 r <> 5.
Hypothesis Hw : wide_ok c 2 1.
Hypothesis HFE : 16 <= FEXCESS r.
Let HM : MX r = FEXCESS r. Proof. unfold MX. unfold special in Hs. destruct (r_MODTYPE r); try reflexivity; discriminate. Qed.
Let Hp0 : 0 < p := p_pos r Hf.
Let Hmg : 4 <= maxg r := maxg_ge r Hf.
Let Hfp : fpow_ok r. Proof. intros E. congruence. Qed.

Lemma sgn0_ok e f u : frep r 0 1 e f u -> (u mod p <> 0 \/ V (fx f) < p) -> fp_sgn0 r f = Some (sgn0 p u =? 1).
Proof.
  intros H Hc. destruct (redc_any r Hf e f u H) as [x [E1 [W [_ [E3 E4]]]]]. unfold fp_sgn0. rewrite E1. cbn [bind]. apply (f_equal Some).
  pose proof (fp_ok_facts r Hf) as FF. pose proof (cfg_ok_facts _ (ff_ok r FF)) as F. pose proof (cf_B _ F). pose proof (cf_N _ F).
  rewrite (parity_spec c); [|lia|intros E; destruct W as [W _]; rewrite E in W; cbn in W; lia|pose proof (canon_get (BASEBITS c) x 0 ltac:(lia) (proj2 W)); lia].
  assert (Q : V x = u mod p) by (destruct Hc as [Hc|Hc]; [apply E4; assumption|apply E3; exact Hc]). rewrite Q. unfold sgn0. pose proof (Z.mod_pos_bound (u mod p) 2 ltac:(lia)).
  destruct (Z.eqb_spec ((u mod p) mod 2) 0); destruct (Z.eqb_spec ((u mod p) mod 2) 1); try lia; reflexivity.
Qed.
Lemma isqrt lo hi e f u : 0 <= lo -> 1 <= hi -> hi <= maxg r -> lo + 1 <= maxg r -> frep r lo hi e f u ->
  exists f', fp_sqrt r f = Some f' /\ frep r 0 1 (FEXCESS r) f' (u ^ ((p + 1) / 4)).
Proof.
  intros H1 H2 H3 H4 HA. destruct (sqrt_rep_3 r Hf (Z.max (lo + 1) hi) f u ltac:(lia) H8 Hfp) as [f' [E1 E2]]; [apply (frep_rep r Hf lo hi e); [lia|lia|exact HA]|].
  exists f'. split; [exact E1|]. apply (rep_frep1 r); [|exact E2]. destruct E2 as [[_ [_ [Q _]]] _]. lia.
Qed.
Lemma i2osp_el v : 0 <= v < p -> v < 256 ^ 48 -> MODBYTES c = 48 -> exists b f, frombytes c (i2osp v 48) = Some b /\ fp_new_big r b = Some f /\ frep r 0 1 2 f v.
Proof.
  intros Hv Hl Hmb. destruct (frb r Hf (i2osp v 48) (i2osp_bytes _ _)) as [b [E1 [E2 E3]]].
  - rewrite i2osp_length. rewrite Hmb. reflexivity.
  - rewrite os2ip_i2osp in E3. change (256 ^ Z.of_nat 48) with (256 ^ 48) in E3. rewrite Z.mod_small in E3 by lia. destruct (nbig r Hf b E2 ltac:(lia)) as [f [F1 F2]]. exists b, f. rewrite E3 in F2. auto.
Qed.
Hypothesis Hmb : MODBYTES c = 48.
Hypothesis RA : 0 <= E11_A < p.
Hypothesis RB : 0 <= E11_B < p.
Notation A := E11_A.
Notation B := E11_B.
Lemma A1_ok : exists f, SSWU_A1 r = Some f /\ frep r 0 1 2 f A.
Proof. unfold SSWU_A1. fold E11_A. destruct (i2osp_el A RA ltac:(vm_compute; reflexivity) Hmb) as [b [f [E1 [E2 E3]]]]. rewrite E1. cbn [bind]. eauto. Qed.
Lemma B1_ok : exists f, SSWU_B1 r = Some f /\ frep r 0 1 2 f B.
Proof. unfold SSWU_B1. fold E11_B. destruct (i2osp_el B RB ltac:(vm_compute; reflexivity) Hmb) as [b [f [E1 [E2 E3]]]]. rewrite E1. cbn [bind]. eauto. Qed.
Let HX : 65536 <= X. Proof. change 65536 with (2 ^ 16). apply pow2_le. pose proof (cf_B _ (cfg_ok_facts _ (ff_ok r (fp_ok_facts r Hf)))). lia. Qed.
Lemma mulw lo hi e1 e2 a b u v : 0 <= lo <= 2 -> 1 <= hi <= 2 -> frep r lo hi e1 a u -> frep r 0 1 e2 b v -> exists f, fp_mul r a b = Some f /\ frep r 0 1 2 f (u * v).
Proof. intros. apply (imulw r Hf 2 1 lo hi e1 0 1 e2 a b u v HM Hw); try lia; assumption. Qed.
Opaque E11_A E11_B.
Lemma gx_ok fa fb x e v : frep r 0 1 2 fa A -> frep r 0 1 2 fb B -> frep r 0 1 e x v -> exists g, sswu_gx r fa fb x = Some g /\ frep r 0 2 4 g (gx p A B v).
Proof.
  intros Ha Hb Hx. unfold sswu_gx. destruct (isqrf r Hf e x v HM Hx) as [f1 [E1 Q1]]. rewrite E1. cbn [bind].
  destruct (iadd r Hf 0 1 2 0 1 2 f1 fa _ _ ltac:(lia) ltac:(lia) ltac:(lia) ltac:(lia) ltac:(lia) ltac:(lia) ltac:(lia) Q1 Ha) as [f2 [E2 Q2]]. rewrite E2. cbn [bind].
  destruct (mulw 0 2 4 e f2 x _ _ ltac:(lia) ltac:(lia) Q2 Hx) as [f3 [E3 Q3]]. rewrite E3. cbn [bind].
  destruct (iadd r Hf 0 1 2 0 1 2 f3 fb _ _ ltac:(lia) ltac:(lia) ltac:(lia) ltac:(lia) ltac:(lia) ltac:(lia) ltac:(lia) Q3 Hb) as [f4 [E4 Q4]]. exists f4. split; [exact E4|].
  apply (frep_cong r 0 2 4 f4 ((v * v + A) * v + B)); [|exact Q4]. unfold gx. rewrite Z.mod_mod by lia. f_equal. ring.
Qed.
Hypothesis HA : A mod p <> 0.
Hypothesis HZ : (E11_Z ^ ((p - 1) / 2)) mod p = (-1) mod p.
Hypothesis Hexc : is_square_b p (gx p A B ((B * inv0 p (E11_Z * A)) mod p)) = true.
Hypothesis Hno2 : no_order2 p A B.
Notation T u := (E11_Z ^ 2 * u ^ 4 + E11_Z * u ^ 2).
Theorem sswu_fp_ok e f u : frep r 0 1 e f u -> (u mod p <> 0 \/ V (fx f) < p) ->
  exists x y, simplified_swu_fp r f = Some (x, y) /\ frep r 0 1 2 x (fst (sswu p A B E11_Z u)) /\ frep r 1 1 (FEXCESS r) y (snd (sswu p A B E11_Z u)).
Proof.
  intros Hu Hc. unfold simplified_swu_fp. destruct A1_ok as [fa [Ea Ha]]. destruct B1_ok as [fb [Eb Hb]]. rewrite Ea, Eb. cbn [bind]. clear Ea Eb.
  unfold SSWU_Z1. destruct (inewint r Hf 11 ltac:(lia)) as [fz [Ez Hz]]. rewrite Ez. cbn [bind]. clear Ez.
  destruct (isqrf r Hf e f u HM Hu) as [t0 [E QT0]]. rewrite E. cbn [bind]. clear E.
  destruct (imulf r Hf 2 2 t0 fz _ _ HM QT0 Hz) as [t [E QT]]. rewrite E. cbn [bind]. clear E.
  destruct (isqrf r Hf 2 t _ HM QT) as [d0 [E QD0]]. rewrite E. cbn [bind]. clear E.
  destruct (iadd r Hf 0 1 2 0 1 2 d0 t _ _ ltac:(lia) ltac:(lia) ltac:(lia) ltac:(lia) ltac:(lia) ltac:(lia) ltac:(lia) QD0 QT) as [d [E QD]]. rewrite E. cbn [bind]. clear E.
  destruct (iinv r Hf (0 + 0) (1 + 1) (2 + 2) d _ Hs ltac:(lia) ltac:(lia) ltac:(lia) ltac:(lia) QD) as [tv [E QV]]. rewrite E. cbn [bind]. clear E.
  replace (u * u * 11 * (u * u * 11) + u * u * 11) with (T u) in QV by (unfold E11_Z; ring). clear d d0 QD QD0.
  destruct (inewint r Hf 1 ltac:(lia)) as [one [E Q1]]. rewrite E. cbn [bind]. clear E.
  destruct (iadd r Hf 0 1 1 0 1 2 tv one _ _ ltac:(lia) ltac:(lia) ltac:(lia) ltac:(lia) ltac:(lia) ltac:(lia) ltac:(lia) QV Q1) as [x0 [E QX0]]. rewrite E. cbn [bind]. clear E.
  destruct (mulw 0 2 (1 + 2) 2 x0 fb _ _ ltac:(lia) ltac:(lia) QX0 Hb) as [x1 [E QX1]]. rewrite E. cbn [bind]. clear E.
  destruct (ineg r Hf 0 1 2 x1 _ ltac:(lia) ltac:(lia) ltac:(lia) ltac:(lia) ltac:(lia) QX1) as [x2 [E QX2]]. rewrite E. cbn [bind]. clear E.
  destruct (iinv r Hf 0 1 2 fa _ Hs ltac:(lia) ltac:(lia) ltac:(lia) ltac:(lia) Ha) as [ai [E QA]]. rewrite E. cbn [bind]. clear E.
  destruct (mulw 1 (0 + 1) (4 * 2) 1 x2 ai _ _ ltac:(lia) ltac:(lia) QX2 QA) as [x3 [E QX3]]. rewrite E. cbn [bind]. clear E.
  rewrite (iiszilch r Hf 0 1 1 tv _ ltac:(lia) ltac:(lia) ltac:(lia) ltac:(lia) QV). cbn [bind]. clear x0 x1 x2 QX0 QX1 QX2.
  assert (GX : exists x, (if (T u ^ (p - 2)) mod p =? 0 then x <- fp_inverse r fz ;; x <- fp_mul r x fb ;; fp_mul r x ai else Some x3) = Some x /\ frep r 0 1 2 x (sswu_x1 p A B E11_Z u)).
  { unfold sswu_x1. cbv zeta. unfold inv0 at 1. destruct (Z.eqb_spec ((T u ^ (p - 2)) mod p) 0) as [E0|E0].
    - destruct (iinv r Hf 0 1 2 fz _ Hs ltac:(lia) ltac:(lia) ltac:(lia) ltac:(lia) Hz) as [zi [E QZ]]. rewrite E. cbn [bind]. clear E.
      destruct (imulf r Hf 1 2 zi fb _ _ HM QZ Hb) as [z1 [E QZ1]]. rewrite E. cbn [bind]. clear E.
      destruct (imulf r Hf 2 1 z1 ai _ _ HM QZ1 QA) as [z2 [E QZ2]]. exists z2. split; [exact E|]. eapply (frep_cong r); [|exact QZ2].
      rewrite Z.mod_mod by lia. unfold inv0. rewrite Z.mul_mod_idemp_r by lia. rewrite Z.pow_mul_l. f_equal. unfold E11_Z. ring.
    - exists x3. split; [reflexivity|]. eapply (frep_cong r); [|exact QX3]. rewrite Z.mod_mod by lia. unfold inv0.
      replace (- ((T u ^ (p - 2) + 1) * B) * A ^ (p - 2)) with (- B * A ^ (p - 2) * (1 + T u ^ (p - 2))) by ring.
      symmetry. apply cg_mul; [apply cg_mul; [reflexivity|apply Z.mod_mod; lia]|apply cg_add; [reflexivity|apply Z.mod_mod; lia]]. }
  destruct GX as [x [E QX]]. rewrite E. cbn [bind]. clear E x3 QX3 tv QV one Q1 QA ai.
  destruct (gx_ok fa fb x 2 _ Ha Hb QX) as [g [E QG]]. rewrite E. cbn [bind]. clear E.
  destruct (isqrt 0 2 4 g _ ltac:(lia) ltac:(lia) ltac:(lia) ltac:(lia) QG) as [y [E QY]]. rewrite E. cbn [bind]. clear E.
  destruct (isqrf r Hf _ y _ HM QY) as [y2 [E QY2]]. rewrite E. cbn [bind]. clear E.
  rewrite (iequals r Hf 0 2 4 0 1 2 g y2 _ _ ltac:(lia) ltac:(lia) ltac:(lia) ltac:(lia) ltac:(lia) ltac:(lia) ltac:(lia) ltac:(lia) QG QY2). cbn [bind].
  pose proof (root_b p Hp H34 (gx p A B (sswu_x1 p A B E11_Z u))) as RB1. cbv zeta in RB1. rewrite RB1. clear RB1.
  rewrite (sswu_pre p A B E11_Z u). cbn [fst snd]. set (X1 := sswu_x1 p A B E11_Z u) in *.
  assert (P : exists x' y', (if negb (is_square_b p (gx p A B X1)) then x <- fp_mul r x t ;; g <- sswu_gx r fa fb x ;; y <- fp_sqrt r g ;; g <- fp_reduce r g ;; y2 <- fp_sqr r y ;; q <- fp_equals r g y2 ;; (if q then Some (x, y) else None) else Some (x, y)) = Some (x', y')
    /\ frep r 0 1 2 x' (fst (pre p A B E11_Z u)) /\ frep r 0 1 (FEXCESS r) y' (snd (pre p A B E11_Z u))).
  { unfold pre. cbv zeta. fold X1. destruct (is_square_b p (gx p A B X1)) eqn:SQ; cbn [negb fst snd].
    - exists x, y. split; [reflexivity|]. split; [exact QX|]. eapply (frep_cong r); [|exact QY]. unfold sqrt_3mod4. symmetry. apply Z.mod_mod. lia.
    - destruct (imulf r Hf 2 2 x t _ _ HM QX QT) as [x' [E QX']]. rewrite E. cbn [bind]. clear E.
      assert (QX2 : frep r 0 1 2 x' ((E11_Z * u ^ 2 * X1) mod p)). { eapply (frep_cong r); [|exact QX']. rewrite Z.mod_mod by lia. f_equal. unfold E11_Z. ring. } clear QX'.
      destruct (gx_ok fa fb x' 2 _ Ha Hb QX2) as [g' [E QG']]. rewrite E. cbn [bind]. clear E.
      destruct (isqrt 0 2 4 g' _ ltac:(lia) ltac:(lia) ltac:(lia) ltac:(lia) QG') as [y' [E QY']]. rewrite E. cbn [bind]. clear E.
      destruct (ireduce r Hf 0 2 4 g' _ ltac:(lia) ltac:(lia) ltac:(lia) ltac:(lia) QG') as [g2 [E [QG2 _]]]. rewrite E. cbn [bind]. clear E.
      destruct (isqrf r Hf _ y' _ HM QY') as [y2' [E QY2']]. rewrite E. cbn [bind]. clear E.
      rewrite (iequals r Hf 0 1 1 0 1 2 g2 y2' _ _ ltac:(lia) ltac:(lia) ltac:(lia) ltac:(lia) ltac:(lia) ltac:(lia) ltac:(lia) ltac:(lia) QG2 QY2'). cbn [bind].
      pose proof (root_b p Hp H34 (gx p A B ((E11_Z * u ^ 2 * X1) mod p))) as RB1. cbv zeta in RB1. rewrite RB1. clear RB1.
      pose proof (gx2_square p Hp H34 A B E11_Z HA HZ Hexc u SQ) as G2. fold X1 in G2. rewrite G2. exists x', y'. split; [reflexivity|]. split; [exact QX2|]. eapply (frep_cong r); [|exact QY']. unfold sqrt_3mod4. symmetry. apply Z.mod_mod. lia. }
  destruct P as [x' [y' [E [PX PY]]]]. rewrite E. cbn [bind fst snd]. clear E.
  rewrite (sgn0_ok e f u Hu Hc). cbn [bind]. pose proof (pre_nz p Hp H34 A B E11_Z HA HZ Hexc Hno2 u) as NZ. rewrite (sgn0_ok _ y' _ PY (or_introl NZ)). cbn [bind].
  set (Y := snd (pre p A B E11_Z u)) in *.
  assert (EB : Bool.eqb (sgn0 p u =? 1) (sgn0 p Y =? 1) = (sgn0 p u =? sgn0 p Y)). { destruct (sgn01 p 0 u) as [-> | ->]; destruct (sgn01 p 0 Y) as [-> | ->]; reflexivity. }
  rewrite EB. destruct (sgn0 p u =? sgn0 p Y); cbn [negb bind].
  - exists x', y'. split; [reflexivity|]. split; [exact PX|]. apply (frep_mono r Hf 0 1 (FEXCESS r)); [lia|lia|lia|exact PY].
  - destruct (ineg r Hf 0 1 (FEXCESS r) y' _ ltac:(lia) ltac:(lia) ltac:(lia) ltac:(lia) ltac:(lia) PY) as [y3 [E Q3]]. rewrite E. cbn [bind]. exists x', y3. split; [reflexivity|]. split; [exact PX|].
    pose proof (frep_e _ _ _ _ _ _ Q3) as [_ L3]. destruct Q3 as [Q31 [[Q32 _] [Q33 Q34]]]. split; [exact Q31|]. split; [lia|]. split; [exact Q33|]. unfold den in *. rewrite Q34.
    rewrite (Zmult_mod ((- Y) mod p)), Z.mod_mod, <- Zmult_mod by lia. reflexivity.
Qed.
End W.
