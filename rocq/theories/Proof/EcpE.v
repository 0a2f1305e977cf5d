(** Edwards point objects: every operation of ecp.rs in terms of the affine Edwards law over the field. *)
From Verif Require Import Base.Word Model.Big Model.Roms Model.Fp Model.Ecp Spec.BigSpec Spec.RomSpec Spec.FpSpec Spec.CurveSpec Spec.EcpSpec
  Proof.BigVal Proof.BigMod Proof.BigShift Proof.BigMonty Proof.BigMul Proof.BigMisc Proof.FpBase Proof.FpRed Proof.FpOps Proof.FpPow Proof.FpExp Proof.FpIv Proof.NumTheory
  Proof.FieldP Proof.Edw Proof.EcpOps Proof.EcpW.
From Coq Require Import Znumtheory Ring.

(** ROM conditions for Edwards curves *)
Definition e_ok (r : rom) : Prop :=
  fp_ok r /\ MX r = FEXCESS r /\ fpow_ok r /\ r_CURVETYPE r = Edwards /\ big_wf (r_cfg r) (r_CURVE_B r) /\ cB r < pmod r /\ (r_CURVE_A r = 1 \/ r_CURVE_A r = -1).

Section EPt.
Variable r : rom.
Hypothesis Hw : e_ok r.
Notation p := (pmod r).
Notation FX := (FEXCESS r).
Hypothesis Hp : prime p.
Notation ka := (mk p (cA r)).
Notation kb := (mk p (cB r)).
Hypothesis Hsq : is_square p (cA r).
Hypothesis Hns : ~ is_square p (cB r).
Let Hf : fp_ok r. Proof. exact (proj1 Hw). Qed.
Let HMX : MX r = FX. Proof. exact (proj1 (proj2 Hw)). Qed.
Let Hfp : fpow_ok r. Proof. exact (proj1 (proj2 (proj2 Hw))). Qed.
Let Hct : r_CURVETYPE r = Edwards. Proof. exact (proj1 (proj2 (proj2 (proj2 Hw)))). Qed.
Let HA1 : r_CURVE_A r = 1 \/ r_CURVE_A r = -1. Proof. exact (proj2 (proj2 (proj2 (proj2 (proj2 (proj2 Hw)))))). Qed.
Let Hmg : 4 <= maxg r := maxg_ge r Hf.
Let HC4 : 4 <= CHUNK (r_cfg r). Proof. pose proof (cf_C _ (cfg_ok_facts _ (ff_ok r (fp_ok_facts r Hf)))). pose proof (cf_B _ (cfg_ok_facts _ (ff_ok r (fp_ok_facts r Hf)))). lia. Qed.
Let Hp3 : 3 < p. Proof. pose proof (p_big r Hf). assert (2 ^ 3 <= 2 ^ 199) by (apply pow2_le; lia). change (2 ^ 3) with 8 in *. lia. Qed.
Add Ring Kring2 : (F_ring p Hp).
Lemma ksq : exists s : F p, (s * s)%F = ka.
Proof. destruct Hsq as [s Hs]. exists (mk p s). rewrite <- mk_mul by exact Hp. apply mk_eq. exact Hs. Qed.
Lemma ka_nz : ka <> f0 p.
Proof.
  intros E. apply mk_0 in E; [|exact Hp]. unfold cA in E. destruct HA1 as [H|H]; rewrite H in E; [rewrite Z.mod_1_l in E by lia; discriminate|].
  apply Z.mod_divide in E; [|lia]. destruct E as [q E]. assert (p * - q = 1) by lia. assert (Z.divide p 1) by (exists (- q); lia). apply Z.divide_1_r_nonneg in H1; lia.
Qed.
Lemma kns : forall s : F p, (s * s)%F <> kb.
Proof. intros s E. apply Hns. exists (fz s). rewrite <- (mk_fz p Hp s) in E. rewrite <- mk_mul in E by exact Hp. apply mk_eq in E. exact E. Qed.

Definition eden_r (P : ecp) (A : ept p) : Prop := exists v, prep r P v /\ eden p (kk p v) A /\ eon p ka kb A.
Notation Esum := (esum p ka kb).
Lemma eden_on P A : eden_r P A -> eon p ka kb A. Proof. intros [v [_ [_ H]]]. exact H. Qed.
Lemma e_kk_add u v : kk p (ed_add (cA r) (cB r) u v) = ked_add p ka kb (kk p u) (kk p v).
Proof. destruct u as [[X1 Y1] Z1], v as [[X2 Y2] Z2]. cbn [kk ed_add ked_add]. cbv zeta. rewrite ?mk_mul, ?mk_add, ?mk_sub, ?mk_mul, ?mk_add, ?mk_sub, ?mk_mul by exact Hp. reflexivity. Qed.
Lemma e_kk_dbl u : kk p (ed_dbl (cA r) u) = ked_dbl p ka (kk p u).
Proof. destruct u as [[X1 Y1] Z1]. cbn [kk ed_dbl ked_dbl]. cbv zeta. rewrite ?mk_mul, ?mk_add, ?mk_sub, ?mk_mul, ?mk_add, ?mk_sub, ?mk_mul by exact Hp. rewrite mk2 by exact Hp. reflexivity. Qed.

Theorem e_add P Q A C : eden_r P A -> eden_r Q C -> exists R, ecp_add r P Q = Some R /\ eden_r R (Esum A C).
Proof.
  intros [u [PU [DU OA]]] [v [PV [DV OC]]]. unfold ecp_add. rewrite Hct. destruct Hw as [_ [_ [_ [_ [WB [LB _]]]]]].
  destruct (add_e_ok r Hf HMX P Q u v HA1 WB LB PU PV) as [R [E1 E2]]. exists R. split; [exact E1|]. eexists. split; [exact E2|]. fold (cB r). change (r_CURVE_A r) with (cA r). rewrite e_kk_add.
  split; [apply ked_add_ok|apply esum_on]; auto using ksq, ka_nz, kns.
Qed.
Theorem e_dbl P A : eden_r P A -> exists R, ecp_dbl r P = Some R /\ eden_r R (Esum A A).
Proof.
  intros [u [PU [DU OA]]]. unfold ecp_dbl. rewrite Hct.
  destruct (dbl_e_ok r Hf HMX P u HA1 PU) as [R [E1 E2]]. exists R. split; [exact E1|]. eexists. split; [exact E2|]. change (r_CURVE_A r) with (cA r). rewrite e_kk_dbl.
  split; [apply ked_dbl_ok|apply esum_on]; auto using ksq, ka_nz, kns.
Qed.
Theorem e_negate P A : eden_r P A -> exists R, ecp_neg r P = Some R /\ eden_r R (eneg p A).
Proof.
  intros [u [[PX [PY PZ]] [DU OA]]]. unfold ecp_neg. rewrite Hct. destruct u as [[X1 Y1] Z1]. cbn [fst snd] in *.
  repeat estep. eexists. split; [reflexivity|]. exists (- X1, Y1, Z1). split; [|split].
  - unfold prep. cbn [ex ey ez fst snd]. split; [|split; [exact PY|exact PZ]]. eapply frep_fx; eassumption.
  - cbn [kk] in *. rewrite mk_opp by exact Hp. destruct A as [x y]; cbn [eden eneg] in *.
    destruct DU as [D1 [D2 D3]]. split; [exact D1|]. split; [rewrite D2; ring|exact D3].
  - apply eneg_on; auto.
Qed.
Theorem e_sub P Q A C : eden_r P A -> eden_r Q C -> exists R, ecp_sub r P Q = Some R /\ eden_r R (Esum A (eneg p C)).
Proof.
  intros HP HQ. unfold ecp_sub. destruct (e_negate Q C HQ) as [N [E1 E2]]. rewrite E1. cbn [bind]. apply e_add; assumption.
Qed.
Theorem e_cmove P Q A C d : eden_r P A -> eden_r Q C -> d = 0 \/ d = 1 -> ecp_cmove r P Q d = Some (if d =? 1 then Q else P).
Proof.
  intros [u [PU _]] [v [PV _]] Hd. destruct (prep_len r _ _ PU) as [L1 [L2 L3]], (prep_len r _ _ PV) as [M1 [M2 M3]]. unfold ecp_cmove, is_mont. rewrite Hct.
  rewrite !fp_cmove_exact by (try exact HC4; try exact Hd; congruence). cbn [bind]. destruct Hd as [-> | ->]; cbn [Z.eqb Pos.eqb]; [destruct P|destruct Q]; reflexivity.
Qed.
Theorem e_cswap P Q A C d : eden_r P A -> eden_r Q C -> d = 0 \/ d = 1 -> ecp_cswap r P Q d = Some (if d =? 1 then (Q, P) else (P, Q)).
Proof.
  intros [u [PU _]] [v [PV _]] Hd. destruct (prep_len r _ _ PU) as [L1 [L2 L3]], (prep_len r _ _ PV) as [M1 [M2 M3]]. unfold ecp_cswap, is_mont. rewrite Hct.
  rewrite !fp_cswap_exact by (try exact HC4; try exact Hd; congruence). cbn [bind]. destruct Hd as [-> | ->]; cbn [Z.eqb Pos.eqb fst snd]; destruct P, Q; reflexivity.
Qed.
Theorem e_is_inf P A : eden_r P A -> exists b, ecp_is_infinity r P = Some b /\ (b = true <-> A = ezero p).
Proof.
  intros [u [[PX [PY PZ]] [DU OA]]]. unfold ecp_is_infinity. rewrite Hct. destruct u as [[X1 Y1] Z1]. cbn [fst snd kk] in *.
  rewrite (iiszilch r Hf 0 1 FX (ex P) X1) by (try lia; exact PX). cbn [bind]. rewrite (iequals r Hf 0 1 FX 0 1 FX (ey P) (ez P) Y1 Z1) by (try lia; assumption).
  destruct A as [x y]. cbn [eden] in DU. destruct DU as [D1 [D2 D3]].
  assert (EX : X1 mod p = 0 <-> x = f0 p).
  { rewrite <- (mk_0 p Hp). rewrite D2. split; [intros E; destruct (F_integral p Hp _ _ E); [assumption|contradiction]|intros ->; ring]. }
  assert (EY : Y1 mod p = Z1 mod p <-> y = f1 p).
  { rewrite (mk_eq p). rewrite D3. split; [|intros ->; ring]. intros E. assert (Z0 : ((y - f1 p) * mk p Z1)%F = f0 p) by (transitivity (y * mk p Z1 - mk p Z1)%F; [ring|rewrite E; ring]).
    destruct (F_integral p Hp _ _ Z0) as [Q|Q]; [transitivity (y - f1 p + f1 p)%F; [ring|rewrite Q; ring]|contradiction]. }
  unfold ezero. destruct (Z.eqb_spec (X1 mod p) 0) as [E|E].
  - destruct (Z.eqb_spec (Y1 mod p) (Z1 mod p)) as [E'|E'].
    + exists true. split; [reflexivity|]. split; [|reflexivity]. intros _. f_equal; [apply EX|apply EY]; assumption.
    + exists false. split; [reflexivity|]. split; [discriminate|]. intros Q. inversion Q. exfalso. apply E'. apply EY. assumption.
  - exists false. split; [reflexivity|]. split; [discriminate|]. intros Q. inversion Q. exfalso. apply E. apply EX. assumption.
Qed.
Let X1ok : 0 <= 1 < 2 ^ BASEBITS (r_cfg r).
Proof. split; [lia|]. pose proof (cf_B _ (cfg_ok_facts _ (ff_ok r (fp_ok_facts r Hf)))). assert (2 ^ 16 <= 2 ^ BASEBITS (r_cfg r)) by (apply pow2_le; lia). change (2 ^ 16) with 65536 in *. lia. Qed.
Theorem e_new : exists R, ecp_new r = Some R /\ eden_r R (ezero p).
Proof.
  unfold ecp_new. rewrite Hct. destruct (inewint r Hf 1 X1ok) as [f [E1 E2]].
  rewrite E1. cbn [bind]. destruct (ione r Hf) as [g [E3 E4]]. rewrite E3. cbn [bind]. eexists. split; [reflexivity|]. exists (0, 1, 1). split; [|split].
  - unfold prep. cbn [ex ey ez fst snd]. pose proof (inew r Hf) as N. apply frep_fx in N. apply frep_fx in E2. apply frep_fx in E4. auto.
  - cbn [kk eden ezero]. change (mk p 1) with (f1 p). change (mk p 0) with (f0 p). split; [exact (f1_neq_f0 p Hp)|]. split; ring.
  - apply ezero_on. exact Hp.
Qed.
Lemma e_inv_ok f u : frep r 0 1 FX f u -> u mod p <> 0 -> exists f', fp_inverse r f = Some f' /\ frep r 0 1 FX f' (u ^ (p - 2)) /\ (mk p u * mk p (u ^ (p - 2)))%F = f1 p.
Proof.
  intros H Hu. destruct (inverse_rep r Hf 1 f u ltac:(lia) ltac:(reflexivity) Hfp (or_introl HMX) (frep_rep r Hf 0 1 _ _ _ 1 ltac:(lia) ltac:(lia) H)) as [f' [E1 E2]]. exists f'. split; [exact E1|].
  split; [apply (rep_frep1 r); [destruct E2 as [[_ [_ [E2 _]]] _]; lia|exact E2]|].
  rewrite <- mk_mul by exact Hp. apply mk_eq. rewrite fermat_inv by assumption. symmetry. apply Z.mod_1_l. lia.
Qed.
(** affine() leaves the point at infinity as it is, whatever its representation *)
Theorem e_affine P A : eden_r P A -> exists R, ecp_affine r P = Some R /\ eden_r R A /\
  (A <> ezero p -> exists v, prep r R v /\ kk p v = (fst A, snd A, f1 p)).
Proof.
  intros HP. pose proof HP as [u [[PX [PY PZ]] [DU OA]]]. unfold ecp_affine. destruct (e_is_inf P A HP) as [b [Eb Hb]]. rewrite Eb. cbn [bind].
  destruct b. { exists P. split; [reflexivity|]. split; [exact HP|]. intros N. contradiction N. apply Hb. reflexivity. }
  destruct A as [x y]. destruct u as [[X1 Y1] Z1]. cbn [fst snd kk] in *. destruct DU as [D1 [D2 D3]].
  destruct (inewint r Hf 1 X1ok) as [one [E1 E2]]. 
  rewrite E1. cbn [bind]. rewrite (iequals r Hf 0 1 FX 0 1 2 (ez P) one Z1 1) by (try lia; assumption). cbn [bind].
  destruct (Z.eqb_spec (Z1 mod p) (1 mod p)) as [Q|Q].
  - exists P. split; [reflexivity|]. split; [exact HP|]. intros _. exists (X1, Y1, Z1). split; [unfold prep; auto|]. cbn [kk]. apply mk_eq in Q. rewrite D2, D3, Q. change (mk p 1) with (f1 p). f_equal; f_equal; ring.
  - destruct (e_inv_ok (ez P) Z1 PZ) as [z [Z2 [Z3 Z4]]]. { intros E. apply D1. apply mk_0; assumption. }
    rewrite Z2. cbn [bind]. unfold is_mont. rewrite Hct.
    destruct (imulf r Hf FX FX (ex P) z X1 (Z1 ^ (p - 2)) HMX PX Z3) as [x' [X2 X3]]. rewrite X2. cbn [bind].
    destruct (ireduce r Hf 0 1 2 x' _ ltac:(lia) ltac:(lia) ltac:(lia) ltac:(lia) X3) as [x2 [X4 [X5 _]]]. rewrite X4. cbn [bind].
    destruct (imulf r Hf FX FX (ey P) z Y1 (Z1 ^ (p - 2)) HMX PY Z3) as [y' [Y2 Y3]]. rewrite Y2. cbn [bind].
    destruct (ireduce r Hf 0 1 2 y' _ ltac:(lia) ltac:(lia) ltac:(lia) ltac:(lia) Y3) as [y2 [Y4 [Y5 _]]]. rewrite Y4. cbn [bind].
    eexists. split; [reflexivity|].
    assert (G : exists v, prep r {| ex := x2; ey := y2; ez := one |} v /\ kk p v = (x, y, f1 p)).
    { exists (X1 * Z1 ^ (p - 2), Y1 * Z1 ^ (p - 2), 1). split; [unfold prep; cbn [ex ey ez fst snd]; split; [exact (frep_fx r 0 1 _ _ _ X5)|split; [exact (frep_fx r 0 1 _ _ _ Y5)|exact (frep_fx r 0 1 _ _ _ E2)]]|]. cbn [kk]. rewrite !mk_mul by exact Hp. rewrite D2, D3.
      f_equal. f_equal; [transitivity (x * (mk p Z1 * mk p (Z1 ^ (p - 2))))%F|transitivity (y * (mk p Z1 * mk p (Z1 ^ (p - 2))))%F]; try ring; rewrite Z4; ring. }
    split; [|intros _; exact G]. destruct G as [v [G1 G2]]. exists v. split; [exact G1|]. rewrite G2. split; [|exact OA]. cbn. split; [exact (f1_neq_f0 p Hp)|]. split; ring.
Qed.
Theorem e_equals P Q A C : eden_r P A -> eden_r Q C -> exists b, ecp_equals r P Q = Some b /\ (b = true <-> A = C).
Proof.
  intros [u [[PX [PY PZ]] [DU OA]]] [v [[QX [QY QZ]] [DV OC]]]. unfold ecp_equals. destruct u as [[X1 Y1] Z1], v as [[X2 Y2] Z2]. cbn [fst snd kk] in *.
  destruct (imulf r Hf _ _ _ _ _ _ HMX PX QZ) as [s1 [S1 S2]]. rewrite S1. cbn [bind]. destruct (imulf r Hf _ _ _ _ _ _ HMX QX PZ) as [s2 [S3 S4]]. rewrite S3. cbn [bind].
  rewrite (iequals r Hf 0 1 2 0 1 2 s1 s2 (X1 * Z2) (X2 * Z1)) by (try lia; assumption). cbn [bind].
  destruct (imulf r Hf _ _ _ _ _ _ HMX PY QZ) as [s3 [S5 S6]]. rewrite S5. destruct (imulf r Hf _ _ _ _ _ _ HMX QY PZ) as [s4 [S7 S8]]. rewrite S7. cbn [bind].
  rewrite (iequals r Hf 0 1 2 0 1 2 s3 s4 (Y1 * Z2) (Y2 * Z1)) by (try lia; assumption).
  unfold is_mont. rewrite Hct.
  assert (M : forall s t, s mod p = t mod p <-> mk p s = mk p t) by (intros; apply mk_eq).
  assert (E : exists b, (if negb (X1 * Z2 mod p =? X2 * Z1 mod p) then Some false else Some (Y1 * Z2 mod p =? Y2 * Z1 mod p)) = Some b /\ (b = true <-> (mk p X1 * mk p Z2 = mk p X2 * mk p Z1 /\ mk p Y1 * mk p Z2 = mk p Y2 * mk p Z1)%F)).
  { rewrite <- !mk_mul by exact Hp. pose proof (M (X1 * Z2) (X2 * Z1)) as M1. pose proof (M (Y1 * Z2) (Y2 * Z1)) as M2. destruct (Z.eqb_spec (X1 * Z2 mod p) (X2 * Z1 mod p)); cbn [negb].
    - eexists. split; [reflexivity|]. rewrite Z.eqb_eq. tauto.
    - exists false. split; [reflexivity|]. split; [discriminate|tauto]. }
  destruct E as [b [E1 E2]]. exists b. split; [exact E1|]. rewrite E2. clear E1 E2 M. clear - DU DV Hp.
  destruct A as [x1 y1], C as [x2 y2]; cbn [eden] in *.
  destruct DU as [D1 [D2 D3]], DV as [D4 [D5 D6]]. rewrite D2, D3, D5, D6. split; [|intros E; inversion E; subst; split; ring].
    intros [E1 E2]. assert (C1 : forall s t : F p, (s * mk p Z1 * mk p Z2 = t * mk p Z2 * mk p Z1)%F -> s = t).
    { intros s t E. assert (Z0 : ((s - t) * (mk p Z1 * mk p Z2))%F = f0 p) by (transitivity (s * mk p Z1 * mk p Z2 - t * mk p Z2 * mk p Z1)%F; [ring|rewrite E; ring]).
      destruct (F_integral p Hp _ _ Z0) as [Q|Q]; [transitivity (s - t + t)%F; [ring|rewrite Q; ring]|]. destruct (F_integral p Hp _ _ Q); contradiction. }
    f_equal; apply C1; assumption.
Qed.
End EPt.
