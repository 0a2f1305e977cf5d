(** The point operations of ecp.rs implement the curve groups, in the words of Spec/EcpSpec.v. *)
From Verif Require Import Base.Word Model.Big Model.Roms Model.Fp Model.Ecp Spec.BigSpec Spec.RomSpec Spec.FpSpec Spec.CurveSpec Spec.EcpSpec
  Proof.BigVal Proof.FpBase Proof.FpOps Proof.FpExp Proof.FpIv Proof.NumTheory Proof.FieldP Proof.Weier Proof.Edw Proof.EcpOps Proof.EcpW Proof.EcpE Proof.EcpBridge Proof.EcpMul.
From Coq Require Import Znumtheory.

Lemma p_gt3 r : fp_ok r -> 3 < pmod r.
Proof. intros Hf. pose proof (p_big r Hf). assert (2 ^ 3 <= 2 ^ 199) by (apply pow2_le; lia). change (2 ^ 3) with 8 in *. lia. Qed.

Section WI.
Variable r : rom.
Hypothesis Hw : w_ok r.
Notation p := (pmod r).
Hypothesis Hp : prime p.
Notation a := (cA r).
Notation b := (cB r).
Hypothesis Hno2 : no_order2 p a b.
Let Hf : fp_ok r := proj1 Hw.
Let Hp3 : 3 < p := p_gt3 r Hf.
Notation ka := (mk p a).
Notation kb := (mk p b).
Notation SP := (sp p).
Notation AK := (ak p).
Lemma w_group : cgroup (apt p) (AInf p) (asum p ka) (aneg p) (aon p ka kb).
Proof.
  pose proof (kno2' p Hp Hp3 a b Hno2) as K. split.
  - exact I.
  - intros; apply (asum_on p Hp Hp3 ka kb K); assumption.
  - intros; apply (aneg_on p Hp); assumption.
  - intros; apply (asum_comm p Hp ka kb); assumption.
  - intros; apply (asum_assoc p Hp Hp3 ka kb K); assumption.
  - reflexivity.
  - intros; apply (asum_neg p Hp).
Qed.
Definition wnrm (P : ecp) (A : apt p) : Prop := match A with AInf _ => True | AAff _ x y => exists v, prep r P v /\ kk p v = (x, y, f1 p) end.
Lemma w_pops : pops r (apt p) (AInf p) (asum p ka) (aneg p) (aon p ka kb) (wden r) wnrm.
Proof.
  split.
  - intros P A. apply wden_on.
  - intros; apply w_add; assumption.
  - intros; apply w_dbl; assumption.
  - intros; apply w_negate; assumption.
  - intros. eapply w_cmove; eassumption.
  - intros. eapply w_cswap; eassumption.
  - intros. apply w_is_inf; assumption.
  - destruct (w_new r Hw Hp) as [R [R1 R2]]. exists R. split; [exact R1|]. split; [exact R2|exact I].
  - intros P A H. destruct (w_affine r Hw Hp P A H) as [R [R1 [R2 R3]]]. exists R. split; [exact R1|]. split; [exact R2|]. destruct A as [|x y]; [exact I|exact R3].
Qed.
(** objects *)
Lemma w_point_den P A : w_point r P A <-> on_w p a b A /\ wden r P (AK A).
Proof.
  split.
  - intros [OA [X [Y [Z [[CX [CY CZ]] H]]]]]. split; [exact OA|]. exists (X, Y, Z). split; [unfold prep; cbn [fst snd]; auto using rep1f|]. split; [|apply on_ak; assumption].
    destruct A as [|x y]; cbn [ak kk kden].
    + destruct H as [H1 [H2 H3]]. split; [apply mk_eq; exact H1|]. split; [apply mk_eq; exact H2|]. intros E. apply H3. apply mk_eq. exact E.
    + destruct H as [H1 [H2 H3]]. split; [intros E; apply H1; apply mk_eq; exact E|]. rewrite <- !mk_mul by exact Hp. split; apply mk_eq; symmetry; assumption.
  - intros [OA [v [[PX [PY PZ]] [D _]]]]. split; [exact OA|]. destruct v as [[X Y] Z]. cbn [fst snd] in *. exists X, Y, Z. split; [split; [|split]; eapply frep1; eassumption|].
    destruct A as [|x y]; cbn [ak kk kden] in D; destruct D as [D1 [D2 D3]]; unfold cong.
    + split; [apply mk_eq; exact D1|]. split; [apply mk_eq; exact D2|]. intros E. apply D3. apply mk_eq. exact E.
    + split; [intros E; apply D1; apply mk_eq; exact E|]. split; apply mk_eq; rewrite mk_mul by exact Hp; symmetry; assumption.
Qed.
Lemma den_w_point P A : wden r P A -> w_point r P (SP A).
Proof. intros H. apply w_point_den. rewrite ak_sp by exact Hp. split; [|exact H]. apply on_sp; [exact Hp|]. exact (wden_on _ _ _ H). Qed.
Lemma w_times_iff A n C : on_w p a b A -> (w_times p a A n C <-> C = SP (ntimes (apt p) (AInf p) (asum p ka) n (AK A))).
Proof.
  intros OA. revert C. induction n as [|n IH]; intros C; cbn [ntimes].
  - split; [intros H; inversion H; reflexivity|intros ->; constructor].
  - set (N := ntimes (apt p) (AInf p) (asum p ka) n (AK A)) in *.
    assert (ON : aon p ka kb N) by (apply (ntimes_on _ _ _ _ _ w_group); apply on_ak; assumption).
    assert (OS : on_w p a b (SP N)) by (apply on_sp; assumption).
    split.
    + intros H. inversion H as [|n' B' C' H1 H2]; subst. apply IH in H1. rewrite H1 in H2. apply (sum_fun p Hp Hp3 a b) in H2; [|exact OS|exact OA]. rewrite H2. rewrite ak_sp by exact Hp. reflexivity.
    + intros ->. apply (wt_S p a A n (SP N)); [apply IH; reflexivity|]. apply (spec_sum_iff p Hp Hp3 a b); [exact OS|exact OA|]. rewrite ak_sp by exact Hp. reflexivity.
Qed.
Lemma ztimes_nat (A : apt p) v : 0 <= v -> ztimes (apt p) (AInf p) (asum p ka) (aneg p) v A = ntimes (apt p) (AInf p) (asum p ka) (Z.to_nat v) A.
Proof. intros H. unfold ztimes. destruct (Z.ltb_spec v 0); [lia|reflexivity]. Qed.
End WI.

Section EI.
Variable r : rom.
Hypothesis Hw : e_ok r.
Notation p := (pmod r).
Hypothesis Hp : prime p.
Notation a := (cA r).
Notation d := (cB r).
Hypothesis Hsq : is_square p a.
Hypothesis Hns : ~ is_square p d.
Let Hf : fp_ok r := proj1 Hw.
Let Hp3 : 3 < p := p_gt3 r Hf.
Notation ka := (mk p a).
Notation kd := (mk p d).
Notation SP := (spe p).
Notation AK := (ake p).
Lemma Ha0 : ~ cong p a 0.
Proof. intros E. apply (ka_nz r Hw Hp). apply mk_eq. exact E. Qed.
Lemma e_group : cgroup (ept p) (ezero p) (esum p ka kd) (eneg p) (eon p ka kd).
Proof.
  pose proof (b_ksq p Hp a Hsq) as K1. pose proof (b_ka0 p a Ha0) as K2. pose proof (b_kns p Hp d Hns) as K3. split.
  - apply ezero_on; exact Hp.
  - intros; apply (esum_on p Hp Hp3 ka kd K1 K2 K3); assumption.
  - intros; apply (eneg_on p Hp); assumption.
  - intros; apply (esum_comm p Hp).
  - intros; apply (esum_assoc p Hp Hp3 ka kd K1 K2 K3); assumption.
  - intros; apply (esum_0_l p Hp).
  - intros; apply (esum_neg p Hp Hp3 ka kd K1 K2 K3); assumption.
Qed.
Definition enrm (P : ecp) (A : ept p) : Prop := A <> ezero p -> exists v, prep r P v /\ kk p v = (fst A, snd A, f1 p).
Lemma e_pops : pops r (ept p) (ezero p) (esum p ka kd) (eneg p) (eon p ka kd) (eden_r r) enrm.
Proof.
  split.
  - intros P A. apply eden_on.
  - intros; apply e_add; assumption.
  - intros; apply e_dbl; assumption.
  - intros; apply e_negate; assumption.
  - intros. eapply e_cmove; eassumption.
  - intros. eapply e_cswap; eassumption.
  - intros. apply e_is_inf; assumption.
  - destruct (e_new r Hw Hp) as [R [R1 R2]]. exists R. split; [exact R1|]. split; [exact R2|]. intros N. contradiction N. reflexivity.
  - intros P A H. destruct (e_affine r Hw Hp P A H) as [R [R1 [R2 R3]]]. exists R. auto.
Qed.
Lemma e_point_den P A : e_point r P A <-> on_e p a d A /\ eden_r r P (AK A).
Proof.
  split.
  - intros [OA [X [Y [Z [[CX [CY CZ]] H]]]]]. split; [exact OA|]. exists (X, Y, Z). split; [unfold prep; cbn [fst snd]; auto using rep1f|]. split; [|apply on_ake; assumption].
    destruct A as [x y]; cbn [ake kk eden fst snd] in *.
    destruct H as [H1 [H2 H3]]. split; [intros E; apply H1; apply mk_eq; exact E|]. rewrite <- !mk_mul by exact Hp. split; apply mk_eq; symmetry; assumption.
  - intros [OA [v [[PX [PY PZ]] [D _]]]]. split; [exact OA|]. destruct v as [[X Y] Z]. cbn [fst snd] in *. exists X, Y, Z. split; [split; [|split]; (eapply (frep_rep r Hf 0 1 (FEXCESS r)); [lia|lia|eassumption])|].
    destruct A as [x y]; cbn [ake kk eden fst snd] in *; destruct D as [D1 [D2 D3]]; unfold cong.
    split; [intros E; apply D1; apply mk_eq; exact E|]. split; apply mk_eq; rewrite mk_mul by exact Hp; symmetry; assumption.
Qed.
Lemma den_e_point P A : eden_r r P A -> e_point r P (SP A).
Proof. intros H. apply e_point_den. rewrite ake_spe by exact Hp. split; [|exact H]. apply on_spe; [exact Hp|]. exact (eden_on _ _ _ H). Qed.
Lemma e_times_iff A n C : on_e p a d A -> (e_times p a d A n C <-> C = SP (ntimes (ept p) (ezero p) (esum p ka kd) n (AK A))).
Proof.
  intros OA. revert C. induction n as [|n IH]; intros C; cbn [ntimes].
  - assert (E0 : SP (ezero p) = e_zero) by (rewrite <- ake_zero; apply (spe_ake p a d); apply (e_zero_on p Hp3 a d)).
    rewrite E0. split; [intros H; inversion H; reflexivity|intros ->; constructor].
  - set (N := ntimes (ept p) (ezero p) (esum p ka kd) n (AK A)) in *.
    assert (ON : eon p ka kd N) by (apply (ntimes_on _ _ _ _ _ e_group); apply on_ake; assumption).
    assert (OS : on_e p a d (SP N)) by (apply on_spe; assumption).
    pose proof (e_sum_iff p Hp Hp3 a d Hsq Ha0 Hns (SP N) A C OS OA) as S. rewrite ake_spe in S by exact Hp.
    split.
    + intros H. inversion H as [|n' B' C' H1 H3 H2]; subst. apply IH in H1. rewrite H1 in H2. apply S. auto.
    + intros E. destruct (proj2 S E) as [S1 S2]. apply (et_S p a d A n (SP N)); [apply IH; reflexivity|exact S1|exact S2].
Qed.
End EI.
Lemma nrm_coords r P v x y : fp_ok r -> prime (pmod r) -> prep r P v -> kk (pmod r) v = (mk (pmod r) x, mk (pmod r) y, f1 (pmod r)) -> coords r P x y 1.
Proof.
  intros Hf Hp [PX [PY PZ]] E. destruct v as [[X Y] Z]. cbn [fst snd kk] in *. injection E as E1 E2 E3.
  assert (G : forall f u w, frep r 0 1 (FEXCESS r) f u -> u mod pmod r = w mod pmod r -> fp_rep r 1 f w).
  { intros f u w H1 H2. eapply (frep_rep r Hf 0 1 (FEXCESS r)); [lia|lia|]. eapply frep_cong; [exact H2|exact H1]. }
  split; [|split]; (eapply G; [eassumption|]; assumption).
Qed.
Lemma ztimes_nat_g (G : Type) zero plus opp v (A : G) : 0 <= v -> ztimes G zero plus opp v A = ntimes G zero plus (Z.to_nat v) A.
Proof. intros H. unfold ztimes. destruct (Z.ltb_spec v 0); [lia|reflexivity]. Qed.
Lemma e_not_mont r : e_ok r -> is_mont r = false.
Proof. intros Hw. unfold is_mont. rewrite (proj1 (proj2 (proj2 (proj2 Hw)))). reflexivity. Qed.
Lemma enrm_coords r (Hw : e_ok r) (Hp : prime (pmod r)) P A : enrm r P A -> spe (pmod r) A <> e_zero -> coords r P (fst (spe (pmod r) A)) (snd (spe (pmod r) A)) 1.
Proof.
  intros H NE. destruct H as [v [V1 V2]].
  - intros ->. apply NE. rewrite <- ake_zero. apply (spe_ake _ (cA r) (cB r)). apply e_zero_on. exact (p_gt3 r (proj1 Hw)).
  - apply nrm_coords with (v := v); try assumption; [exact (proj1 Hw)|]. destruct A as [x y]. cbn [spe fst snd] in *. rewrite !mk_fz by exact Hp. exact V2.
Qed.
