(** Between the field-level curve laws (Proof/Weier.v, Proof/Edw.v) and the integer-level specification (Spec/CurveSpec.v). *)
From Verif Require Import Base.Word Spec.CurveSpec Proof.NumTheory Proof.FieldP Proof.Weier Proof.Edw.
From Coq Require Import Znumtheory Ring Field.

Section BW.
Variable p : Z.
Hypothesis Hp : prime p.
Hypothesis Hp3 : 3 < p.
Add Field Kf_bw : (F_field p Hp).
Variables a b : Z.
Notation ka := (mk p a).
Notation kb := (mk p b).
Hypothesis Hno2 : no_order2 p a b.
Lemma kno2' : forall x : F p, (x * x * x + ka * x + kb)%F <> f0 p.
Proof.
  intros x E. apply (Hno2 (fz x)). rewrite <- (mk_fz p Hp x) in E. rewrite <- !mk_mul, <- !mk_add in E by exact Hp. apply mk_0 in E; [|exact Hp]. unfold cong. rewrite E. symmetry. apply Z.mod_0_l. lia.
Qed.
Definition sp (A : apt p) : point := match A with AInf _ => Inf | AAff _ x y => Aff (fz x) (fz y) end.
Definition ak (A : point) : apt p := match A with Inf => AInf p | Aff x y => AAff p (mk p x) (mk p y) end.
Lemma ak_sp A : ak (sp A) = A.
Proof. destruct A as [|x y]; cbn [sp ak]; [reflexivity|]. rewrite !mk_fz by exact Hp. reflexivity. Qed.
Lemma on_ak A : on_w p a b A -> aon p ka kb (ak A).
Proof. destruct A as [|x y]; cbn [on_w ak aon]; [trivial|]. intros [_ [_ H]]. unfold cong in H. rewrite <- !mk_mul, <- !mk_add by exact Hp. apply mk_eq. exact H. Qed.
Lemma sp_ak A : on_w p a b A -> sp (ak A) = A.
Proof. destruct A as [|x y]; cbn [on_w ak sp]; [reflexivity|]. intros [H1 [H2 _]]. unfold residue in *. rewrite !fz_mk. rewrite !Z.mod_small by assumption. reflexivity. Qed.
Lemma on_sp A : aon p ka kb A -> on_w p a b (sp A).
Proof.
  destruct A as [|x y]; cbn [on_w sp aon]; [trivial|]. intros H. pose proof (fz_range p Hp x). pose proof (fz_range p Hp y). unfold residue. split; [lia|]. split; [lia|].
  unfold cong. apply mk_eq. rewrite !mk_add, !mk_mul, !mk_fz by exact Hp. exact H.
Qed.
Lemma w_neg_sp A : w_neg p (sp A) = sp (aneg p A).
Proof. destruct A as [|x y]; reflexivity. Qed.
Lemma ak_neg A : on_w p a b A -> ak (w_neg p A) = aneg p (ak A).
Proof. intros H. rewrite <- (sp_ak A H) at 1. rewrite w_neg_sp, ak_sp. reflexivity. Qed.
Lemma div_uniq (l d n : F p) : d <> f0 p -> (l * d)%F = n -> l = (n / d)%F.
Proof. intros H1 <-. field. exact H1. Qed.
Lemma fz_inj (x y : F p) : fz x = fz y -> x = y. Proof. apply F_eq. Qed.

Lemma sum_ex A C : aon p ka kb A -> aon p ka kb C -> w_sum p a (sp A) (sp C) (sp (asum p ka A C)).
Proof.
  intros OA OC. destruct A as [|x1 y1]; [constructor|]. destruct C as [|x2 y2]; [constructor|].
  unfold asum. destruct (F_dec p x1 x2) as [<-|N].
  - destruct (F_dec p (y1 + y2)%F (f0 p)) as [E|E].
    + cbn [sp]. constructor. unfold cong. apply mk_eq. rewrite mk_add, !mk_fz by exact Hp. rewrite E. reflexivity.
    + assert (E2 : y1 = y2). { destruct (same_x p Hp ka kb x1 y1 y2 OA OC) as [H|H]; [exact H|contradiction]. } subst y2.
      assert (Y0 : y1 <> f0 p). { intros H. apply E. rewrite H. ring. }
      cbn [sp chord]. set (l := ((f1 p + f1 p + f1 p) * x1 * x1 + ka)%F). set (m := ((f1 p + f1 p) * y1)%F).
      assert (M0 : m <> f0 p) by (apply mul_nz; [exact Hp|apply two_nz; assumption|exact Y0]).
      set (s := (l / m)%F). assert (S : (s * m)%F = l) by (unfold s; field; exact M0).
      assert (X : fz (s * s - x1 - x1)%F = (fz s * fz s - fz x1 - fz x1) mod p).
      { rewrite <- fz_mk. f_equal. rewrite !mk_sub, !mk_mul, !mk_fz by exact Hp. reflexivity. }
      assert (Y : fz (s * (x1 - (s * s - x1 - x1)) - y1)%F = (fz s * (fz x1 - (fz s * fz s - fz x1 - fz x1)) - fz y1) mod p).
      { rewrite <- fz_mk. f_equal. rewrite ?mk_sub, ?mk_mul, ?mk_sub, ?mk_mul, ?mk_fz by exact Hp. rewrite ?mk_sub, ?mk_mul, ?mk_fz by exact Hp. reflexivity. }
      rewrite X, Y. apply ws_tangent.
      * unfold cong. intros H. apply E. apply mk_eq in H. rewrite mk_add, !mk_fz in H by exact Hp. exact H.
      * unfold cong. apply mk_eq. rewrite !mk_add, !mk_mul, !mk_fz by exact Hp.
        replace (mk p 2) with (f1 p + f1 p)%F by (unfold f1; rewrite <- mk_add by exact Hp; reflexivity).
        replace (mk p 3) with (f1 p + f1 p + f1 p)%F by (unfold f1; rewrite <- !mk_add by exact Hp; reflexivity). exact S.
  - cbn [sp chord]. set (s := ((y2 - y1) / (x2 - x1))%F). assert (M0 : (x2 - x1)%F <> f0 p) by (apply sub_nz; assumption).
    assert (S : (s * (x2 - x1))%F = (y2 - y1)%F) by (unfold s; field; exact M0).
    assert (X : fz (s * s - x1 - x2)%F = (fz s * fz s - fz x1 - fz x2) mod p).
    { rewrite <- fz_mk. f_equal. rewrite !mk_sub, !mk_mul, !mk_fz by exact Hp. reflexivity. }
    assert (Y : fz (s * (x1 - (s * s - x1 - x2)) - y1)%F = (fz s * (fz x1 - (fz s * fz s - fz x1 - fz x2)) - fz y1) mod p).
    { rewrite <- fz_mk. f_equal. rewrite ?mk_sub, ?mk_mul, ?mk_sub, ?mk_mul, ?mk_fz by exact Hp. rewrite ?mk_sub, ?mk_mul, ?mk_fz by exact Hp. reflexivity. }
    rewrite X, Y. apply ws_chord.
    + intros H. apply N. apply fz_inj. exact H.
    + unfold cong. apply mk_eq. rewrite !mk_mul, !mk_sub, !mk_fz by exact Hp. exact S.
Qed.
Lemma sum_fun A B C : on_w p a b A -> on_w p a b B -> w_sum p a A B C -> C = sp (asum p ka (ak A) (ak B)).
Proof.
  intros OA OB S. destruct S as [Q|P|x y y' H|x1 y1 x2 y2 l N H|x y l N H].
  - cbn [ak asum]. symmetry. apply sp_ak. exact OB.
  - cbn [ak]. rewrite asum_inf_r. symmetry. apply sp_ak. exact OA.
  - cbn [ak asum]. destruct (F_dec p (mk p x) (mk p x)) as [_|N]; [|destruct N; reflexivity].
    destruct (F_dec p (mk p y + mk p y')%F (f0 p)) as [_|N]; [reflexivity|]. exfalso. apply N. rewrite <- mk_add by exact Hp. apply mk_eq. exact H.
  - destruct OA as [RX [RY _]], OB as [RX2 [RY2 _]]. unfold residue in *. cbn [ak asum]. destruct (F_dec p (mk p x1) (mk p x2)) as [E|E].
    { exfalso. apply mk_eq in E. rewrite !Z.mod_small in E by assumption. contradiction. }
    assert (M0 : (mk p x2 - mk p x1)%F <> f0 p) by (apply sub_nz; assumption).
    rewrite <- (div_uniq (mk p l) (mk p x2 - mk p x1)%F (mk p y2 - mk p y1)%F M0). 2:{ rewrite <- !mk_sub, <- mk_mul by exact Hp. apply mk_eq. exact H. }
    unfold chord. cbn [sp]. rewrite <- ?mk_mul, <- ?mk_sub by exact Hp. rewrite <- ?mk_sub, <- ?mk_mul, <- ?mk_sub by exact Hp. rewrite <- ?mk_sub by exact Hp. rewrite <- ?mk_mul, <- ?mk_sub by exact Hp. rewrite !fz_mk. reflexivity.
  - cbn [ak asum]. destruct (F_dec p (mk p x) (mk p x)) as [_|N']; [|destruct N'; reflexivity].
    destruct (F_dec p (mk p y + mk p y)%F (f0 p)) as [E|E]. { exfalso. apply N. apply mk_eq. rewrite mk_add by exact Hp. exact E. }
    assert (Y0 : mk p y <> f0 p). { intros Y. apply E. rewrite Y. ring. }
    assert (M0 : ((f1 p + f1 p) * mk p y)%F <> f0 p) by (apply mul_nz; [exact Hp|apply two_nz; assumption|exact Y0]).
    rewrite <- (div_uniq (mk p l) ((f1 p + f1 p) * mk p y)%F ((f1 p + f1 p + f1 p) * mk p x * mk p x + ka)%F M0).
    2:{ unfold f1. rewrite <- ?mk_add, <- ?mk_mul by exact Hp. rewrite <- ?mk_mul, <- ?mk_add by exact Hp. apply mk_eq. exact H. }
    unfold chord. cbn [sp]. rewrite <- ?mk_mul, <- ?mk_sub by exact Hp. rewrite <- ?mk_sub, <- ?mk_mul, <- ?mk_sub by exact Hp. rewrite <- ?mk_sub by exact Hp. rewrite <- ?mk_mul, <- ?mk_sub by exact Hp. rewrite !fz_mk. reflexivity.
Qed.
(** the specification's law is total, single valued, closed, and a commutative group *)
Lemma spec_sum_total A B : on_w p a b A -> on_w p a b B -> exists C, w_sum p a A B C /\ on_w p a b C.
Proof.
  intros OA OB. exists (sp (asum p ka (ak A) (ak B))). split.
  - rewrite <- (sp_ak A OA) at 1. rewrite <- (sp_ak B OB) at 1. apply sum_ex; apply on_ak; assumption.
  - apply on_sp. apply (asum_on p Hp Hp3 ka kb kno2'); apply on_ak; assumption.
Qed.
Lemma spec_sum_fun A B C D : on_w p a b A -> on_w p a b B -> w_sum p a A B C -> w_sum p a A B D -> C = D.
Proof. intros OA OB H1 H2. rewrite (sum_fun A B C OA OB H1), (sum_fun A B D OA OB H2). reflexivity. Qed.
Lemma spec_sum_on A B C : on_w p a b A -> on_w p a b B -> w_sum p a A B C -> on_w p a b C.
Proof. intros OA OB H. rewrite (sum_fun A B C OA OB H). apply on_sp. apply (asum_on p Hp Hp3 ka kb kno2'); apply on_ak; assumption. Qed.
Lemma spec_sum_iff A B C : on_w p a b A -> on_w p a b B -> (w_sum p a A B C <-> C = sp (asum p ka (ak A) (ak B))).
Proof.
  intros OA OB. split; [apply sum_fun; assumption|]. intros ->. rewrite <- (sp_ak A OA) at 1. rewrite <- (sp_ak B OB) at 1. apply sum_ex; apply on_ak; assumption.
Qed.
Lemma spec_sum_comm A B C : on_w p a b A -> on_w p a b B -> w_sum p a A B C -> w_sum p a B A C.
Proof.
  intros OA OB H. apply spec_sum_iff in H; [|assumption|assumption]. apply spec_sum_iff; [assumption|assumption|]. rewrite H. f_equal.
  apply (asum_comm p Hp ka kb); apply on_ak; assumption.
Qed.
Lemma spec_neg_on A : on_w p a b A -> on_w p a b (w_neg p A).
Proof. intros H. rewrite <- (sp_ak A H). rewrite w_neg_sp. apply on_sp, aneg_on, on_ak; assumption. Qed.
Lemma spec_sum_neg A : on_w p a b A -> w_sum p a A (w_neg p A) Inf.
Proof.
  intros H. apply spec_sum_iff; [exact H|apply spec_neg_on; exact H|]. rewrite (ak_neg A H). rewrite asum_neg by exact Hp. reflexivity.
Qed.
Lemma spec_sum_assoc A B C AB BC S : on_w p a b A -> on_w p a b B -> on_w p a b C -> w_sum p a A B AB -> w_sum p a B C BC -> w_sum p a AB C S -> w_sum p a A BC S.
Proof.
  intros OA OB OC H1 H2 H3. pose proof (spec_sum_on _ _ _ OA OB H1) as O1. pose proof (spec_sum_on _ _ _ OB OC H2) as O2.
  apply spec_sum_iff in H1; [|assumption|assumption]. apply spec_sum_iff in H2; [|assumption|assumption]. apply spec_sum_iff in H3; [|assumption|assumption].
  apply spec_sum_iff; [assumption|assumption|]. rewrite H3, H1, H2, !ak_sp. f_equal. apply (asum_assoc p Hp Hp3 ka kb kno2'); apply on_ak; assumption.
Qed.
End BW.

Section BE.
Variable p : Z.
Hypothesis Hp : prime p.
Hypothesis Hp3 : 3 < p.
Add Field Kf_be : (F_field p Hp).
Variables a d : Z.
Notation ka := (mk p a).
Notation kd := (mk p d).
Hypothesis Hsq : is_square p a.
Hypothesis Ha0 : ~ cong p a 0.
Hypothesis Hns : ~ is_square p d.
Lemma b_ksq : exists s : F p, (s * s)%F = ka.
Proof. destruct Hsq as [s H]. exists (mk p s). rewrite <- mk_mul by exact Hp. apply mk_eq. exact H. Qed.
Lemma b_ka0 : ka <> f0 p.
Proof. intros E. apply Ha0. apply mk_eq. exact E. Qed.
Lemma b_kns : forall s : F p, (s * s)%F <> kd.
Proof. intros s E. apply Hns. exists (fz s). unfold cong. apply mk_eq. rewrite mk_mul, mk_fz by exact Hp. exact E. Qed.
Definition spe (A : ept p) : epoint := (fz (fst A), fz (snd A)).
Definition ake (A : epoint) : ept p := (mk p (fst A), mk p (snd A)).
Lemma ake_spe A : ake (spe A) = A.
Proof. destruct A as [x y]. unfold ake, spe. cbn [fst snd]. rewrite !mk_fz by exact Hp. reflexivity. Qed.
Lemma one_eq : f1 p = mk p 1. Proof. reflexivity. Qed.
Lemma on_ake A : on_e p a d A -> eon p ka kd (ake A).
Proof. destruct A as [x y]. unfold on_e, ake, eon. cbn [fst snd]. intros [_ [_ H]]. unfold cong in H. rewrite one_eq. rewrite <- !mk_mul, <- !mk_add by exact Hp. apply mk_eq. exact H. Qed.
Lemma spe_ake A : on_e p a d A -> spe (ake A) = A.
Proof. destruct A as [x y]. unfold on_e, ake, spe. cbn [fst snd]. intros [H1 [H2 _]]. unfold residue in *. rewrite !fz_mk. rewrite !Z.mod_small by assumption. reflexivity. Qed.
Lemma on_spe A : eon p ka kd A -> on_e p a d (spe A).
Proof.
  destruct A as [x y]. unfold on_e, spe, eon. cbn [fst snd]. intros H. pose proof (fz_range p Hp x). pose proof (fz_range p Hp y). unfold residue. split; [lia|]. split; [lia|].
  unfold cong. apply mk_eq. rewrite !mk_add, !mk_mul, !mk_fz by exact Hp. exact H.
Qed.
Lemma e_neg_spe A : e_neg p (spe A) = spe (eneg p A).
Proof. destruct A as [x y]; reflexivity. Qed.
Lemma ake_neg A : on_e p a d A -> ake (e_neg p A) = eneg p (ake A).
Proof. intros H. rewrite <- (spe_ake A H) at 1. rewrite e_neg_spe, ake_spe. reflexivity. Qed.
Lemma e_sum_iff A B C : on_e p a d A -> on_e p a d B -> (on_e p a d C /\ e_sum p a d A B C <-> C = spe (esum p ka kd (ake A) (ake B))).
Proof.
  intros OA OB. pose proof (on_ake A OA) as KA. pose proof (on_ake B OB) as KB.
  pose proof (esum_on p Hp Hp3 ka kd b_ksq b_ka0 b_kns _ _ KA KB) as KO.
  destruct A as [x1 y1], B as [x2 y2]. unfold ake in *. cbn [fst snd] in *. destruct (complete p Hp Hp3 ka kd b_ksq b_ka0 b_kns _ _ _ _ KA KB) as [T1 T2].
  assert (E1 : mk p (1 + d * x1 * x2 * y1 * y2) = (f1 p + kd * mk p x1 * mk p x2 * mk p y1 * mk p y2)%F) by (rewrite one_eq; rewrite ?mk_add, ?mk_mul by exact Hp; reflexivity).
  assert (E2 : mk p (1 - d * x1 * x2 * y1 * y2) = (f1 p - kd * mk p x1 * mk p x2 * mk p y1 * mk p y2)%F) by (rewrite one_eq; rewrite ?mk_sub, ?mk_mul by exact Hp; reflexivity).
  assert (E3 : mk p (x1 * y2 + y1 * x2) = (mk p x1 * mk p y2 + mk p y1 * mk p x2)%F) by (rewrite ?mk_add, ?mk_mul by exact Hp; reflexivity).
  assert (E4 : mk p (y1 * y2 - a * x1 * x2) = (mk p y1 * mk p y2 - ka * mk p x1 * mk p x2)%F) by (rewrite ?mk_sub, ?mk_mul by exact Hp; reflexivity).
  split.
  - intros [OC S]. destruct C as [x3 y3]. unfold e_sum in S. destruct S as [S1 [_ [S2 _]]]. rewrite <- (spe_ake _ OC). f_equal. unfold ake, esum. cbn [fst snd].
    apply mk_eq in S1. apply mk_eq in S2. rewrite mk_mul in S1, S2 by exact Hp. rewrite E1, E3 in S1. rewrite E2, E4 in S2.
    f_equal; [rewrite <- S1; field; exact T1|rewrite <- S2; field; exact T2].
  - intros ->. split; [apply on_spe; exact KO|]. unfold esum, spe. cbn [fst snd]. unfold e_sum. cbv zeta.
    split; [|split; [|split]].
    + unfold cong. apply mk_eq. rewrite mk_mul, mk_fz, E1, E3 by exact Hp. field. exact T1.
    + intros H. apply T1. rewrite <- E1. apply mk_eq. exact H.
    + unfold cong. apply mk_eq. rewrite mk_mul, mk_fz, E2, E4 by exact Hp. field. exact T2.
    + intros H. apply T2. rewrite <- E2. apply mk_eq. exact H.
Qed.
Lemma e_zero_on : on_e p a d e_zero.
Proof. unfold on_e, e_zero, residue. split; [lia|]. split; [lia|]. unfold cong. f_equal. ring. Qed.
Lemma ake_zero : ake e_zero = ezero p. Proof. reflexivity. Qed.
Lemma spec_eneg_on A : on_e p a d A -> on_e p a d (e_neg p A).
Proof. intros H. rewrite <- (spe_ake A H). rewrite e_neg_spe. apply on_spe, eneg_on; [exact Hp|]. apply on_ake. exact H. Qed.
Lemma spec_esum_total A B : on_e p a d A -> on_e p a d B -> exists C, on_e p a d C /\ e_sum p a d A B C.
Proof. intros OA OB. eexists. apply e_sum_iff; [assumption|assumption|reflexivity]. Qed.
Lemma spec_esum_fun A B C D : on_e p a d A -> on_e p a d B -> on_e p a d C -> on_e p a d D -> e_sum p a d A B C -> e_sum p a d A B D -> C = D.
Proof. intros OA OB OC OD H1 H2. rewrite (proj1 (e_sum_iff A B C OA OB) (conj OC H1)), (proj1 (e_sum_iff A B D OA OB) (conj OD H2)). reflexivity. Qed.
Lemma spec_esum_comm A B C : on_e p a d A -> on_e p a d B -> on_e p a d C -> e_sum p a d A B C -> e_sum p a d B A C.
Proof.
  intros OA OB OC H. pose proof (proj1 (e_sum_iff A B C OA OB) (conj OC H)) as E. apply (e_sum_iff B A C OB OA). rewrite E. f_equal. apply esum_comm. exact Hp.
Qed.
Lemma spec_esum_zero A : on_e p a d A -> e_sum p a d A e_zero A.
Proof.
  intros OA. apply (e_sum_iff A e_zero A OA e_zero_on). rewrite ake_zero. rewrite (esum_comm p Hp), (esum_0_l p Hp). symmetry. apply spe_ake. exact OA.
Qed.
Lemma spec_esum_neg A : on_e p a d A -> e_sum p a d A (e_neg p A) e_zero.
Proof.
  intros OA. apply (e_sum_iff A _ e_zero OA (spec_eneg_on A OA)). rewrite (ake_neg A OA). rewrite (esum_neg p Hp Hp3 ka kd b_ksq b_ka0 b_kns _ (on_ake A OA)).
  rewrite <- ake_zero. symmetry. apply spe_ake. exact e_zero_on.
Qed.
Lemma spec_esum_assoc A B C AB BC S : on_e p a d A -> on_e p a d B -> on_e p a d C -> on_e p a d AB -> on_e p a d BC -> on_e p a d S ->
  e_sum p a d A B AB -> e_sum p a d B C BC -> e_sum p a d AB C S -> e_sum p a d A BC S.
Proof.
  intros OA OB OC OAB OBC OS H1 H2 H3. pose proof (proj1 (e_sum_iff A B AB OA OB) (conj OAB H1)) as E1. pose proof (proj1 (e_sum_iff B C BC OB OC) (conj OBC H2)) as E2.
  pose proof (proj1 (e_sum_iff AB C S OAB OC) (conj OS H3)) as E3. apply (e_sum_iff A BC S OA OBC). rewrite E3, E1, E2, !ake_spe. f_equal.
  apply (esum_assoc p Hp Hp3 ka kd b_ksq b_ka0 b_kns); apply on_ake; assumption.
Qed.
End BE.
