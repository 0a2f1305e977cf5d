(** iso11_to_ecp evaluates the rational map of RFC 9380 appendix E.2, with a common denominator. *)
From Verif Require Import Base.Word Base.Arr Model.Big Model.Roms Model.Fp Model.Fp2 Model.Ecp Model.Sswu Model.Iso Spec.Bytes Spec.BigSpec Spec.RomSpec Spec.FpSpec Spec.CurveSpec Spec.EcpSpec Spec.SswuSpec Spec.IsoSpec
  Proof.NumTheory Proof.BigVal Proof.BigMod Proof.FpBase Proof.FpOps Proof.FpIv Proof.FpSqrt Proof.FpWide Proof.EcpCodec Proof.SswuFp.
From Coq Require Import Lia Znumtheory.

Definition kz (k : kst) : Z := match k with KB v => v | KI n => n end.
Section I.
Variable r : rom.
Hypothesis Hf : fp_ok r.
Hypothesis Hs : special r = false.
Notation c := (r_cfg r).
Notation X := (2 ^ BASEBITS (r_cfg r)).
Notation p := (pmod r).
Hypothesis Hmb : MODBYTES c = 48.
Hypothesis HFE : 16 <= FEXCESS r.
Hypothesis Hw21 : wide_ok c 2 1.
Let HM : MX r = FEXCESS r. Proof. unfold MX. unfold special in Hs. destruct (r_MODTYPE r); try reflexivity; discriminate. Qed.
Let Hmg : 4 <= maxg r := maxg_ge r Hf.
Let HX : 65536 <= X. Proof. change 65536 with (2 ^ 16). apply pow2_le. pose proof (cf_B _ (cfg_ok_facts _ (ff_ok r (fp_ok_facts r Hf)))). lia. Qed.
Definition kok (k : kst) : Prop := match k with KB v => 0 <= v < p /\ v < 256 ^ 48 | KI n => 0 <= n < 65536 end.
Lemma kval_ok k : kok k -> exists f, kval r k = Some f /\ frep r 0 1 2 f (kz k).
Proof.
  destruct k as [v|n]; cbn [kok kval kz].
  - intros [H1 H2]. destruct (i2osp_el r Hf v H1 H2 Hmb) as [b [f [E1 [E2 E3]]]]. rewrite E1. cbn [bind]. eauto.
  - intros H. apply (inewint r Hf n). lia.
Qed.
Lemma kvals_ok l : Forall kok l -> exists fs, kvals r l = Some fs /\ Forall2 (fun f v => frep r 0 1 2 f v) fs (map kz l).
Proof.
  induction 1 as [|k l Hk H IH]; [exists []; split; [reflexivity|constructor]|]. cbn [kvals map]. destruct (kval_ok k Hk) as [f [E1 Q1]]. destruct IH as [fs [E2 Q2]]. rewrite E1, E2. cbn [bind]. exists (f :: fs). split; [reflexivity|]. constructor; assumption.
Qed.
Lemma horner_ok x v e ks vs : frep r 0 1 e x v -> Forall2 (fun f v => frep r 0 1 2 f v) ks vs -> forall m w, frep r 0 2 4 m w ->
  exists f, horner r x m ks = Some f /\ frep r 0 2 4 f (fold_left (fun a k => k + v * a) vs w).
Proof.
  intros Hx. induction 1 as [|k u ks vs Hk H IH]; intros m w Hm; [exists m; split; [reflexivity|exact Hm]|]. cbn [horner fold_left].
  destruct (imulw r Hf 2 1 0 2 4 0 1 e m x w v HM Hw21 ltac:(lia) ltac:(lia) ltac:(lia) ltac:(lia) ltac:(lia) ltac:(lia) Hm Hx) as [a [E1 Q1]]. rewrite E1. cbn [bind].
  destruct (iadd r Hf 0 1 2 0 1 2 a k _ _ ltac:(lia) ltac:(lia) ltac:(lia) ltac:(lia) ltac:(lia) ltac:(lia) ltac:(lia) Q1 Hk) as [b [E2 Q2]]. rewrite E2. cbn [bind].
  apply IH. apply (frep_cong r 0 2 4 b (w * v + u)); [f_equal; ring|exact Q2].
Qed.
Lemma horner_all_ok x v e ks vs : frep r 0 1 e x v -> ks <> [] -> Forall2 (fun f v => frep r 0 1 2 f v) ks vs ->
  exists f, horner_all r x ks = Some f /\ frep r 0 2 4 f (peval vs v).
Proof.
  intros Hx Hne H. assert (H' : Forall2 (fun f v => frep r 0 1 2 f v) (rev ks) (rev vs)).
  { clear Hne. induction H as [|a b ks vs Ha H IH]; [constructor|]. cbn [rev]. apply Forall2_app; [exact IH|constructor; [exact Ha|constructor]]. }
  unfold horner_all, peval. rewrite <- (rev_involutive vs), fold_left_rev_right.
  destruct (rev ks) as [|k t] eqn:E; [apply (f_equal (@rev _)) in E; rewrite rev_involutive in E; cbn in E; contradiction|].
  inversion H' as [|? u ? us Hk Ht E1 E2]. subst. cbn [fold_left].
  apply (horner_ok x v e t us Hx Ht k). apply (frep_mono r Hf 0 1 2); [lia|lia|lia|]. apply (frep_cong r 0 1 2 k u); [f_equal; ring|exact Hk].
Qed.
Definition kokb (k : kst) : bool := match k with KB v => (0 <=? v) && (v <? p) && (v <? 256 ^ 48) | KI n => (0 <=? n) && (n <? 65536) end.
Lemma kokb_ok l : forallb kokb l = true -> Forall kok l.
Proof. intros H. rewrite forallb_forall in H. apply Forall_forall. intros k Hk. specialize (H k Hk). destruct k; cbn [kokb kok] in *; rewrite ?andb_true_iff, ?Z.leb_le, ?Z.ltb_lt in H; lia. Qed.
Hypothesis HKX : forallb kokb ISO11_XNUM && forallb kokb ISO11_XDEN && forallb kokb ISO11_YNUM && forallb kokb ISO11_YDEN = true.
Hypothesis Hw22 : wide_ok c 2 2.
Lemma table l s x v e : forallb kokb l = true -> l <> [] -> map kz l = s -> frep r 0 1 e x v -> exists fs f, kvals r l = Some fs /\ horner_all r x fs = Some f /\ frep r 0 2 4 f (peval s v).
Proof.
  intros H Hne E Hx. destruct (kvals_ok l (kokb_ok l H)) as [fs [E1 Q1]]. rewrite E in Q1. destruct (horner_all_ok x v e fs s Hx) as [f [E2 Q2]]; [|exact Q1|eauto].
  intros ->. destruct l as [|k l]; [contradiction|]. rewrite <- E in Q1. cbn [map] in Q1. inversion Q1.
Qed.
Lemma T1 : map kz ISO11_XNUM = E2_x_num. Proof. reflexivity. Qed.
Lemma T2 : map kz ISO11_XDEN = E2_x_den. Proof. reflexivity. Qed.
Lemma T3 : map kz ISO11_YNUM = E2_y_num. Proof. reflexivity. Qed.
Lemma T4 : map kz ISO11_YDEN = E2_y_den. Proof. reflexivity. Qed.
Theorem iso_ok e1 e2 x y u v : frep r 0 1 e1 x u -> frep r 1 1 e2 y v ->
  exists P, iso11_to_ecp r x y = Some P /\
    frep r 0 1 2 (ex P) (peval E2_x_num u * peval E2_y_den u) /\ frep r 0 1 2 (ey P) (peval E2_y_num u * v * peval E2_x_den u) /\ frep r 0 1 2 (ez P) (peval E2_x_den u * peval E2_y_den u).
Proof.
  intros Hx Hy. rewrite !andb_true_iff in HKX. destruct HKX as [[[K1 K2] K3] K4]. unfold iso11_to_ecp.
  destruct (table _ _ x u e1 K1 ltac:(discriminate) T1 Hx) as [l1 [m0 [A1 [B1 C1]]]]. destruct (table _ _ x u e1 K2 ltac:(discriminate) T2 Hx) as [l2 [m1 [A2 [B2 C2]]]].
  destruct (table _ _ x u e1 K3 ltac:(discriminate) T3 Hx) as [l3 [m2 [A3 [B3 C3]]]]. destruct (table _ _ x u e1 K4 ltac:(discriminate) T4 Hx) as [l4 [m3 [A4 [B4 C4]]]].
  rewrite A1, A2, A3, A4. cbn [bind]. rewrite B1, B2, B3, B4. cbn [bind]. clear A1 A2 A3 A4 B1 B2 B3 B4 K1 K2 K3 K4.
  destruct (imulw r Hf 2 1 0 2 4 1 1 e2 m2 y _ _ HM Hw21 ltac:(lia) ltac:(lia) ltac:(lia) ltac:(lia) ltac:(lia) ltac:(lia) C3 Hy) as [m2' [E Q2]]. rewrite E. cbn [bind]. clear E.
  destruct (imulw r Hf 2 2 0 2 4 0 2 4 m1 m3 _ _ HM Hw22 ltac:(lia) ltac:(lia) ltac:(lia) ltac:(lia) ltac:(lia) ltac:(lia) C2 C4) as [z [E QZ]]. rewrite E. cbn [bind]. clear E.
  destruct (imulw r Hf 2 2 0 2 4 0 2 4 m0 m3 _ _ HM Hw22 ltac:(lia) ltac:(lia) ltac:(lia) ltac:(lia) ltac:(lia) ltac:(lia) C1 C4) as [x' [E QX]]. rewrite E. cbn [bind]. clear E.
  destruct (imulw r Hf 2 2 0 1 2 0 2 4 m2' m1 _ _ HM Hw22 ltac:(lia) ltac:(lia) ltac:(lia) ltac:(lia) ltac:(lia) ltac:(lia) Q2 C2) as [y' [E QY]]. rewrite E. cbn [bind]. clear E.
  eexists. split; [reflexivity|]. cbn [ex ey ez]. auto.
Qed.
End I.
