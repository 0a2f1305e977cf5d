(** ECP2 objects as elements of the group of the twist. *)
From Verif Require Import Base.Word Base.Arr Model.Big Model.Roms Model.Fp Model.Fp2 Model.Fp12 Model.Ecp Model.Ecp2 Model.Ecp2Mul
  Spec.BigSpec Spec.RomSpec Spec.FpSpec Spec.EcpSpec Spec.TowerSpec Spec.TowerRep Spec.G2Spec Spec.G2Sum Spec.Ecp2Spec
  Proof.NumTheory Proof.BigVal Proof.BigShift Proof.FpBase Proof.FpOps Proof.FpIv Proof.FieldP Proof.TowerRing Proof.TowerInv Proof.Fp2Ops Proof.EcpW Proof.EcpMul Proof.EcpInst
  Proof.Ecp2Ops Proof.Ecp2Add Proof.WeierK Proof.Field2 Proof.G2Bridge.
From Coq Require Import Lia Znumtheory.

Section G2.
Variable r : rom.
Hypothesis Hf : fp_ok r.
Hypothesis Hs : special r = false.
Hypothesis HT : tower_ok r.
Notation c := (r_cfg r).
Notation p := (pmod r).
Notation FE := (FEXCESS r).
Hypothesis Hp : prime p.
Hypothesis H34 : p mod 4 = 3.
Variable tw : twist.
Variable bt : Z2.
Variable bi : Z.
Hypothesis Hbi : 0 < 3 * bi <= 60.
Hypothesis Hbc : bi mod p = cB r mod p.
Hypothesis Hbt : match tw with MType => eq2 p bt (mul2 xi (k2 (cB r))) | DType => eq2 p (mul2 xi bt) (k2 (cB r)) end.
Hypothesis Hno2 : no_order2_2 p bt.
Let Hp3 : 3 < p := p_gt3 r Hf.
Let HFE : 16383 <= FE. Proof. exact (proj1 (proj2 HT)). Qed.
Let pn : p <> 0. Proof. lia. Qed.
Notation "x == y" := (eq2 p x y) (at level 70).
Notation K := (F2 p).
Notation PTp := (PT p).
Notation on := (on2 p bt).
Notation gadd := (sum2 p).
Notation gneg := (opp2 p).
Notation g0 := (pinf p).
Notation den2 := (den2 p).
Add Ring Kr_g2 : (q_ring p Hp).
Definition kk (u : Z2 * Z2 * Z2) : kpt K := (mk2 p (fst (fst u)), mk2 p (snd (fst u)), mk2 p (snd u)).
Definition D (e : Z) (P : ecp2) (A : PTp) : Prop := exists u, prep3 r e P u /\ den2 (kk u) A /\ on A.
Lemma D_on e P A : D e P A -> on A. Proof. intros [u [_ [_ H]]]. exact H. Qed.
Lemma D_mono e e' P A : e <= e' -> D e P A -> D e' P A.
Proof. intros He [u [[A1 [A2 A3]] H]]. exists u. split; [|exact H]. split; [|split]; (eapply (rep2_mono r Hf); [| | |eassumption]; lia). Qed.
Lemma sx_nz : mk2 p (mul2 (sx tw) (sx tw)) <> q0 p.
Proof.
  assert (N : mk2 p (sx tw) <> q0 p).
  { change (q0 p) with (mk2 p zero2). intros E. apply (mk2_eq p) in E. unfold sx in E. destruct tw; unfold xi, one2, zero2 in E; destruct E as [E _]; cbn [fst] in E; rewrite Z.mod_1_l, Z.mod_0_l in E by lia; discriminate E. }
  rewrite mk2_mul by exact Hp. intros E. destruct (q_integral p Hp H34 _ _ E); contradiction.
Qed.
Lemma kk_scl s u : kk (scl s u) = (qmul p (mk2 p s) (fst (fst (kk u))), qmul p (mk2 p s) (snd (fst (kk u))), qmul p (mk2 p s) (snd (kk u))).
Proof. unfold kk, scl. cbn [fst snd]. rewrite !mk2_mul by exact Hp. reflexivity. Qed.
Ltac pushm := repeat rewrite ?mk2_sub, ?mk2_mul, ?mk2_add, ?(scale_three p Hp H34), ?(scale_two p Hp H34) by exact Hp.
Lemma kk_rcb u v : kk (rcbz bt u v) = rcb2 p bt (kk u) (kk v).
Proof.
  destruct u as [[X1 Y1] Z1], v as [[X2 Y2] Z2]. unfold kk, rcbz, rcb2, krcb. cbn [fst snd]. pushm. f_equal; [f_equal|]; ring.
Qed.
Lemma mk_k2 : mk2 p (k2 2) = qadd p (q1 p) (q1 p).
Proof. change (q1 p) with (mk2 p one2). rewrite <- mk2_add by exact Hp. reflexivity. Qed.
Lemma mk_k8 : mk2 p (k2 8) = let two := qadd p (q1 p) (q1 p) in qmul p (qmul p two two) two.
Proof. cbv zeta. rewrite <- mk_k2. rewrite <- !mk2_mul by exact Hp. reflexivity. Qed.
Lemma kk_dbl u : kk (dblz bt u) = dbl2f p bt (kk u).
Proof.
  destruct u as [[X1 Y1] Z1]. unfold kk, dblz, dbl2f. cbn [fst snd]. pushm. rewrite mk_k2, mk_k8. cbv zeta. f_equal; [f_equal|]; ring.
Qed.
Let GR := group2 p Hp Hp3 H34 bt Hno2.
Theorem g_add P Q A C : D 16200 P A -> D 16200 Q C -> exists R, ecp2_add r tw bi P Q = Some R /\ D 30 R (gadd A C).
Proof.
  intros [u [PU [DU OU]]] [v [PV [DV OV]]]. destruct (add3_ok r Hf Hs HT tw bt bi Hbi Hbc Hbt P Q u v PU PV) as [R [R1 R2]]. exists R. split; [exact R1|]. eexists. split; [exact R2|]. split.
  - rewrite kk_scl. apply (den_scale p Hp H34); [exact sx_nz|]. rewrite <- !surjective_pairing. rewrite kk_rcb. exact (rcb2_ok p Hp Hp3 H34 bt Hno2 _ _ _ _ OU OV DU DV).
  - apply (cg_add _ _ _ _ _ GR); assumption.
Qed.
Theorem g_dbl P A : D 16200 P A -> exists R, ecp2_dbl r tw bi P = Some R /\ D 30 R (gadd A A).
Proof.
  intros [u [PU [DU OU]]]. destruct (dbl3_ok r Hf Hs HT tw bt bi Hbi Hbc Hbt P u PU) as [R [R1 R2]]. exists R. split; [exact R1|]. eexists. split; [exact R2|]. split.
  - rewrite kk_scl. apply (den_scale p Hp H34); [exact sx_nz|]. rewrite <- !surjective_pairing. rewrite kk_dbl. exact (dbl2f_ok p Hp Hp3 H34 bt Hno2 _ _ OU DU).
  - apply (cg_add _ _ _ _ _ GR); assumption.
Qed.
Theorem g_neg e P A : 9 * e <= FE -> D e P A -> exists R, ecp2_neg r P = Some R /\ D (9 * e) R (gneg A).
Proof.
  intros He [u [PU [DU OU]]]. destruct u as [[X Y] Z]. destruct (neg3_ok r Hf e P X Y Z He PU) as [R [R1 [R2 _]]]. exists R. split; [exact R1|]. exists (X, neg2 Y, Z). split; [exact R2|]. split.
  - unfold kk. cbn [fst snd]. rewrite mk2_neg by exact Hp. apply (neg_den p Hp H34). exact DU.
  - apply (cg_neg _ _ _ _ _ GR); assumption.
Qed.
Theorem g_sub P Q A C : D 16200 P A -> D 1800 Q C -> exists R, ecp2_sub r tw bi P Q = Some R /\ D 30 R (gadd A (gneg C)).
Proof. intros H1 H2. unfold ecp2_sub. destruct (g_neg 1800 Q C ltac:(lia) H2) as [N [N1 N2]]. rewrite N1. cbn [bind]. apply g_add; assumption. Qed.
Lemma rep2_len e x v : rep2 r 0 1 e x v -> length (fx (f2a x)) = NLEN c /\ length (fx (f2b x)) = NLEN c.
Proof. intros [[[L1 _] _] [[L2 _] _]]. auto. Qed.
Lemma HC4 : 4 <= CHUNK c. Proof. pose proof (cf_C _ (cfg_ok_facts _ (ff_ok r (fp_ok_facts r Hf)))). pose proof (cf_B _ (cfg_ok_facts _ (ff_ok r (fp_ok_facts r Hf)))). lia. Qed.
Lemma cmove2 e e' x y u v d : rep2 r 0 1 e x u -> rep2 r 0 1 e' y v -> d = 0 \/ d = 1 -> fp2_cmove r x y d = Some (if d =? 1 then y else x).
Proof.
  intros H1 H2 Hd. apply rep2_len in H1. apply rep2_len in H2. destruct H1 as [L1 L2], H2 as [L3 L4]. unfold fp2_cmove. rewrite !fp_cmove_exact by (try exact HC4; try exact Hd; congruence). cbn [bind]. destruct Hd as [-> | ->]; cbn [Z.eqb Pos.eqb]; [destruct x|destruct y]; reflexivity.
Qed.
Theorem g_cmove e e' P Q A C d : D e P A -> D e' Q C -> d = 0 \/ d = 1 -> ecp2_cmove r P Q d = Some (if d =? 1 then Q else P).
Proof.
  intros [u [[U1 [U2 U3]] _]] [v [[V1 [V2 V3]] _]] Hd. unfold ecp2_cmove. rewrite (cmove2 _ _ _ _ _ _ d U1 V1 Hd), (cmove2 _ _ _ _ _ _ d U2 V2 Hd), (cmove2 _ _ _ _ _ _ d U3 V3 Hd). cbn [bind]. destruct Hd as [-> | ->]; cbn [Z.eqb Pos.eqb]; [destruct P|destruct Q]; reflexivity.
Qed.
Lemma mkz u : mk2 p u = q0 p <-> u == zero2. Proof. change (q0 p) with (mk2 p zero2). apply mk2_eq. Qed.
Theorem g_inf e P A : D e P A -> exists b, ecp2_is_infinity r P = Some b /\ (b = true <-> A = g0).
Proof.
  intros [[[X Y] Z] [PU [DU _]]]. eexists. split; [exact (is_inf2_ok r Hf e P X Y Z PU)|]. rewrite andb_true_iff, !eqb2_iff, <- !mkz. unfold kk in DU. cbn [fst snd] in DU. unfold G2Bridge.den2, kden in DU. destruct A as [|x y].
  - destruct DU as [E1 [E2 _]]. split; [reflexivity|]. intros _. auto.
  - destruct DU as [NZ _]. split; [intros [_ E]; contradiction|]. intros E. discriminate E.
Qed.
Theorem g_new : exists R, ecp2_new r = Some R /\ D 2 R g0.
Proof.
  destruct (enew_ok r Hf) as [P [P1 P2]]. exists P. split; [exact P1|]. exists (zero2, one2, zero2). split; [exact P2|]. split; [|exact I]. unfold kk, G2Bridge.den2, kden, pinf. cbn [fst snd]. split; [reflexivity|]. split; [reflexivity|]. intros E. apply mkz in E. exact (one_nz r Hf Hp E).
Qed.
(** affine: z becomes one *)
Definition nrm (P : ecp2) (A : PTp) : Prop := match A with AInf _ => True | AAff _ x y => exists u v, rep2 r 0 1 16200 (x2 P) u /\ rep2 r 0 1 16200 (y2 P) v /\ rep2 r 0 1 16200 (z2 P) one2 /\ mk2 p u = x /\ mk2 p v = y end.
Theorem g_affine e P A : 2 <= e <= 16200 -> D e P A -> exists R, ecp2_affine r P = Some R /\ D e R A /\ nrm R A.
Proof.
  intros He HD. pose proof HD as [[[X Y] Z] [PU [DU OU]]]. destruct A as [|x y].
  - unfold ecp2_affine. destruct (g_inf e P _ HD) as [b [B1 B2]]. rewrite B1. cbn [bind]. replace b with true by (symmetry; apply B2; reflexivity). exists P. split; [reflexivity|]. split; [exact HD|exact I].
  - unfold kk, G2Bridge.den2, kden in DU. cbn [fst snd] in DU. destruct DU as [NZ [EX EY]].
    destruct (aff2_ok r Hf Hs Hp H34 HT e P X Y Z ltac:(lia) PU ltac:(rewrite <- mkz; exact NZ)) as [W [W1 [x' [y' [E1 [E2 [R3 _]]]]]]].
    assert (CA : forall a b z, z <> q0 p -> qmul p a z = qmul p b z -> a = b).
    { intros a b z Hz E. assert (Q : qmul p (qsub p a b) z = q0 p) by (transitivity (qsub p (qmul p a z) (qmul p b z)); [ring|rewrite E; ring]). destruct (q_integral p Hp H34 _ _ Q) as [Q'|Q']; [|contradiction]. transitivity (qadd p (qsub p a b) b); [ring|rewrite Q'; ring]. }
    assert (X1 : mk2 p x' = x). { apply (CA _ _ (mk2 p Z) NZ). rewrite <- EX, <- mk2_mul by exact Hp. apply mk2_eq. exact E1. }
    assert (Y1 : mk2 p y' = y). { apply (CA _ _ (mk2 p Z) NZ). rewrite <- EY, <- mk2_mul by exact Hp. apply mk2_eq. exact E2. }
    exists W. split; [exact W1|]. split.
    + exists (x', y', one2). split; [exact R3|]. split; [|exact OU]. unfold kk, G2Bridge.den2, kden. cbn [fst snd]. change (mk2 p one2) with (q1 p). split; [intros Q; apply (one_nz r Hf Hp); apply mkz; exact Q|]. rewrite X1, Y1. split; ring.
    + destruct R3 as [R3 [R4 R5]]. exists x', y'. split; [eapply (rep2_mono r Hf); [| | |exact R3]; lia|]. split; [eapply (rep2_mono r Hf); [| | |exact R4]; lia|]. split; [eapply (rep2_mono r Hf); [| | |exact R5]; lia|]. split; assumption.
Qed.
Theorem g_equals e P Q A C : e <= 524288 -> D e P A -> D e Q C -> exists b, ecp2_equals r P Q = Some b /\ (b = true <-> A = C).
Proof.
  intros He [[[X1 Y1] Z1] [PU [DU OU]]] [[[X2 Y2] Z2] [PV [DV OV]]]. eexists. split; [exact (eq3_ok r Hf Hs HT e P Q _ _ He PU PV)|]. cbn [fst snd]. rewrite andb_true_iff, !eqb2_iff.
  assert (E : forall a b, a == b <-> mk2 p a = mk2 p b) by (intros; symmetry; apply mk2_eq). rewrite !E. rewrite !mk2_mul by exact Hp. unfold kk, G2Bridge.den2, kden in DU, DV. cbn [fst snd] in DU, DV.
  assert (CA : forall a b z, z <> q0 p -> qmul p a z = qmul p b z -> a = b).
  { intros a b z Hz EE. assert (QQ : qmul p (qsub p a b) z = q0 p) by (transitivity (qsub p (qmul p a z) (qmul p b z)); [ring|rewrite EE; ring]). destruct (q_integral p Hp H34 _ _ QQ) as [Q'|Q']; [|contradiction]. transitivity (qadd p (qsub p a b) b); [ring|rewrite Q'; ring]. }
  destruct A as [|x y], C as [|x' y'].
  - destruct DU as [-> [-> _]], DV as [-> [-> _]]. split; [reflexivity|]. intros _. split; ring.
  - destruct DU as [-> [-> NY]], DV as [NZ [-> ->]]. split; [|intros EE; discriminate EE]. intros [_ EE]. exfalso. assert (QQ : qmul p (mk2 p Y1) (mk2 p Z2) = q0 p) by (rewrite EE; ring). destruct (q_integral p Hp H34 _ _ QQ); contradiction.
  - destruct DV as [-> [-> NY]], DU as [NZ [-> ->]]. split; [|intros EE; discriminate EE]. intros [_ EE]. exfalso. assert (QQ : qmul p (mk2 p Y2) (mk2 p Z1) = q0 p) by (rewrite <- EE; ring). destruct (q_integral p Hp H34 _ _ QQ); contradiction.
  - destruct DU as [N1 [-> ->]], DV as [N2 [-> ->]]. assert (NN : qmul p (mk2 p Z1) (mk2 p Z2) <> q0 p) by (intros QQ; destruct (q_integral p Hp H34 _ _ QQ); contradiction). split.
    + intros [E1 E2]. f_equal; apply (CA _ _ _ NN); [transitivity (qmul p (qmul p x (mk2 p Z1)) (mk2 p Z2)); [ring|rewrite E1; ring]|transitivity (qmul p (qmul p y (mk2 p Z1)) (mk2 p Z2)); [ring|rewrite E2; ring]].
    + intros EE. injection EE as <- <-. split; ring.
Qed.
(** in the words of Spec/Ecp2Spec.v *)
Notation SP := (sp2 p).
Notation AK := (ak2 p).
Lemma el2r e x v : el2 r e x v <-> rep2 r 0 1 e x v. Proof. apply (el2_rep r Hf). Qed.
Theorem point_D e P A : e2_point r bt e P A <-> on_e2 p bt A /\ D e P (AK A).
Proof.
  split.
  - intros [OA [X [Y [Z [CX [CY [CZ H]]]]]]]. split; [exact OA|]. exists (X, Y, Z). split; [split; [|split]; apply el2r; assumption|]. split; [|apply (on_ak p Hp H34); exact OA]. unfold kk, G2Bridge.den2, kden. cbn [fst snd].
    destruct A as [|x y]; cbn [ak2].
    + destruct H as [H1 [H2 H3]]. split; [apply mkz; exact H1|]. split; [apply mkz; exact H2|]. rewrite mkz. exact H3.
    + destruct H as [H1 [H2 H3]]. split; [rewrite mkz; exact H1|]. rewrite <- !mk2_mul by exact Hp. split; apply mk2_eq; apply eq2_sym; assumption.
  - intros [OA [[[X Y] Z] [[PX [PY PZ]] [DU _]]]]. split; [exact OA|]. exists X, Y, Z. cbn [fst snd] in *. split; [apply el2r; exact PX|]. split; [apply el2r; exact PY|]. split; [apply el2r; exact PZ|].
    unfold kk, G2Bridge.den2, kden in DU. cbn [fst snd] in DU. destruct A as [|x y]; cbn [ak2] in DU.
    + destruct DU as [H1 [H2 H3]]. split; [apply mkz; exact H1|]. split; [apply mkz; exact H2|]. rewrite <- mkz. exact H3.
    + destruct DU as [H1 [H2 H3]]. split; [rewrite <- mkz; exact H1|]. rewrite <- !mk2_mul in H2, H3 by exact Hp. split; apply eq2_sym; apply mk2_eq; assumption.
Qed.
Lemma D_point e P A : D e P A -> e2_point r bt e P (SP A).
Proof. intros H. apply point_D. split; [apply (on_sp p Hp H34); exact (D_on _ _ _ H)|]. rewrite (ak_sp p Hp). exact H. Qed.
End G2.
