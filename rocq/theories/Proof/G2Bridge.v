(** Between the curve law over the field F_p(i) (Proof/WeierK.v, Proof/Field2.v) and the integer-level specification (Spec/G2Spec.v, Spec/G2Sum.v). *)
From Coq Require Import ZArith Lia Znumtheory Ring Field.
From Verif Require Import Spec.TowerSpec Spec.G2Spec Spec.G2Sum Proof.NumTheory Proof.FieldP Proof.TowerRing Proof.TowerInv Proof.WeierK Proof.Field2 Proof.EcpMul.
Open Scope Z_scope.

Section B2.
Variable p : Z.
Hypothesis Hp : prime p.
Hypothesis Hp3 : 3 < p.
Hypothesis H34 : p mod 4 = 3.
Variable b : Z2.
Hypothesis Hno2 : no_order2_2 p b.
Notation K := (F2 p).
Notation k0 := (q0 p). Notation k1 := (q1 p).
Notation ka := (q0 p).
Notation kb := (mk2 p b).
Notation "x +! y" := (qadd p x y) (at level 50, left associativity).
Notation "x -! y" := (qsub p x y) (at level 50, left associativity).
Notation "x *! y" := (qmul p x y) (at level 40, left associativity).
Notation "x /! y" := (qdiv p x y) (at level 40, left associativity).
Let KF := q_field p Hp H34.
Let KD := q_dec p.
Let KI := q_integral p Hp H34.
Let K2 : k1 +! k1 <> k0. Proof. exact (q_two p Hp ltac:(lia)). Qed.
Add Field Kf_b2 : (q_field p Hp H34).
Definition PT : Type := apt K.
Definition pinf : PT := AInf K.
Definition paff (x y : K) : PT := AAff K x y.
Definition on2 : PT -> Prop := aon K (qadd p) (qmul p) ka kb.
Definition sum2 : PT -> PT -> PT := asum K k0 k1 (qadd p) (qmul p) (qsub p) (qdiv p) KD ka.
Definition opp2 : PT -> PT := aneg K (qopp p).
Definition den2 : kpt K -> PT -> Prop := kden K k0 (qmul p).
Definition rcb2 : kpt K -> kpt K -> kpt K := krcb K k1 (qadd p) (qmul p) (qsub p) ka kb.
Lemma uz_mk2 u : uz p (mk2 p u) = red2 p u. Proof. reflexivity. Qed.
Lemma uz_inj x y : uz p x = uz p y -> x = y.
Proof. intros E. rewrite <- (mk2_uz p Hp x), <- (mk2_uz p Hp y), E. reflexivity. Qed.
Lemma uz_res x : res2 p (uz p x).
Proof. split; apply (fz_range p Hp). Qed.
Lemma red_res2 u : res2 p u -> red2 p u = u.
Proof. intros [A B]. destruct u as [u0 u1]. unfold red2. cbn [fst snd] in *. rewrite !Z.mod_small by assumption. reflexivity. Qed.
Lemma kno2 : forall x : K, x *! x *! x +! ka *! x +! kb <> k0.
Proof.
  intros x E. apply (Hno2 (uz p x)). apply (mk2_eq p). rewrite !mk2_add, !mk2_mul, mk2_uz by exact Hp. change (mk2 p zero2) with k0. rewrite <- E. ring.
Qed.
Definition sp2 (A : PT) : point2 := match A with AInf _ => Inf2 | AAff _ x y => Aff2 (uz p x) (uz p y) end.
Definition ak2 (A : point2) : PT := match A with Inf2 => pinf | Aff2 x y => paff (mk2 p x) (mk2 p y) end.
Lemma ak_sp A : ak2 (sp2 A) = A.
Proof. destruct A as [|x y]; cbn [sp2 ak2]; [reflexivity|]. unfold paff. rewrite !mk2_uz by exact Hp. reflexivity. Qed.
Lemma on_ak A : on_e2 p b A -> on2 (ak2 A).
Proof.
  destruct A as [|x y]; [intros _; exact I|]. intros [_ [_ H]]. unfold on2, ak2, paff, aon. apply (mk2_eq p) in H. rewrite !mk2_add, !mk2_mul in H by exact Hp. rewrite H. ring.
Qed.
Lemma sp_ak A : on_e2 p b A -> sp2 (ak2 A) = A.
Proof. destruct A as [|x y]; [reflexivity|]. intros [H1 [H2 _]]. unfold ak2, sp2, paff. rewrite !uz_mk2, !red_res2 by assumption. reflexivity. Qed.
Lemma on_sp A : on2 A -> on_e2 p b (sp2 A).
Proof.
  destruct A as [|x y]; [intros _; exact I|]. intros H. cbn [sp2 on_e2]. split; [apply uz_res|]. split; [apply uz_res|]. apply (mk2_eq p). rewrite !mk2_add, !mk2_mul, !mk2_uz by exact Hp. unfold on2, aon in H. rewrite H. ring.
Qed.
Lemma neg_sp A : e2_neg p (sp2 A) = sp2 (opp2 A).
Proof. destruct A as [|x y]; reflexivity. Qed.
Lemma ak_neg A : on_e2 p b A -> ak2 (e2_neg p A) = opp2 (ak2 A).
Proof. intros H. rewrite <- (sp_ak A H) at 1. rewrite neg_sp, ak_sp. reflexivity. Qed.
Lemma div_uniq (l d n : K) : d <> k0 -> l *! d = n -> l = n /! d.
Proof. intros H1 <-. field. exact H1. Qed.
Ltac pushm := repeat rewrite ?mk2_sub, ?mk2_mul, ?mk2_add by exact Hp; rewrite ?mk2_uz by exact Hp.
Lemma scale_two u : mk2 p (scale2 2 u) = (k1 +! k1) *! mk2 p u.
Proof. replace (scale2 2 u) with (add2 u u) by (destruct u; unfold scale2, add2; cbn [fst snd]; f_equal; ring). rewrite mk2_add by exact Hp. ring. Qed.
Lemma scale_three u : mk2 p (scale2 3 u) = (k1 +! k1 +! k1) *! mk2 p u.
Proof. replace (scale2 3 u) with (add2 (add2 u u) u) by (destruct u; unfold scale2, add2; cbn [fst snd]; f_equal; ring). rewrite !mk2_add by exact Hp. ring. Qed.

Lemma sum_ex A C : on2 A -> on2 C -> e2_sum p (sp2 A) (sp2 C) (sp2 (sum2 A C)).
Proof.
  intros OA OC. destruct A as [|x1 y1]; [constructor|]. destruct C as [|x2 y2]; [constructor|].
  unfold sum2, asum. destruct (KD x1 x2) as [<-|N].
  - destruct (KD (y1 +! y2) k0) as [E|E].
    + cbn [sp2]. constructor. apply (mk2_eq p). pushm. rewrite E. reflexivity.
    + assert (E2 : y1 = y2). { destruct (same_x K k0 k1 (qadd p) (qmul p) (qsub p) (qopp p) (qdiv p) (qinv p) KF KI ka kb x1 y1 y2 OA OC) as [H|H]; [exact H|contradiction]. } subst y2.
      assert (Y0 : y1 <> k0). { intros H. apply E. rewrite H. ring. }
      cbn [sp2 chord]. set (l := (k1 +! k1 +! k1) *! x1 *! x1 +! ka). set (m := (k1 +! k1) *! y1).
      assert (M0 : m <> k0). { intros Q. destruct (KI _ _ Q); [exact (K2 H)|contradiction]. }
      set (s := l /! m). assert (S : s *! m = l) by (unfold s; field; exact M0).
      assert (X : uz p (s *! s -! x1 -! x1) = red2 p (sub2 (sub2 (mul2 (uz p s) (uz p s)) (uz p x1)) (uz p x1))).
      { rewrite <- uz_mk2. f_equal. pushm. reflexivity. }
      assert (Y : uz p (s *! (x1 -! (s *! s -! x1 -! x1)) -! y1) = red2 p (sub2 (mul2 (uz p s) (sub2 (uz p x1) (sub2 (sub2 (mul2 (uz p s) (uz p s)) (uz p x1)) (uz p x1)))) (uz p y1))).
      { rewrite <- uz_mk2. f_equal. pushm. reflexivity. }
      rewrite X, Y. apply es_tangent.
      * intros H. apply E. apply (mk2_eq p) in H. revert H. pushm. trivial.
      * apply (mk2_eq p). rewrite mk2_mul, scale_two, scale_three by exact Hp. pushm. fold m. rewrite S. unfold l. ring.
  - cbn [sp2 chord]. set (s := (y2 -! y1) /! (x2 -! x1)).
    assert (M0 : x2 -! x1 <> k0). { intros Q. apply N. transitivity (x2 -! (x2 -! x1)); [ring|]. rewrite Q. ring. }
    assert (S : s *! (x2 -! x1) = y2 -! y1) by (unfold s; field; exact M0).
    assert (X : uz p (s *! s -! x1 -! x2) = red2 p (sub2 (sub2 (mul2 (uz p s) (uz p s)) (uz p x1)) (uz p x2))).
    { rewrite <- uz_mk2. f_equal. pushm. reflexivity. }
    assert (Y : uz p (s *! (x1 -! (s *! s -! x1 -! x2)) -! y1) = red2 p (sub2 (mul2 (uz p s) (sub2 (uz p x1) (sub2 (sub2 (mul2 (uz p s) (uz p s)) (uz p x1)) (uz p x2)))) (uz p y1))).
    { rewrite <- uz_mk2. f_equal. pushm. reflexivity. }
    rewrite X, Y. apply es_chord.
    + intros H. apply N. apply uz_inj. exact H.
    + apply (mk2_eq p). pushm. exact S.
Qed.
Lemma sum_fun A B C : on_e2 p b A -> on_e2 p b B -> e2_sum p A B C -> C = sp2 (sum2 (ak2 A) (ak2 B)).
Proof.
  intros OA OB S. destruct S as [Q|P|x y y' H|x1 y1 x2 y2 l N H|x y l N H].
  - cbn [ak2]. unfold sum2, pinf, asum. symmetry. apply sp_ak. exact OB.
  - cbn [ak2]. unfold sum2, pinf. rewrite asum_inf_r. symmetry. apply sp_ak. exact OA.
  - cbn [ak2]. unfold sum2, paff, asum. destruct (KD (mk2 p x) (mk2 p x)) as [_|N]; [|destruct N; reflexivity].
    destruct (KD (mk2 p y +! mk2 p y') k0) as [_|N]; [reflexivity|]. exfalso. apply N. rewrite <- mk2_add by exact Hp. change k0 with (mk2 p zero2). apply (mk2_eq p). exact H.
  - destruct OA as [RX [RY _]], OB as [RX2 [RY2 _]]. cbn [ak2]. unfold sum2, paff, asum. destruct (KD (mk2 p x1) (mk2 p x2)) as [E|E].
    { exfalso. apply N. rewrite <- (red_res2 x1 RX), <- (red_res2 x2 RX2), <- !uz_mk2, E. reflexivity. }
    assert (M0 : mk2 p x2 -! mk2 p x1 <> k0). { intros Q. apply E. transitivity (mk2 p x2 -! (mk2 p x2 -! mk2 p x1)); [ring|]. rewrite Q. ring. }
    rewrite <- (div_uniq (mk2 p l) _ _ M0). 2:{ apply (mk2_eq p) in H. revert H. pushm. intros ->. reflexivity. }
    unfold chord. cbn [sp2]. unfold x3. rewrite <- !uz_mk2. f_equal; f_equal; pushm; reflexivity.
  - cbn [ak2]. unfold sum2, paff, asum. destruct (KD (mk2 p x) (mk2 p x)) as [_|N']; [|destruct N'; reflexivity].
    destruct (KD (mk2 p y +! mk2 p y) k0) as [E|E]. { exfalso. apply N. apply (mk2_eq p). rewrite mk2_add by exact Hp. exact E. }
    assert (Y0 : mk2 p y <> k0). { intros Y. apply E. rewrite Y. ring. }
    assert (M0 : (k1 +! k1) *! mk2 p y <> k0). { intros Q. destruct (KI _ _ Q) as [W|W]; [exact (K2 W)|contradiction]. }
    rewrite <- (div_uniq (mk2 p l) ((k1 +! k1) *! mk2 p y) ((k1 +! k1 +! k1) *! mk2 p x *! mk2 p x +! ka) M0).
    2:{ apply (mk2_eq p) in H. rewrite mk2_mul, scale_two, scale_three, mk2_mul in H by exact Hp. rewrite H. ring. }
    unfold chord. cbn [sp2]. unfold x3. rewrite <- !uz_mk2. f_equal; f_equal; pushm; reflexivity.
Qed.
Lemma group2 : cgroup PT pinf sum2 opp2 on2.
Proof.
  split.
  - exact I.
  - intros; apply (asum_on K k0 k1 (qadd p) (qmul p) (qsub p) (qopp p) (qdiv p) (qinv p) KF KD KI K2 ka kb kno2); assumption.
  - intros; apply (aneg_on K k0 k1 (qadd p) (qmul p) (qsub p) (qopp p) (qdiv p) (qinv p) KF ka kb); assumption.
  - intros; apply (asum_comm K k0 k1 (qadd p) (qmul p) (qsub p) (qopp p) (qdiv p) (qinv p) KF KD KI ka kb); assumption.
  - intros; apply (asum_assoc K k0 k1 (qadd p) (qmul p) (qsub p) (qopp p) (qdiv p) (qinv p) KF KD KI K2 ka kb kno2); assumption.
  - reflexivity.
  - intros; apply (asum_neg K k0 k1 (qadd p) (qmul p) (qsub p) (qopp p) (qdiv p) (qinv p) KF KD ka).
Qed.
Lemma rcb2_ok P Q A C : on2 A -> on2 C -> den2 P A -> den2 Q C -> den2 (rcb2 P Q) (sum2 A C).
Proof. exact (krcb_ok K k0 k1 (qadd p) (qmul p) (qsub p) (qopp p) (qdiv p) (qinv p) KF KD KI K2 ka kb kno2 P Q A C). Qed.
Definition dbl2f (P : kpt K) : kpt K :=
  let '(X1, Y1, Z1) := P in
  let two := k1 +! k1 in let three := two +! k1 in
  let d := Y1 *! Y1 -! three *! three *! kb *! Z1 *! Z1 in
  (two *! X1 *! Y1 *! d, d *! (Y1 *! Y1 +! three *! kb *! Z1 *! Z1) +! two *! two *! two *! three *! kb *! Y1 *! Y1 *! Z1 *! Z1, two *! two *! two *! Y1 *! Y1 *! Y1 *! Z1).
Lemma dbl2f_ok P A : on2 A -> den2 P A -> den2 (dbl2f P) (sum2 A A).
Proof.
  intros OA D. pose proof (krcb_dbl_0 K k0 k1 (qadd p) (qmul p) (qsub p) (qopp p) (qdiv p) (qinv p) KF ka kb P A eq_refl OA D) as E. pose proof (rcb2_ok P P A A OA OA D D) as R. destruct P as [[X1 Y1] Z1]. unfold rcb2 in R. rewrite E in R. exact R.
Qed.
(** scaling the projective coordinates *)
Lemma den_scale s X Y Z A : s <> k0 -> den2 (X, Y, Z) A -> den2 (s *! X, s *! Y, s *! Z) A.
Proof.
  intros Hs0. destruct A as [|x y]; unfold den2, kden.
  - intros [-> [-> NY]]. split; [ring|]. split; [ring|]. intros Q. destruct (KI _ _ Q); contradiction.
  - intros [NZ [-> ->]]. split; [intros Q; destruct (KI _ _ Q); contradiction|]. split; ring.
Qed.
Lemma neg_den X Y Z A : den2 (X, Y, Z) A -> den2 (X, qopp p Y, Z) (opp2 A).
Proof.
  destruct A as [|x y]; unfold den2, kden, opp2, aneg.
  - intros [-> [-> NY]]. split; [reflexivity|]. split; [reflexivity|]. intros Q. apply NY. transitivity (qopp p (qopp p Y)); [ring|]. rewrite Q. ring.
  - intros [NZ [-> ->]]. split; [exact NZ|]. split; ring.
Qed.
(** the specification's law *)
Lemma spec_iff A B C : on_e2 p b A -> on_e2 p b B -> (e2_sum p A B C <-> C = sp2 (sum2 (ak2 A) (ak2 B))).
Proof. intros OA OB. split; [apply sum_fun; assumption|]. intros ->. rewrite <- (sp_ak A OA) at 1. rewrite <- (sp_ak B OB) at 1. apply sum_ex; apply on_ak; assumption. Qed.
Lemma spec_on A B C : on_e2 p b A -> on_e2 p b B -> e2_sum p A B C -> on_e2 p b C.
Proof. intros OA OB H. rewrite (sum_fun A B C OA OB H). apply on_sp. apply (cg_add _ _ _ _ _ group2); apply on_ak; assumption. Qed.
Lemma spec_total A B : on_e2 p b A -> on_e2 p b B -> exists C, e2_sum p A B C /\ on_e2 p b C.
Proof. intros OA OB. exists (sp2 (sum2 (ak2 A) (ak2 B))). split; [apply spec_iff; auto|]. apply on_sp. apply (cg_add _ _ _ _ _ group2); apply on_ak; assumption. Qed.
Lemma spec_comm A B C : on_e2 p b A -> on_e2 p b B -> e2_sum p A B C -> e2_sum p B A C.
Proof. intros OA OB H. apply spec_iff in H; [|assumption|assumption]. apply spec_iff; [assumption|assumption|]. rewrite H. f_equal. apply (cg_comm _ _ _ _ _ group2); apply on_ak; assumption. Qed.
Lemma spec_neg_on A : on_e2 p b A -> on_e2 p b (e2_neg p A).
Proof. intros H. rewrite <- (sp_ak A H). rewrite neg_sp. apply on_sp. apply (cg_neg _ _ _ _ _ group2), on_ak, H. Qed.
Lemma spec_neg A : on_e2 p b A -> e2_sum p A (e2_neg p A) Inf2.
Proof. intros H. apply spec_iff; [exact H|apply spec_neg_on; exact H|]. rewrite (ak_neg A H). rewrite (cg_inv _ _ _ _ _ group2) by (apply on_ak; exact H). reflexivity. Qed.
Lemma spec_assoc A B C AB BC S : on_e2 p b A -> on_e2 p b B -> on_e2 p b C -> e2_sum p A B AB -> e2_sum p B C BC -> e2_sum p AB C S -> e2_sum p A BC S.
Proof.
  intros OA OB OC H1 H2 H3. pose proof (spec_on _ _ _ OA OB H1) as O1. pose proof (spec_on _ _ _ OB OC H2) as O2.
  apply spec_iff in H1; [|assumption|assumption]. apply spec_iff in H2; [|assumption|assumption]. apply spec_iff in H3; [|assumption|assumption].
  apply spec_iff; [assumption|assumption|]. rewrite H3, H1, H2, !ak_sp. f_equal. apply (cg_assoc _ _ _ _ _ group2); apply on_ak; assumption.
Qed.
(** multiples *)
Notation nt := (ntimes PT pinf sum2).
Lemma times_iff A n B : on_e2 p b A -> (e2_times p A n B <-> B = sp2 (nt n (ak2 A))).
Proof.
  intros OA. revert B. assert (ON : forall n, on2 (nt n (ak2 A))). { intros m. induction m as [|m IH]; cbn [ntimes]; [exact I|]. apply (cg_add _ _ _ _ _ group2); [exact IH|apply on_ak; exact OA]. }
  induction n as [|n IH]; intros B; cbn [ntimes].
  - split; [intros H; inversion H; reflexivity|]. intros ->. constructor.
  - split.
    + intros H. inversion H as [|n' B' C' H1 H2]; subst. apply IH in H1. subst B'. rewrite (sum_fun _ _ _ (on_sp _ (ON n)) OA H2), ak_sp. reflexivity.
    + intros ->. apply (et2_S p A n (sp2 (nt n (ak2 A)))); [apply IH; reflexivity|]. apply spec_iff; [apply on_sp, ON|exact OA|]. rewrite ak_sp. reflexivity.
Qed.
Lemma times_on A n B : on_e2 p b A -> e2_times p A n B -> on_e2 p b B.
Proof.
  intros OA H. apply times_iff in H; [|exact OA]. subst B. apply on_sp. induction n as [|n IH]; cbn [ntimes]; [exact I|]. apply (cg_add _ _ _ _ _ group2); [exact IH|apply on_ak; exact OA].
Qed.
End B2.
