(** simplified_swu_fp2 on limbs. *)
From Verif Require Import Base.Word Model.Big Model.Roms Model.Fp Model.Fp2 Model.Sswu2 Spec.Bytes Spec.BigSpec Spec.RomSpec Spec.FpSpec Spec.TowerSpec Spec.SswuSpec Spec.Sswu2Spec
  Proof.NumTheory Proof.BigVal Proof.BigShift Proof.BigMod Proof.BigMul Proof.FpBase Proof.FpRed Proof.FpOps Proof.FpPow Proof.FpExp Proof.FpSqrt Proof.FpIv Proof.FpWide Proof.EcpCodec
  Proof.TowerRing Proof.Fp2Ops Proof.Fp2MulW Proof.Fp12Ops Proof.TowerInv Proof.SswuMath Proof.SswuFp Proof.Fp2Sqrt Proof.Sswu2Math.
From Coq Require Import Lia Znumtheory.

Section W.
Variable r : rom.
Hypothesis Hf : fp_ok r.
Hypothesis Hs : special r = false.
Notation c := (r_cfg r).
Notation X := (2 ^ BASEBITS (r_cfg r)).
Notation V := (val (BASEBITS (r_cfg r))).
Notation p := (pmod r).
Notation R := (bmax (r_cfg r)).
Hypothesis Hp : prime p.
Hypothesis H34 : p mod 4 = 3.
Hypothesis H8 : r_MOD8 r <> 5.
Hypothesis Hw : wide_ok c 2 2.
Hypothesis Hw1 : wide_ok c 2 1.
Hypothesis HX5 : (2 * 2 + 1) * X <= 2 ^ (CHUNK c - 1).
Hypothesis HFE : 45 <= FEXCESS r.
Hypothesis HR : 4 * 3 * p <= R.
Let Hp0 : 0 < p := p_pos r Hf.
Let Hmg : 4 <= maxg r := maxg_ge r Hf.
Let HX : 65536 <= X. Proof. change 65536 with (2 ^ 16). apply pow2_le. pose proof (cf_B _ (cfg_ok_facts _ (ff_ok r (fp_ok_facts r Hf)))). lia. Qed.
Notation "x == y" := (eq2 p x y) (at level 70).

Lemma mul2a e1 e2 x y u v : e2 <= 3 -> rep2 r 0 1 e1 x u -> rep2 r 0 1 e2 y v -> exists z, fp2_mul r x y = Some z /\ rep2 r 0 1 3 z (mul2 u v).
Proof.
  intros He Q1 Q2. apply (mul2_ok r Hf Hs e1 e2); [|exact Q1|exact Q2]. eapply Z.le_trans; [|exact HR]. apply Z.mul_le_mono_nonneg_r; lia.
Qed.
Lemma mul2b lo hi e1 e2 x y u v : 0 <= lo <= 2 -> 1 <= hi <= 2 -> e2 <= 3 -> rep2 r lo hi e1 x u -> rep2 r 0 1 e2 y v -> exists z, fp2_mul r x y = Some z /\ rep2 r 0 1 3 z (mul2 u v).
Proof.
  intros Hl Hh He Q1 Q2. apply (mul2w_ok r Hf Hs 2 Hw1 HX5 lo hi e1 e2); [lia|lia|lia|lia| |exact Q1|exact Q2]. eapply Z.le_trans; [|exact HR]. apply Z.mul_le_mono_nonneg_r; lia.
Qed.
Lemma gx2_ok Ao Bo A B e x v : rep2 r 0 1 2 Ao A -> rep2 r 0 1 2 Bo B -> e <= 3 -> rep2 r 0 1 e x v -> exists z, sswu2_gx r Ao Bo x = Some z /\ rep2 r 0 2 5 z (gx2 A B v).
Proof.
  intros QA QB He Q. unfold sswu2_gx. destruct (sqr2_ok r Hf Hs e x v Q) as [a [E Qa]]. rewrite E. cbn [bind]. clear E.
  destruct (add2_ok r Hf 0 1 2 0 1 2 a Ao _ _ ltac:(lia) ltac:(lia) ltac:(lia) ltac:(lia) ltac:(lia) ltac:(lia) ltac:(lia) Qa QA) as [b [E Qb]]. rewrite E. cbn [bind]. clear E.
  destruct (mul2b (0 + 0) (1 + 1) (2 + 2) e b x _ v ltac:(lia) ltac:(lia) He Qb Q) as [d [E Qd]]. rewrite E. cbn [bind]. clear E.
  destruct (add2_ok r Hf 0 1 3 0 1 2 d Bo _ _ ltac:(lia) ltac:(lia) ltac:(lia) ltac:(lia) ltac:(lia) ltac:(lia) ltac:(lia) Qd QB) as [z [E Qz]]. exists z. split; [exact E|].
  apply (rep2_cong r _ _ _ _ (add2 (mul2 (add2 (mul2 v v) A) v) B)); [|exact Qz]. unfold gx2. replace (mul2 (add2 (mul2 v v) A) v) with (add2 (mul2 (mul2 v v) v) (mul2 A v)) by ring. apply eq2_refl.
Qed.
(** sgn0 *)
Lemma sgn_total e f u : frep r 0 2 e f u -> exists b, fp_sgn0 r f = Some b.
Proof. intros H. unfold fp_sgn0. destruct (redcw r Hf Hs Hp e f u H) as [x [E _]]. rewrite E. eexists. reflexivity. Qed.
Lemma sgn2_total e f u : rep2 r 0 2 e f u -> exists b, fp2_sgn0 r f = Some b.
Proof.
  intros [Q1 Q2]. unfold fp2_sgn0. rewrite (iiszilch r Hf 0 2 e (f2a f) (fst u) ltac:(lia) ltac:(lia) ltac:(lia) ltac:(lia) Q1). cbn [bind]. destruct (fst u mod p =? 0); eapply sgn_total; eassumption.
Qed.
Lemma sgn2_ok e f u : rep2 r 0 1 e f u -> (~ u == zero2 \/ V (fx (f2b f)) < p) -> fp2_sgn0 r f = Some (sgn0_2 p u =? 1).
Proof.
  intros [Q1 Q2] Hc. unfold fp2_sgn0, sgn0_2. rewrite (iiszilch r Hf 0 1 e (f2a f) (fst u) ltac:(lia) ltac:(lia) ltac:(lia) ltac:(lia) Q1). cbn [bind]. destruct (Z.eqb_spec (fst u mod p) 0) as [Ez|Ez].
  - apply (sgn0_ok r Hf Hs e); [exact Q2|]. destruct Hc as [Hc|Hc]; [left|right; exact Hc]. intros K. apply Hc. split; cbn [zero2 fst snd]; rewrite Z.mod_0_l by lia; assumption.
  - apply (sgn0_ok r Hf Hs e); [exact Q1|]. left. exact Ez.
Qed.
Lemma sgn_range u : sgn0_2 p u = 0 \/ sgn0_2 p u = 1.
Proof. unfold sgn0_2, sgn0. destruct (fst u mod p =? 0); match goal with |- ?a mod 2 = 0 \/ _ => pose proof (Z.mod_pos_bound a 2 ltac:(lia)); lia end. Qed.
Lemma neg_mod a : a mod p <> 0 -> (- a) mod p = p - a mod p.
Proof. intros H. apply Z.mod_opp_l_nz; lia. Qed.
Lemma sgn_neg y : ~ y == zero2 -> sgn0_2 p (neg2 y) = 1 - sgn0_2 p y.
Proof.
  intros Hy. pose proof (p_odd r Hf Hp) as Ho. assert (K : forall a, a mod p <> 0 -> sgn0 p (- a) = 1 - sgn0 p a).
  { intros a Ha. unfold sgn0. rewrite neg_mod by exact Ha. rewrite !Zmod_odd. rewrite Z.odd_sub, Ho. destruct (Z.odd (a mod p)); reflexivity. }
  unfold sgn0_2, neg2. cbn [fst snd]. destruct (Z.eqb_spec (fst y mod p) 0) as [E|E].
  - rewrite (Z.mod_opp_l_z (fst y) p ltac:(lia) E). cbn [Z.eqb]. apply K. intros K2. apply Hy. split; cbn [zero2 fst snd]; rewrite Z.mod_0_l by lia; assumption.
  - destruct (Z.eqb_spec ((- fst y) mod p) 0) as [E2|E2]; [|apply K; exact E]. rewrite neg_mod in E2 by exact E. pose proof (Z.mod_pos_bound (fst y) p ltac:(lia)). lia.
Qed.

Variables Ao Bo Zo : fp2.
Variables A B Zc : Z2.
Hypothesis EA : SSWU_A2 r = Some Ao.
Hypothesis EB : SSWU_B2 r = Some Bo.
Hypothesis EZ : SSWU_Z2 r = Some Zo.
Hypothesis QA : rep2 r 0 1 2 Ao A.
Hypothesis QB : rep2 r 0 1 2 Bo B.
Hypothesis QZ : rep2 r 0 1 2 Zo Zc.
Hypothesis HA : norm2 A mod p <> 0.
Hypothesis HZ : (norm2 Zc ^ ((p - 1) / 2)) mod p = (-1) mod p.
(** at the exceptional u the candidate is a square, and not a real one *)
Hypothesis Hexc : is_sq p (norm2 (gx2 A B (mul2 B (inv0_2 p (mul2 Zc A))))) /\ snd (gx2 A B (mul2 B (inv0_2 p (mul2 Zc A)))) mod p <> 0.
Notation x1 := (sswu2_x1 p A B Zc).
Notation x2 := (sswu2_x2 p A B Zc).
Notation g := (gx2 A B).

(** the sign correction at the end *)
Lemma final e f u z (xo : fp2) w v : rep2 r 0 1 e f u -> (~ u == zero2 \/ V (fx (f2b f)) < p) -> rep2 r 0 2 5 z v -> forall y, (rep2 r 0 1 2 y w \/ (v == zero2 /\ w == zero2 /\ y = z)) -> mul2 w w == v ->
  exists yo Y, (su <- fp2_sgn0 r f ;; sy <- fp2_sgn0 r y ;; y <- (if negb (Bool.eqb su sy) then fp2_neg r y else Some y) ;; Some (xo, y)) = Some (xo, yo : fp2)
   /\ rep2 r 2 2 45 yo Y /\ mul2 Y Y == v /\ (Y == zero2 \/ sgn0_2 p Y = sgn0_2 p u).
Proof.
  intros Qu Hu Qz y Hy Hw2. rewrite (sgn2_ok e f u Qu Hu). cbn [bind].
  assert (Q2 : rep2 r 0 2 5 y w). { destruct Hy as [Hy|[Hv [Hw0 ->]]]; [apply (rep2_mono r Hf 0 1 2); [lia|lia|lia|exact Hy]|]. apply (rep2_cong r _ _ _ _ v); [|exact Qz]. eapply eq2_trans; [exact Hv|apply eq2_sym; exact Hw0]. }
  destruct (neg2_ok r Hf 0 2 5 y w ltac:(lia) ltac:(lia) ltac:(lia) ltac:(lia) ltac:(lia) Q2) as [ny [En Qn]].
  assert (Nn : mul2 (neg2 w) (neg2 w) == v) by (replace (mul2 (neg2 w) (neg2 w)) with (mul2 w w) by ring; exact Hw2).
  assert (D : w == zero2 \/ ~ w == zero2) by (unfold eq2; destruct (Z.eq_dec (fst w mod p) (fst zero2 mod p)); destruct (Z.eq_dec (snd w mod p) (snd zero2 mod p)); tauto).
  destruct D as [D|D].
  - destruct (sgn2_total 5 y w Q2) as [b Eb]. rewrite Eb. cbn [bind]. destruct (negb (Bool.eqb (sgn0_2 p u =? 1) b)).
    + rewrite En. cbn [bind]. exists ny, (neg2 w). split; [reflexivity|]. split; [apply (rep2_mono r Hf 2 (0 + 1) (9 * 5)); [lia|lia|lia|exact Qn]|]. split; [exact Nn|]. left.
      apply (eq2_neg p ltac:(lia)) in D. replace (neg2 zero2) with zero2 in D by ring. exact D.
    + cbn [bind]. exists y, w. split; [reflexivity|]. split; [apply (rep2_mono r Hf 0 2 5); [lia|lia|lia|exact Q2]|]. split; [exact Hw2|]. left; exact D.
  - destruct Hy as [Hy|[_ [Hy _]]]; [|contradiction]. rewrite (sgn2_ok 2 y w Hy (or_introl D)). cbn [bind]. pose proof (sgn_range u) as Ru. pose proof (sgn_range w) as Rw. pose proof (sgn_neg w D) as Sn.
    destruct (negb (Bool.eqb (sgn0_2 p u =? 1) (sgn0_2 p w =? 1))) eqn:Eb.
    + rewrite En. cbn [bind]. exists ny, (neg2 w). split; [reflexivity|]. split; [apply (rep2_mono r Hf 2 (0 + 1) (9 * 5)); [lia|lia|lia|exact Qn]|]. split; [exact Nn|]. right.
      rewrite Sn. destruct Ru as [Ru|Ru]; destruct Rw as [Rw|Rw]; rewrite Ru, Rw in *; try reflexivity; discriminate Eb.
    + cbn [bind]. exists y, w. split; [reflexivity|]. split; [apply (rep2_mono r Hf 0 2 5); [lia|lia|lia|exact Q2]|]. split; [exact Hw2|]. right.
      destruct Ru as [Ru|Ru]; destruct Rw as [Rw|Rw]; rewrite Ru, Rw in *; try reflexivity; discriminate Eb.
Qed.

Theorem sswu2_ok e f u : rep2 r 0 1 e f u -> (~ u == zero2 \/ V (fx (f2b f)) < p) ->
  (sswu2_bad p A B Zc u /\ simplified_swu_fp2 r f = None) \/
  (~ sswu2_bad p A B Zc u /\ exists x y X0 Y, simplified_swu_fp2 r f = Some (x, y) /\ rep2 r 0 1 3 x X0 /\ rep2 r 2 2 45 y Y /\ sswu2 p A B Zc u X0 Y).
Proof.
  intros Qu Hu. unfold simplified_swu_fp2. rewrite EA, EB, EZ. cbn [bind].
  destruct (sqr2_ok r Hf Hs e f u Qu) as [t0 [E Q0]]. rewrite E. cbn [bind]. clear E.
  destruct (mul2a _ 2 t0 Zo _ _ ltac:(lia) Q0 QZ) as [tm [E Qt]]. rewrite E. cbn [bind]. clear E Q0 t0.
  replace (mul2 (mul2 u u) Zc) with (zu2 Zc u) in Qt by (unfold zu2; ring).
  destruct (sqr2_ok r Hf Hs 3 tm _ Qt) as [a [E Qa]]. rewrite E. cbn [bind]. clear E.
  destruct (add2_ok r Hf 0 1 2 0 1 3 a tm _ _ ltac:(lia) ltac:(lia) ltac:(lia) ltac:(lia) ltac:(lia) ltac:(lia) ltac:(lia) Qa Qt) as [b [E Qb]]. rewrite E. cbn [bind]. clear E Qa a.
  destruct (inverse2_ok r Hf Hs (0 + 0) (1 + 1) (2 + 3) b _ ltac:(lia) ltac:(lia) ltac:(lia) ltac:(lia) Qb) as [tv [E Qv]]. rewrite E. cbn [bind]. clear E Qb b.
  match type of Qv with rep2 _ _ _ _ _ (scale2 (norm2 ?a ^ _) _) => fold (inv0_2 p a) in Qv end.
  set (tvv := inv0_2 p (add2 (mul2 (zu2 Zc u) (zu2 Zc u)) (zu2 Zc u))) in *.
  assert (ONE : exists o, fp2_new_ints r 1 0 = Some o /\ rep2 r 0 1 2 o one2).
  { unfold fp2_new_ints. destruct (inewint r Hf 1 ltac:(lia)) as [o1 [E1 Q1]]. destruct (inewint r Hf 0 ltac:(lia)) as [o2 [E2 Q2]]. rewrite E1, E2. cbn [bind]. eexists. split; [reflexivity|]. split; assumption. }
  destruct ONE as [o [E Qo]]. rewrite E. cbn [bind]. clear E.
  destruct (add2_ok r Hf 0 1 2 0 1 2 tv o _ _ ltac:(lia) ltac:(lia) ltac:(lia) ltac:(lia) ltac:(lia) ltac:(lia) ltac:(lia) Qv Qo) as [xa [E Qx]]. rewrite E. cbn [bind]. clear E Qo o.
  destruct (mul2b (0 + 0) (1 + 1) (2 + 2) 2 xa Bo _ _ ltac:(lia) ltac:(lia) ltac:(lia) Qx QB) as [xb [E Qxb]]. rewrite E. cbn [bind]. clear E Qx xa.
  destruct (neg2_ok r Hf 0 1 3 xb _ ltac:(lia) ltac:(lia) ltac:(lia) ltac:(lia) ltac:(lia) Qxb) as [xc [E Qxc]]. rewrite E. cbn [bind]. clear E Qxb xb.
  destruct (inverse2_ok r Hf Hs 0 1 2 Ao A ltac:(lia) ltac:(lia) ltac:(lia) ltac:(lia) QA) as [ai [E Qai]]. rewrite E. cbn [bind]. clear E. fold (inv0_2 p A) in Qai.
  destruct (mul2b 1 (0 + 1) (9 * 3) 2 xc ai _ _ ltac:(lia) ltac:(lia) ltac:(lia) Qxc Qai) as [xd [E Qxd]]. rewrite E. cbn [bind]. clear E Qxc xc.
  rewrite (iszilch2_ok r Hf 0 1 2 tv tvv ltac:(lia) ltac:(lia) ltac:(lia) ltac:(lia) Qv). cbn [bind]. fold (zero2b p tvv). clear Qv.
  match goal with |- context [bind (if zero2b p tvv then ?e1 else Some xd) ?k] => assert (XO : exists x, (if zero2b p tvv then e1 else Some xd) = Some x /\ rep2 r 0 1 3 x (x1 u)) end.
  { unfold sswu2_x1. cbv zeta. fold tvv. destruct (zero2b p tvv).
    - destruct (inverse2_ok r Hf Hs 0 1 2 Zo Zc ltac:(lia) ltac:(lia) ltac:(lia) ltac:(lia) QZ) as [zi [E Qzi]]. rewrite E. cbn [bind]. clear E. fold (inv0_2 p Zc) in Qzi.
      destruct (mul2a _ 2 zi Bo _ _ ltac:(lia) Qzi QB) as [zb [E Qzb]]. rewrite E. cbn [bind]. clear E. destruct (mul2a _ 2 zb ai _ _ ltac:(lia) Qzb Qai) as [za [E Qza]]. exists za. split; [exact E|].
      apply (rep2_cong r _ _ _ _ (mul2 (mul2 (inv0_2 p Zc) B) (inv0_2 p A))); [|exact Qza].
      replace (inv0_2 p (mul2 Zc A)) with (mul2 (inv0_2 p Zc) (inv0_2 p A)); [replace (mul2 (mul2 (inv0_2 p Zc) B) (inv0_2 p A)) with (mul2 B (mul2 (inv0_2 p Zc) (inv0_2 p A))) by ring; apply eq2_refl|].
      unfold inv0_2. rewrite norm2_mul, Z.pow_mul_l. generalize (norm2 Zc ^ (p - 2)) (norm2 A ^ (p - 2)). intros k1 k2. destruct Zc as [z1 z2]. destruct A as [a1 a2]. unfold mul2, scale2, conj2. cbn [fst snd]. f_equal; ring.
    - exists xd. split; [reflexivity|]. apply (rep2_cong r _ _ _ _ (mul2 (neg2 (mul2 (add2 tvv one2) B)) (inv0_2 p A))); [|exact Qxd].
      replace (mul2 (neg2 (mul2 (add2 tvv one2) B)) (inv0_2 p A)) with (mul2 (mul2 (neg2 B) (inv0_2 p A)) (add2 one2 tvv)) by ring. apply eq2_refl. }
  destruct XO as [x [E Qx]]. rewrite E. cbn [bind]. clear E Qxd xd Qai ai.
  destruct (gx2_ok Ao Bo A B 3 x (x1 u) QA QB ltac:(lia) Qx) as [go [E Qg]]. rewrite E. cbn [bind]. clear E.
  destruct (sqrt2_ok r Hf Hs Hp H34 H8 2 ltac:(lia) Hw Hw1 5 go (g (x1 u)) Qg) as [b1 [z1 [E [ST SF]]]]. rewrite E. cbn [bind fst snd]. clear E.
  destruct b1.
  - destruct (ST eq_refl) as [NR [w [Hwz Hwv]]]. cbn [bind fst snd]. right.
    assert (SQ : square2 p (g (x1 u))) by (exists w; exact Hwv).
    split; [intros [[_ K]|[K _]]; [exact (NR K)|exact (K SQ)]|].
    destruct (final e f u go x w (g (x1 u)) Qu Hu Qg z1 Hwz Hwv) as [yo [Y [E [QY [YY SY]]]]]. rewrite E. exists x, yo, (x1 u), Y. split; [reflexivity|]. split; [exact Qx|]. split; [exact QY|].
    split; [left; split; [exact SQ|apply eq2_refl]|]. split; [exact YY|exact SY].
  - destruct (SF eq_refl) as [_ SF']. clear ST SF z1.
    (* not the exceptional case *)
    assert (NE : zero2b p tvv = false).
    { destruct (zero2b p tvv) eqn:K; [|reflexivity]. exfalso. destruct Hexc as [H1 H2]. unfold sswu2_x1 in SF'. cbv zeta in SF'. fold tvv in SF'. rewrite K in SF'. destruct SF' as [SF'|[SF' _]]; [exact (SF' H1)|exact (H2 SF')]. }
    assert (N1 : norm2 (g (x1 u)) mod p <> 0).
    { intros K. destruct SF' as [SF'|[_ SF']]; apply SF'; exists 0; [rewrite K; apply Z.mod_0_l; lia|]. apply (norm_z p Hp H34 A Zc HA HZ) in K. destruct K as [K _]. symmetry. exact K. }
    destruct (gx_norm p Hp H34 A B Zc HA HZ u NE N1) as [GN N2].
    destruct (mul2a 3 3 x tm _ _ ltac:(lia) Qx Qt) as [x' [E Qx']]. rewrite E. cbn [bind]. clear E.
    apply (rep2_cong r _ _ _ _ _ (x2 u)) in Qx'; [|replace (mul2 (x1 u) (zu2 Zc u)) with (x2 u) by (unfold sswu2_x2; ring); apply eq2_refl].
    destruct (gx2_ok Ao Bo A B 3 x' (x2 u) QA QB ltac:(lia) Qx') as [go2 [E Qg2]]. rewrite E. cbn [bind]. clear E.
    destruct (sqrt2_ok r Hf Hs Hp H34 H8 2 ltac:(lia) Hw Hw1 5 go2 (g (x2 u)) Qg2) as [b2 [z2 [E [ST SF]]]]. rewrite E. cbn [bind fst snd]. clear E.
    destruct b2.
    + destruct (ST eq_refl) as [NR [w [Hwz Hwv]]]. cbn [bind fst snd]. right.
      assert (SQ : square2 p (g (x2 u))) by (exists w; exact Hwv). assert (NS : ~ square2 p (g (x1 u))).
      { intros K. apply (sq_norm p Hp H34) in K. apply GN in K. apply K. apply (sq_norm p Hp H34). exact SQ. }
      split; [intros [[K _]|[_ K]]; [exact (NS K)|exact (NR K)]|].
      destruct (final e f u go2 x' w (g (x2 u)) Qu Hu Qg2 z2 Hwz Hwv) as [yo [Y [E [QY [YY SY]]]]]. rewrite E. exists x', yo, (x2 u), Y. split; [reflexivity|]. split; [exact Qx'|]. split; [exact QY|].
      split; [right; split; [exact NS|apply eq2_refl]|]. split; [exact YY|exact SY].
    + left. split; [|reflexivity]. destruct (SF eq_refl) as [_ SF2]. destruct SF' as [SF'|SF'].
      * right. split; [intros K; apply SF'; apply (sq_norm p Hp H34); exact K|]. destruct SF2 as [SF2|SF2]; [|exact SF2]. exfalso. exact (SF' (proj2 GN SF2)).
      * left. split; [apply (real_square p Hp H34 A Zc HA HZ); exact (proj1 SF')|exact SF'].
Qed.
End W.
