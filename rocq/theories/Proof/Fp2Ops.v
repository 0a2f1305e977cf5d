(** FP2 operations on limbs compute in Z[i] modulo p. *)
From Verif Require Import Base.Word Model.Big Model.Roms Model.Fp Model.Fp2 Spec.BigSpec Spec.RomSpec Spec.FpSpec Spec.TowerSpec
  Proof.BigVal Proof.BigMod Proof.BigShift Proof.BigMonty Proof.BigMul Proof.FpBase Proof.FpRed Proof.FpOps Proof.FpPow Proof.FpExp Proof.FpIv Proof.NumTheory.

Lemma within_nth lo hi w : within lo hi w <-> forall i, (i < length w)%nat -> lo <= nth i w 0 <= hi.
Proof.
  unfold within. rewrite Forall_forall. split.
  - intros H i Hi. apply H. apply nth_In. exact Hi.
  - intros H x Hx. destruct (In_nth w x 0 Hx) as [i [Hi <-]]. apply H. exact Hi.
Qed.
Lemma add_nth c a b x : add c a b = Some x -> length a = length b -> length x = length a /\ forall i, (i < length a)%nat -> nth i x 0 = nth i a 0 + nth i b 0.
Proof. intros H L. apply (map2o_spec (fun x y => chk (CHUNK c) (x + y)) Z.add a b x); [|exact H|exact L]. intros s t z Q. apply chk_inv in Q. tauto. Qed.
Lemma sub_nth c a b x : sub c a b = Some x -> length a = length b -> length x = length a /\ forall i, (i < length a)%nat -> nth i x 0 = nth i a 0 - nth i b 0.
Proof. intros H L. apply (map2o_spec (fun x y => chk (CHUNK c) (x - y)) Z.sub a b x); [|exact H|exact L]. intros s t z Q. apply chk_inv in Q. tauto. Qed.

Definition rep2 (r : rom) (lo hi e : Z) (x : fp2) (v : Z2) : Prop := frep r lo hi e (f2a x) (fst v) /\ frep r lo hi e (f2b x) (snd v).

Section Fp2.
Variable r : rom.
Hypothesis Hf : fp_ok r.
Hypothesis Hs : special r = false.
Notation c := (r_cfg r).
Notation B := (BASEBITS (r_cfg r)).
Notation C := (CHUNK (r_cfg r)).
Notation N := (NLEN (r_cfg r)).
Notation X := (2 ^ BASEBITS (r_cfg r)).
Notation V := (val (BASEBITS (r_cfg r))).
Notation p := (pmod r).
Notation R := (bmax (r_cfg r)).
Notation SH := (2 ^ r_SH r).
Let FF := fp_ok_facts r Hf.
Let Hok : cfg_ok c. Proof. exact (ff_ok r FF). Qed.
Let F := cfg_ok_facts c Hok.
Let HB16 : 16 <= B. Proof. exact (cf_B c F). Qed.
Let HC : B + 3 <= C. Proof. exact (cf_C c F). Qed.
Let HX : 65536 <= X.
Proof. change 65536 with (2 ^ 16). apply pow2_le. lia. Qed.
Let HXC : 4 * X <= 2 ^ (C - 1).
Proof. change 4 with (2 ^ 2). rewrite <- Z.pow_add_r by lia. apply pow2_le. lia. Qed.
Let HM : 3 * X <= Mlim c. Proof. apply Mlim_ge; lia. Qed.
Let Hp0 : 0 < p := p_pos r Hf.
Let HSH : 32 <= SH := SH_pos r Hf.
Let HSp : SH * p < R := SHp_lt r Hf.
Let Hmg : 4 <= maxg r := maxg_ge r Hf.
Let HMX : MX r = FEXCESS r.
Proof. unfold MX. unfold special in Hs. destruct (r_MODTYPE r); try reflexivity; discriminate. Qed.

Lemma rep2_mono lo hi e lo' hi' e' x v : lo <= lo' -> hi <= hi' -> e <= e' -> rep2 r lo hi e x v -> rep2 r lo' hi' e' x v.
Proof. intros H1 H2 H3 [A D]. split; eapply frep_mono; try eassumption. Qed.
Lemma rep2_cong lo hi e x v v' : eq2 p v v' -> rep2 r lo hi e x v -> rep2 r lo hi e x v'.
Proof. intros [H1 H2] [A D]. split; eapply frep_cong; try eassumption. Qed.

Lemma add2_ok lo1 hi1 e1 lo2 hi2 e2 x y u v : 0 <= lo1 -> 0 <= lo2 -> 1 <= hi1 -> 1 <= hi2 -> hi1 + hi2 <= maxg r -> lo1 + lo2 <= maxg r ->
  (e1 + e2 <= FEXCESS r \/ lo1 + lo2 + 1 <= maxg r) -> rep2 r lo1 hi1 e1 x u -> rep2 r lo2 hi2 e2 y v ->
  exists z, fp2_add r x y = Some z /\ rep2 r (lo1 + lo2) (hi1 + hi2) (e1 + e2) z (add2 u v).
Proof.
  intros H1 H2 H3 H4 H5 H6 H7 [A1 A2] [B1 B2]. unfold fp2_add.
  destruct (iadd r Hf lo1 hi1 e1 lo2 hi2 e2 _ _ _ _ H1 H2 H3 H4 H5 H6 H7 A1 B1) as [a [E1 Q1]]. destruct (iadd r Hf lo1 hi1 e1 lo2 hi2 e2 _ _ _ _ H1 H2 H3 H4 H5 H6 H7 A2 B2) as [b [E2 Q2]].
  rewrite E1, E2. cbn [bind]. eexists. split; [reflexivity|]. split; assumption.
Qed.
Lemma dbl2_ok lo hi e x u : 0 <= lo -> 1 <= hi -> 2 * hi <= maxg r -> 2 * lo + 1 <= maxg r -> rep2 r lo hi e x u ->
  exists z, fp2_dbl r x = Some z /\ rep2 r (2 * lo) (2 * hi) (2 * e) z (add2 u u).
Proof.
  intros H1 H2 H3 H4 [A1 A2]. unfold fp2_dbl.
  destruct (idbl r Hf lo hi e _ _ H1 H2 H3 H4 A1) as [a [E1 Q1]]. destruct (idbl r Hf lo hi e _ _ H1 H2 H3 H4 A2) as [b [E2 Q2]].
  rewrite E1, E2. cbn [bind]. eexists. split; [reflexivity|]. unfold add2. replace (fst u + fst u) with (2 * fst u) by lia. replace (snd u + snd u) with (2 * snd u) by lia. split; assumption.
Qed.
(** negation: -(a+b)+b; the limbs are those of a multiple of p minus those of a *)
Lemma neg2_ok lo hi e x u : 0 <= lo -> 1 <= hi -> 2 * hi <= maxg r -> 2 * lo + 1 <= maxg r -> 9 * e <= FEXCESS r -> rep2 r lo hi e x u ->
  exists z, fp2_neg r x = Some z /\ rep2 r hi (lo + 1) (9 * e) z (neg2 u).
Proof.
  intros H1 H2 H3 H4 H5 [A1 A2]. unfold fp2_neg. pose proof (frep_e _ _ _ _ _ _ A1) as [X1 _]. pose proof (frep_e _ _ _ _ _ _ A2) as [X2 _].
  assert (Am : exists m, fp_add r (f2a x) (f2b x) = Some m /\ frep r (lo + lo) (hi + hi) (e + e) m (fst u + snd u) /\ add c (fx (f2a x)) (fx (f2b x)) = Some (fx m)).
  { destruct (iadd r Hf lo hi e lo hi e _ _ _ _ H1 H1 H2 H2 ltac:(lia) ltac:(lia) ltac:(lia) A1 A2) as [m [E1 Q1]]. exists m. split; [exact E1|]. split; [exact Q1|].
    unfold fp_add, bind in E1. destruct (add c _ _); [|discriminate]. destruct (chk _ _) eqn:Ec; [|discriminate]. apply chk_inv in Ec. destruct Ec as [-> _].
    unfold fp_over in E1. cbn [fxes] in E1. destruct (Z.ltb_spec (FEXCESS r) (fxes (f2a x) + fxes (f2b x))); [lia|]. inv E1. reflexivity. }
  destruct Am as [m [Em [Qm Lm]]]. rewrite Em. cbn [bind].
  destruct (neg_limbs r Hf (lo + lo) (hi + hi) (e + e) m (fst u + snd u) ltac:(lia) ltac:(lia) ltac:(lia) ltac:(lia) ltac:(left; lia) Qm) as [M [y [n [sb [LM [WM [SM [Hsb [S1 [S2 [En [_ [Fn Qn]]]]]]]]]]]]].
  specialize (Fn ltac:(lia)). rewrite En. cbn [bind].
  pose proof A1 as [[La Wa] _]. pose proof A2 as [[Lb Wb] _]. destruct (add_nth _ _ _ _ Lm ltac:(lia)) as [Lm1 Lm2].
  destruct (sub_nth _ _ _ _ SM ltac:(lia)) as [Ly1 Ly2]. assert (Ny : fx n = y) by (rewrite Fn; reflexivity). assert (Nx : fxes n = 2 ^ (sb + 1)) by (rewrite Fn; reflexivity).
  pose proof (frep_e _ _ _ _ _ _ Qm) as [Xm _]. pose proof (frep_e _ _ _ _ _ _ Qn) as [Xn _].
  assert (Hmm : fxes m = fxes (f2a x) + fxes (f2b x)).
  { unfold fp_add, bind in Em. rewrite Lm in Em. destruct (chk _ _) eqn:Ec; [|discriminate]. apply chk_inv in Ec. destruct Ec as [-> _].
    unfold fp_over in Em. cbn [fxes] in Em. destruct (Z.ltb_spec (FEXCESS r) (fxes (f2a x) + fxes (f2b x))); [lia|]. inv Em. reflexivity. }
  assert (K : forall s t us ut, frep r lo hi e s us -> frep r lo hi e t ut -> us + ut = fst u + snd u -> (forall i, (i < N)%nat -> nth i (fx m) 0 = nth i (fx s) 0 + nth i (fx t) 0) ->
    exists f, fp_add r n t = Some f /\ frep r hi (lo + 1) (9 * e) f (- us)).
  { intros s t us ut [[Ls Ws] _] Qt Hu Hn. pose proof Qt as [[Lt Wt] [Xt [Vt Dt]]]. pose proof Qn as [[Ln Wn] [Xn' [Vn Dn]]].
    unfold fp_add. rewrite Ny in *.
    assert (G : exists w, add c y (fx t) = Some w /\ lims r hi (lo + 1) w).
    { assert (Q : forall i, (i < N)%nat -> nth i y 0 + nth i (fx t) 0 = nth i M 0 - nth i (fx s) 0). { intros i Hi. rewrite Ly2 by lia. rewrite Hn by lia. lia. }
      assert (Q2 : forall i, (i < N)%nat -> - (hi * (X - 1)) <= nth i M 0 - nth i (fx s) 0 <= (lo + 1) * (X - 1)).
      { intros i Hi. rewrite within_nth in WM. specialize (WM i ltac:(lia)). unfold lims in Ws. rewrite within_nth in Ws. specialize (Ws i ltac:(lia)). lia. }
      pose proof (mgX r Hf hi ltac:(lia)) as M1. pose proof (mgX r Hf (lo + 1) ltac:(lia)) as M2.
      assert (T : forall a b, length a = length b -> (forall i, (i < length a)%nat -> - 2 ^ (C - 1) <= nth i a 0 + nth i b 0 < 2 ^ (C - 1)) -> exists w, add c a b = Some w).
      { clear. unfold add. induction a as [|s a IH]; intros [|t b] L H; cbn in L; try discriminate; [eexists; reflexivity|]. cbn [map2o].
        pose proof (H 0%nat ltac:(cbn; lia)) as H0. cbn [nth] in H0. rewrite chk_ok by lia. cbn [bind]. destruct (IH b ltac:(lia)) as [w Ew]; [intros i Hi; apply (H (S i)); cbn; lia|]. rewrite Ew. eexists. reflexivity. }
      destruct (T y (fx t)) as [w Ew]; [lia| |]. { intros i Hi. rewrite Q by lia. specialize (Q2 i ltac:(lia)). lia. }
      exists w. split; [exact Ew|]. destruct (add_nth _ _ _ _ Ew ltac:(lia)) as [Lw Nw]. unfold lims. rewrite within_nth. intros i Hi. rewrite Nw, Q by lia. apply Q2. lia. }
    destruct G as [w [Ew Ww]]. rewrite Ew. cbn [bind]. destruct (add_val c _ _ _ Ew ltac:(lia)) as [Vw Lw]. unfold FEXCESS in H5. pose proof (S31 r Hf) as H31. change (2 ^ (32 - 1)) with 2147483648 in *.
    rewrite Nx in *. rewrite chk_ok by (change (2 ^ (32 - 1)) with 2147483648; lia). cbn [bind]. unfold fp_over. cbn [fxes].
    destruct (Z.ltb_spec (FEXCESS r) (2 ^ (sb + 1) + fxes t)) as [L|L]; [unfold FEXCESS in L; lia|]. eexists. split; [reflexivity|].
    split; [split; [cbn [fx]; lia|exact Ww]|]. cbn [fx fxes]. split; [lia|]. split; [rewrite Vw; lia|].
    unfold den, bval in *. cbn [fx] in *. rewrite Ny in *. rewrite Vw. replace (- us) with (- (fst u + snd u) + ut) by lia. rewrite Z.mul_add_distr_r. apply cg_add; assumption. }
  destruct (K (f2a x) (f2b x) _ _ A1 A2 eq_refl) as [t [Et Qt]]; [intros i Hi; apply Lm2; lia|].
  destruct (K (f2b x) (f2a x) _ _ A2 A1 ltac:(lia)) as [b [Eb Qb]]; [intros i Hi; rewrite Lm2 by lia; lia|].
  rewrite Et, Eb. cbn [bind]. eexists. split; [reflexivity|]. split; assumption.
Qed.
Lemma sub2_ok lo1 hi1 e1 lo2 hi2 e2 x y u v : 0 <= lo1 -> 0 <= lo2 -> 1 <= hi1 -> 1 <= hi2 -> 2 * hi2 <= maxg r -> 2 * lo2 + 1 <= maxg r -> hi1 + lo2 + 1 <= maxg r -> lo1 + hi2 + 1 <= maxg r ->
  9 * e2 <= FEXCESS r -> rep2 r lo1 hi1 e1 x u -> rep2 r lo2 hi2 e2 y v ->
  exists z, fp2_sub r x y = Some z /\ rep2 r (lo1 + hi2) (hi1 + lo2 + 1) (e1 + 9 * e2) z (sub2 u v).
Proof.
  intros H1 H2 H3 H4 H5 H6 H7 H8 H9 HA HB. unfold fp2_sub. destruct (neg2_ok lo2 hi2 e2 y v H2 H4 H5 H6 H9 HB) as [m [E1 Q1]]. rewrite E1. cbn [bind].
  destruct (add2_ok lo1 hi1 e1 hi2 (lo2 + 1) (9 * e2) x m u (neg2 v)) as [z [E2 Q2]]; try lia; try assumption. exists z. split; [exact E2|].
  replace (hi1 + lo2 + 1) with (hi1 + (lo2 + 1)) by lia. replace (sub2 u v) with (add2 u (neg2 v)) by (unfold add2, neg2, sub2; cbn [fst snd]; f_equal; lia). exact Q2.
Qed.
Lemma rsub2_ok lo1 hi1 e1 lo2 hi2 e2 x y u v : 0 <= lo1 -> 0 <= lo2 -> 1 <= hi1 -> 1 <= hi2 -> 2 * hi1 <= maxg r -> 2 * lo1 + 1 <= maxg r -> lo1 + 1 + hi2 <= maxg r -> hi1 + lo2 + 1 <= maxg r ->
  9 * e1 <= FEXCESS r -> rep2 r lo1 hi1 e1 x u -> rep2 r lo2 hi2 e2 y v ->
  exists z, fp2_rsub r x y = Some z /\ rep2 r (hi1 + lo2) (lo1 + 1 + hi2) (9 * e1 + e2) z (sub2 v u).
Proof.
  intros H1 H2 H3 H4 H5 H6 H7 H8 H9 HA HB. unfold fp2_rsub. destruct (neg2_ok lo1 hi1 e1 x u H1 H3 H5 H6 H9 HA) as [m [E1 Q1]]. rewrite E1. cbn [bind].
  destruct (add2_ok hi1 (lo1 + 1) (9 * e1) lo2 hi2 e2 m y (neg2 u) v) as [z [E2 Q2]]; try lia; try assumption. exists z. split; [exact E2|].
  replace (sub2 v u) with (add2 (neg2 u) v) by (unfold add2, neg2, sub2; cbn [fst snd]; f_equal; lia). exact Q2.
Qed.
Lemma norm2_ok lo hi e x u : 0 <= lo -> 1 <= hi -> hi <= maxg r -> lo + 1 <= maxg r -> rep2 r lo hi e x u -> exists z, fp2_norm r x = Some z /\ rep2 r 0 1 e z u.
Proof.
  intros H1 H2 H3 H4 [A1 A2]. unfold fp2_norm. destruct (inorm r Hf _ _ _ _ _ H1 H2 H3 H4 A1) as [a [E1 Q1]]. destruct (inorm r Hf _ _ _ _ _ H1 H2 H3 H4 A2) as [b [E2 Q2]].
  rewrite E1, E2. cbn [bind]. eexists. split; [reflexivity|]. split; assumption.
Qed.
Lemma reduce2_ok lo hi e x u : 0 <= lo -> 1 <= hi -> hi <= maxg r -> lo + 1 <= maxg r -> rep2 r lo hi e x u -> exists z, fp2_reduce r x = Some z /\ rep2 r 0 1 1 z u.
Proof.
  intros H1 H2 H3 H4 [A1 A2]. unfold fp2_reduce. destruct (ireduce r Hf _ _ _ _ _ H1 H2 H3 H4 A1) as [a [E1 [Q1 _]]]. destruct (ireduce r Hf _ _ _ _ _ H1 H2 H3 H4 A2) as [b [E2 [Q2 _]]].
  rewrite E1, E2. cbn [bind]. eexists. split; [reflexivity|]. split; assumption.
Qed.
Lemma conj2_ok e x u : rep2 r 0 1 e x u -> exists z, fp2_conj r x = Some z /\ rep2 r 0 1 (4 * e) z (conj2 u).
Proof.
  intros [A1 A2]. unfold fp2_conj. pose proof (frep_e _ _ _ _ _ _ A1) as [X1 _]. do 2 fstep. eexists. split; [reflexivity|]. split; [cbn [f2a f2b fst snd conj2]; fmono|assumption].
Qed.
Lemma pmul2_ok e1 e2 x s u k : rep2 r 0 1 e1 x u -> frep r 0 1 e2 s k -> exists z, fp2_pmul r x s = Some z /\ rep2 r 0 1 2 z (scale2 k u).
Proof.
  intros [A1 A2] Hk. unfold fp2_pmul. do 2 fstep. eexists. split; [reflexivity|]. unfold scale2. rewrite !(Z.mul_comm k). split; assumption.
Qed.
Lemma sqr2_ok e x u : rep2 r 0 1 e x u -> exists z, fp2_sqr r x = Some z /\ rep2 r 0 1 2 z (mul2 u u).
Proof.
  intros [A1 A2]. unfold fp2_sqr. repeat fstep. eexists. split; [reflexivity|].
  split; cbn [f2a f2b fst snd mul2]; [replace (fst u * fst u - snd u * snd u) with ((fst u + - snd u) * (fst u + snd u)) by ring|replace (fst u * snd u + snd u * fst u) with (snd u * (fst u + fst u)) by ring]; assumption.
Qed.
Lemma div22_ok e x u w : rep2 r 0 1 e x u -> eq2 p (scale2 2 w) u -> exists z, fp2_div2 r x = Some z /\ rep2 r 0 1 e z w.
Proof.
  intros [A1 A2] [H1 H2]. unfold fp2_div2. destruct (idiv2 r Hf _ _ _ (fst w) A1 H1) as [a [E1 Q1]]. destruct (idiv2 r Hf _ _ _ (snd w) A2 H2) as [b [E2 Q2]].
  rewrite E1, E2. cbn [bind]. eexists. split; [reflexivity|]. split; assumption.
Qed.
Lemma times_i2_ok e x u : rep2 r 0 1 e x u -> exists z, fp2_times_i r x = Some z /\ rep2 r 1 1 (4 * e) z (mul2 i2 u).
Proof.
  intros [A1 A2]. unfold fp2_times_i. pose proof (frep_e _ _ _ _ _ _ A1) as [X1 _]. fstep.
  eexists. split; [reflexivity|]. unfold mul2, i2. cbn [fst snd]. replace (0 * fst u - 1 * snd u) with (- snd u) by ring. replace (0 * snd u + 1 * fst u) with (fst u) by ring.
  split; cbn [f2a f2b fst snd]; fmono.
Qed.
Lemma mul_ip2_ok e x u : rep2 r 0 1 e x u -> exists z, fp2_mul_ip r x = Some z /\ rep2 r 1 2 (5 * e) z (mul2 xi u).
Proof.
  intros [A1 A2]. unfold fp2_mul_ip. pose proof (frep_e _ _ _ _ _ _ A1) as [X1 _]. fstep. unfold fp2_add. cbn [f2a f2b]. do 2 fstep.
  eexists. split; [reflexivity|]. unfold mul2, xi. cbn [fst snd]. replace (1 * fst u - 1 * snd u) with (- snd u + fst u) by ring. replace (1 * snd u + 1 * fst u) with (fst u + snd u) by ring.
  split; cbn [f2a f2b fst snd]; fmono.
Qed.
Lemma div_ip2_ok lo hi e x u : 0 <= lo -> 1 <= hi -> hi <= maxg r -> lo + 1 <= maxg r -> rep2 r lo hi e x u -> exists z, fp2_div_ip2 r x = Some z /\ rep2 r 0 1 (5 * e) z (mul2 (1, -1) u).
Proof.
  intros H1 H2 H3 H4 HA. unfold fp2_div_ip2. destruct (norm2_ok _ _ _ _ _ H1 H2 H3 H4 HA) as [y [E1 [Q1 Q2]]]. rewrite E1. cbn [bind]. pose proof (frep_e _ _ _ _ _ _ Q1) as [X1 _].
  do 2 fstep. apply (norm2_ok 1 2 (5 * e)); try lia. unfold mul2. cbn [fst snd]. split; cbn [f2a f2b fst snd].
  - replace (1 * fst u - -1 * snd u) with (fst u + snd u) by ring. fmono.
  - replace (1 * snd u + -1 * fst u) with (snd u - fst u) by ring. fmono.
Qed.
Lemma spmt2_ok e x u : rep2 r 0 1 e x u -> exists z, fp2_spmt r x = Some z /\ rep2 r 1 2 (5 * e) z (fst u + snd u, fst u - snd u).
Proof.
  intros [Q1 Q2]. unfold fp2_spmt. pose proof (frep_e _ _ _ _ _ _ Q1) as [X1 _]. do 2 fstep.
  eexists. split; [reflexivity|]. split; cbn [f2a f2b fst snd]; fmono.
Qed.
Lemma iszilch2_ok lo hi e x u : 0 <= lo -> 1 <= hi -> hi <= maxg r -> lo + 1 <= maxg r -> rep2 r lo hi e x u -> fp2_iszilch r x = Some ((fst u mod p =? 0) && (snd u mod p =? 0)).
Proof.
  intros H1 H2 H3 H4 [A1 A2]. unfold fp2_iszilch. rewrite (iiszilch r Hf _ _ _ _ _ H1 H2 H3 H4 A1). cbn [bind]. destruct (fst u mod p =? 0); [|reflexivity].
  rewrite (iiszilch r Hf _ _ _ _ _ H1 H2 H3 H4 A2). reflexivity.
Qed.
Lemma equals2_ok lo hi e lo' hi' e' x y u v : 0 <= lo -> 1 <= hi -> hi <= maxg r -> lo + 1 <= maxg r -> 0 <= lo' -> 1 <= hi' -> hi' <= maxg r -> lo' + 1 <= maxg r ->
  rep2 r lo hi e x u -> rep2 r lo' hi' e' y v -> fp2_equals r x y = Some ((fst u mod p =? fst v mod p) && (snd u mod p =? snd v mod p)).
Proof.
  intros H1 H2 H3 H4 G1 G2 G3 G4 [A1 A2] [B1 B2]. unfold fp2_equals. rewrite (iequals r Hf _ _ _ _ _ _ _ _ _ _ H1 H2 H3 H4 G1 G2 G3 G4 A1 B1). cbn [bind]. destruct (_ =? _); [|reflexivity].
  rewrite (iequals r Hf _ _ _ _ _ _ _ _ _ _ H1 H2 H3 H4 G1 G2 G3 G4 A2 B2). reflexivity.
Qed.
(** inverse: conjugate times the (p-2)th power of the norm *)
Lemma inverse2_ok lo hi e x u : 0 <= lo -> 1 <= hi -> hi <= maxg r -> lo + 1 <= maxg r -> rep2 r lo hi e x u ->
  exists z, fp2_inverse r x = Some z /\ rep2 r 0 1 2 z (scale2 (norm2 u ^ (p - 2)) (conj2 u)).
Proof.
  intros H1 H2 H3 H4 HA. unfold fp2_inverse. destruct (norm2_ok _ _ _ _ _ H1 H2 H3 H4 HA) as [y [E1 [Q1 Q2]]]. rewrite E1. cbn [bind].
  repeat fstep. eexists. split; [reflexivity|]. unfold scale2, conj2, norm2. cbn [fst snd].
  set (n := (fst u * fst u + snd u * snd u) ^ (p - 2)) in *. split; cbn [f2a f2b fst snd]; [rewrite Z.mul_comm|replace (n * - snd u) with (snd u * - n) by ring]; assumption.
Qed.

(** ** multiplication: three double-length products, two reductions *)
Lemma modulo3 d : dbig_wf c d -> V d < 2 * (p * R) -> exists x, fp_modulo r d = Some x /\ big_wf c x /\ V x < 3 * p /\ (V x * R) mod p = V d mod p.
Proof.
  intros Hd Hlt. pose proof (ff_red r FF) as Hr. unfold rom_red in Hr. pose proof Hs as Hs'. unfold special in Hs'. unfold fp_modulo.
  destruct (r_MODTYPE r); try discriminate; [|contradiction]. destruct Hr as [_ [Hmc _]].
  assert (H2 : 3 * p < R). { assert (3 * p <= SH * p) by (apply Z.mul_le_mono_nonneg_r; lia). lia. }
  destruct (monty_spec c Hok (r_MODULUS r) d (r_MCONST r) (ff_wf r FF) Hd Hmc) as [x [q [R1 [R2 [R3 R4]]]]].
  { change (val B (r_MODULUS r)) with p. assert (3 * p * R <= R * R) by (apply Z.mul_le_mono_nonneg_r; lia). fold R. unfold bmax in *. lia. }
  change (val B (r_MODULUS r)) with p in R4. exists x. split; [exact R1|]. split; [exact R2|].
  change (2 ^ (B * Z.of_nat N)) with R in R3, R4. split.
  - assert (q * p <= R * p) by (apply Z.mul_le_mono_nonneg_r; lia). apply (Z.mul_lt_mono_pos_r R); lia.
  - rewrite R4. apply Z.mod_add. lia.
Qed.
Lemma fKR : fK r = R. Proof. unfold fK. rewrite Hs. reflexivity. Qed.
Lemma mod3_rep d w k : dbig_wf c d -> V d < 2 * (p * R) -> (k = 3 \/ k = 2 /\ V d < p * R) -> V d mod p = (w * R * R) mod p -> exists x, fp_modulo r d = Some x /\ frep r 0 1 k (mkfp x k) w.
Proof.
  intros Hd Hlt Hk Hw. assert (G : exists x, fp_modulo r d = Some x /\ big_wf c x /\ V x < k * p /\ (V x * R) mod p = V d mod p).
  { destruct Hk as [->|[-> Hk]]; [apply modulo3; assumption|]. apply (modulo_ns r Hf d Hs Hd Hk). }
  destruct G as [x [E1 [E2 [E3 E4]]]]. exists x. split; [exact E1|].
  pose proof (wf_range c Hok N x E2) as Rx. split; [split; [exact (proj1 E2)|]|].
  - exact (wf_graded r Hf x E2).
  - cbn [fx fxes]. split; [unfold FEXCESS; lia|]. split; [lia|]. unfold den, bval. cbn [fx]. rewrite fKR. apply (mod_cancel (V x) (w * R) R p Hp0); [rewrite <- fKR; apply gcd_K; exact Hf|]. congruence.
Qed.
Lemma norm_dbig w : length w = DNLEN c -> within (- (2 * (X - 1))) (2 * (X - 1)) w -> 0 <= V w < R * R -> exists d, norm c w = Some d /\ dbig_wf c d /\ V d = V w.
Proof.
  intros L W Hv. destruct (norm_total c ltac:(lia) HC w) as [d [M1 [M2 [M3 M4]]]]. { apply (within_small c _ _ _ W); lia. }
  exists d. split; [exact M1|]. split; [|exact M2]. split; [lia|]. apply (nrm_canon B d (DNLEN c)); [lia|exact M3|lia|]. rewrite M2.
  replace (2 ^ (B * Z.of_nat (DNLEN c))) with (R * R). exact Hv. unfold bmax, DNLEN. rewrite <- Z.pow_add_r by (apply Z.mul_nonneg_nonneg; lia). f_equal. lia.
Qed.
Lemma sum_wf x y kx ky : big_wf c x -> big_wf c y -> V x < kx * p -> V y < ky * p -> (kx + ky) * p <= R -> exists s t, add c x y = Some s /\ norm c s = Some t /\ big_wf c t /\ V t = V x + V y.
Proof.
  intros Wx Wy Hx Hy Hk. pose proof (wf_range c Hok N x Wx) as R1. pose proof (wf_range c Hok N y Wy) as R2.
  destruct (add_total c ltac:(lia) HC 0 (X - 1) 0 (X - 1) x y) as [s [E1 E2]]; [apply canon_within; exact (proj2 Wx)|apply canon_within; exact (proj2 Wy)|rewrite (proj1 Wx), (proj1 Wy); reflexivity|lia|lia|].
  destruct (add_val c _ _ _ E1) as [E3 E4]; [rewrite (proj1 Wx), (proj1 Wy); reflexivity|].
  destruct (norm_to_wf c Hok 2 s ltac:(lia) ltac:(lia)) as [t [T1 [T2 T3]]].
  - rewrite E4. exact (proj1 Wx).
  - eapply within_weaken; [exact E2|lia|lia].
  - rewrite E3. split; [lia|]. unfold bmax in *. lia.
  - exists s, t. split; [exact E1|]. split; [exact T1|]. split; [exact T3|]. rewrite T2. exact E3.
Qed.
Lemma mul2_ok e1 e2 x y u v : 4 * Z.min e2 (FEXCESS r) * p <= R -> rep2 r 0 1 e1 x u -> rep2 r 0 1 e2 y v -> exists z, fp2_mul r x y = Some z /\ rep2 r 0 1 3 z (mul2 u v).
Proof.
  intros He2 [A1 A2] [B1 B2]. unfold fp2_mul. pose proof (frep_e _ _ _ _ _ _ A1) as [Xa Ya]. pose proof (frep_e _ _ _ _ _ _ A2) as [Xb Yb]. pose proof (frep_e _ _ _ _ _ _ B1) as [Xc Yc]. pose proof (frep_e _ _ _ _ _ _ B2) as [Xd Yd].
  pose proof (S31 r Hf) as H31. change (2 ^ (32 - 1)) with 2147483648 in H31. unfold FEXCESS in *.
  rewrite !chk_ok by (change (2 ^ (32 - 1)) with 2147483648; lia). cbn [bind].
  assert (SS : 0 <= (fxes (f2a x) + fxes (f2b x)) * (fxes (f2a y) + fxes (f2b y)) <= (2 * SH) * (2 * SH)). { split; [apply Z.mul_nonneg_nonneg; lia|apply Z.mul_le_mono_nonneg; lia]. }
  assert (S2 : (2 * SH) * (2 * SH) <= 2147483648 * 2147483648) by (apply Z.mul_le_mono_nonneg; lia).
  rewrite chk_ok by (change (2 ^ (64 - 1)) with 9223372036854775808; lia). cbn [bind].
  set (sy := fxes (f2a y) + fxes (f2b y)) in *.
  assert (G : exists x1, (if SH - 1 <? (fxes (f2a x) + fxes (f2b x)) * sy then
      a <- (if 1 <? fxes (f2a x) then fp_reduce r (f2a x) else Some (f2a x)) ;; b <- (if 1 <? fxes (f2b x) then fp_reduce r (f2b x) else Some (f2b x)) ;; Some (mkfp2 a b) else Some x) = Some x1
    /\ rep2 r 0 1 e1 x1 u /\ (fxes (f2a x1) + fxes (f2b x1)) * sy * p <= R).
  { destruct (Z.ltb_spec (SH - 1) ((fxes (f2a x) + fxes (f2b x)) * sy)) as [L|L].
    - assert (K : forall f w, frep r 0 1 e1 f w -> exists f1, (if 1 <? fxes f then fp_reduce r f else Some f) = Some f1 /\ frep r 0 1 e1 f1 w /\ fxes f1 = 1).
      { intros f w Hfr. pose proof (frep_e _ _ _ _ _ _ Hfr) as [Q1 _]. destruct (Z.ltb_spec 1 (fxes f)) as [L1|L1].
        - destruct (ireduce r Hf 0 1 e1 f w ltac:(lia) ltac:(lia) ltac:(lia) ltac:(lia) Hfr) as [f1 [E1 [Q2 _]]]. exists f1. split; [exact E1|]. pose proof (frep_e _ _ _ _ _ _ Q2) as [Q3 _]. split; [|lia]. fmono.
        - exists f. split; [reflexivity|]. split; [exact Hfr|lia]. }
      destruct (K _ _ A1) as [fa [E1 [Q1 F1]]]. destruct (K _ _ A2) as [fb [E2 [Q2 F2]]]. rewrite E1, E2. cbn [bind]. eexists. split; [reflexivity|]. split; [split; assumption|]. cbn [f2a f2b]. rewrite F1, F2. eapply Z.le_trans; [|exact He2]. apply Z.mul_le_mono_nonneg_r; unfold sy; lia.
    - exists x. split; [reflexivity|]. split; [split; assumption|]. assert ((fxes (f2a x) + fxes (f2b x)) * sy * p <= SH * p) by (apply Z.mul_le_mono_nonneg_r; lia). lia. }
  destruct G as [x1 [Ex [[P1 P2] Hb]]]. rewrite Ex. cbn [bind]. clear Ex A1 A2 Xa Ya Xb Yb SS S2.
  pose proof P1 as [[La Wa] [Xa [Va Da]]]. pose proof P2 as [[Lb Wb] [Xb [Vb Db]]]. pose proof B1 as [[Lc Wc] [_ [Vc Dc]]]. pose proof B2 as [[Ld Wd] [_ [Vd Dd]]].
  set (xa := fx (f2a x1)) in *. set (xb := fx (f2b x1)) in *. set (ya := fx (f2a y)) in *. set (yb := fx (f2b y)) in *.
  assert (WFa : big_wf c xa) by (apply (graded_wf r Hf); assumption). assert (WFb : big_wf c xb) by (apply (graded_wf r Hf); assumption).
  assert (WFc : big_wf c ya) by (apply (graded_wf r Hf); assumption). assert (WFd : big_wf c yb) by (apply (graded_wf r Hf); assumption).
  destruct (mul_spec c Hok xa ya WFa WFc) as [pa [Ea [Wpa Vpa]]]. destruct (mul_spec c Hok xb yb WFb WFd) as [pb [Eb [Wpb Vpb]]]. rewrite Ea, Eb. cbn [bind].
  assert (Hkx : (fxes (f2a x1) + fxes (f2b x1)) * p <= R).
  { eapply Z.le_trans; [|exact Hb]. apply Z.mul_le_mono_nonneg_r; [lia|]. rewrite <- Z.mul_1_r at 1. apply Z.mul_le_mono_nonneg_l; unfold sy; lia. }
  assert (Hky : sy * p <= R).
  { eapply Z.le_trans; [|exact Hb]. apply Z.mul_le_mono_nonneg_r; [lia|]. rewrite <- Z.mul_1_l at 1. apply Z.mul_le_mono_nonneg_r; unfold sy; lia. }
  destruct (sum_wf xa xb (fxes (f2a x1)) (fxes (f2b x1)) WFa WFb ltac:(lia) ltac:(lia) Hkx) as [s1 [t1 [Es1 [Et1 [Wt1 Vt1]]]]]. rewrite Es1. cbn [bind]. rewrite Et1. cbn [bind].
  destruct (sum_wf ya yb (fxes (f2a y)) (fxes (f2b y)) WFc WFd ltac:(lia) ltac:(lia) Hky) as [s2 [t2 [Es2 [Et2 [Wt2 Vt2]]]]]. rewrite Es2. cbn [bind]. rewrite Et2. cbn [bind].
  destruct (mul_spec c Hok t1 t2 Wt1 Wt2) as [pe [Ee [Wpe Vpe]]]. rewrite Ee. cbn [bind]. rewrite Vt1, Vt2 in Vpe.
  (* sizes *)
  assert (Pe : V pe < p * R).
  { rewrite Vpe. set (k := fxes (f2a x1) + fxes (f2b x1)) in *.
    assert (T1 : (V xa + V xb) * (V ya + V yb) <= (k * p) * (V ya + V yb)) by (apply Z.mul_le_mono_nonneg_r; lia).
    assert (T2 : (k * p) * (V ya + V yb) < (k * p) * (sy * p)) by (apply Z.mul_lt_mono_pos_l; [apply Z.mul_pos_pos; lia|unfold sy; lia]).
    assert (T3 : p * (k * sy * p) <= p * R) by (apply Z.mul_le_mono_nonneg_l; lia).
    replace (k * p * (sy * p)) with (p * (k * sy * p)) in T2 by ring. lia. }
  assert (N1 : 0 <= V xa * V ya) by (apply Z.mul_nonneg_nonneg; lia). assert (N2 : 0 <= V xb * V yb) by (apply Z.mul_nonneg_nonneg; lia).
  assert (N3 : 0 <= V xa * V yb) by (apply Z.mul_nonneg_nonneg; lia). assert (N4 : 0 <= V xb * V ya) by (apply Z.mul_nonneg_nonneg; lia).
  assert (XX : (V xa + V xb) * (V ya + V yb) = V xa * V ya + V xb * V yb + (V xa * V yb + V xb * V ya)) by ring. rewrite XX in Vpe.
  assert (R3 : 3 * p < R). { assert (3 * p <= SH * p) by (apply Z.mul_le_mono_nonneg_r; lia). lia. }
  assert (RR : 3 * (p * R) <= R * R). { assert (3 * p * R <= R * R) by (apply Z.mul_le_mono_nonneg_r; lia). lia. }
  pose proof (canon_within c _ (proj2 Wpa)) as Ia. pose proof (canon_within c _ (proj2 Wpb)) as Ib. pose proof (canon_within c _ (proj2 Wpe)) as Ie. pose proof (proj1 Wpa) as LLa. pose proof (proj1 Wpb) as LLb. pose proof (proj1 Wpe) as LLe.
  destruct (add_total c ltac:(lia) HC _ _ _ _ pa pb Ia Ib ltac:(lia) ltac:(lia) ltac:(lia)) as [f [Ef If]]. rewrite Ef. cbn [bind]. destruct (add_val c _ _ _ Ef ltac:(lia)) as [Vf Lf].
  assert (Wu : within 0 (X - 1) (dbig_ucopy r (r_MODULUS r))).
  { apply Forall_app. split; [apply Forall_forall; intros z Hz; apply repeat_spec in Hz; lia|]. apply (canon_within c). exact (proj2 (ff_wf r FF)). }
  assert (Lu : length (dbig_ucopy r (r_MODULUS r)) = DNLEN c) by (unfold dbig_ucopy, DNLEN; rewrite app_length, repeat_length, (proj1 (ff_wf r FF)); lia).
  assert (Vu : V (dbig_ucopy r (r_MODULUS r)) = p * R).
  { unfold dbig_ucopy. rewrite val_app, repeat_length, val_repeat0 by lia. change (V (r_MODULUS r)) with p. unfold bmax. lia. }
  assert (Er : forall w z, rsub c w z = sub c z w). { unfold rsub, sub. clear. induction w as [|a w IH]; intros [|b z]; cbn [map2o]; try reflexivity. rewrite IH. reflexivity. }
  rewrite Er. destruct (sub_total c ltac:(lia) HC _ _ _ _ _ pb Wu Ib ltac:(lia) ltac:(lia) ltac:(lia)) as [b2 [Eb2 Ib2]]. rewrite Eb2. cbn [bind]. destruct (sub_val c _ _ _ Eb2 ltac:(lia)) as [Vb2 Lb2].
  destruct (add_total c ltac:(lia) HC _ _ _ _ pa b2 Ia Ib2 ltac:(lia) ltac:(lia) ltac:(lia)) as [a2 [Ea2 Ia2]]. rewrite Ea2. cbn [bind]. destruct (add_val c _ _ _ Ea2 ltac:(lia)) as [Va2 La2].
  destruct (norm_dbig a2) as [a3 [Ea3 [Wa3 Va3]]]; [lia|eapply within_weaken; [exact Ia2|lia|lia]|lia|]. rewrite Ea3. cbn [bind].
  destruct (sub_total c ltac:(lia) HC _ _ _ _ pe f Ie If ltac:(lia) ltac:(lia) ltac:(lia)) as [e3 [Ee3 Ie3]]. rewrite Ee3. cbn [bind]. destruct (sub_val c _ _ _ Ee3 ltac:(lia)) as [Ve3 Le3].
  destruct (norm_dbig e3) as [e4 [Ee4 [We4 Ve4]]]; [lia|eapply within_weaken; [exact Ie3|lia|lia]|lia|]. rewrite Ee4. cbn [bind].
  unfold den, bval in Da, Db, Dc, Dd. fold xa in Da. fold xb in Db. fold ya in Dc. fold yb in Dd. rewrite fKR in *.
  destruct (mod3_rep a3 (fst u * fst v - snd u * snd v) 3 Wa3 ltac:(lia) (or_introl eq_refl)) as [ra [Era Qra]].
  { rewrite Va3, Va2, Vb2, Vpa, Vpb, Vu. replace (V xa * V ya + (p * R - V xb * V yb)) with (V xa * V ya - V xb * V yb + R * p) by ring. rewrite Z.mod_add by lia.
    replace ((fst u * fst v - snd u * snd v) * R * R) with ((fst u * R) * (fst v * R) - (snd u * R) * (snd v * R)) by ring. apply cg_sub; apply cg_mul; assumption. }
  destruct (mod3_rep e4 (fst u * snd v + snd u * fst v) 2 We4 ltac:(lia)) as [rb [Erb Qrb]]; [right; split; [reflexivity|lia]| |].
  { rewrite Ve4, Ve3, Vf, Vpa, Vpb, Vpe. replace (V xa * V ya + V xb * V yb + (V xa * V yb + V xb * V ya) - (V xa * V ya + V xb * V yb)) with (V xa * V yb + V xb * V ya) by ring.
    replace ((fst u * snd v + snd u * fst v) * R * R) with ((fst u * R) * (snd v * R) + (snd u * R) * (fst v * R)) by ring. apply cg_add; apply cg_mul; assumption. }
  rewrite Era. cbn [bind]. rewrite Erb. cbn [bind]. eexists. split; [reflexivity|]. split; cbn [f2a f2b fst snd mul2]; [exact Qra|]. fmono.
Qed.
End Fp2.
