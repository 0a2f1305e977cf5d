(** The G2 encodings of bls381/core.rs. *)
From Verif Require Import Base.Word Base.Arr Model.Big Model.Roms Model.Fp Model.Fp2 Model.Fp12 Model.Ecp Model.HashToCurve Model.Bls Model.Ecp2 Model.BlsG2
  Spec.Bytes Spec.BigSpec Spec.RomSpec Spec.FpSpec Spec.EcpSpec Spec.TowerSpec Spec.TowerRep Spec.BlsSpec Spec.Sswu2Spec Spec.G2Spec Spec.Ecp2Spec
  Proof.NumTheory Proof.BigVal Proof.BigBytes Proof.BigMod Proof.FpBase Proof.FpOps Proof.FpIv Proof.FpWide Proof.TowerRing Proof.TowerInv Proof.Fp2Ops Proof.Fp2Sqrt
  Proof.EcpCodec Proof.EcpCodec2 Proof.EcpCodec3 Proof.EcpInst Proof.BlsRoms Proof.BlsG1 Proof.BlsInst Proof.Sswu2Inst Proof.Ecp2Ops.
From Coq Require Import Lia Znumtheory.

Section G2.
Variable r : rom.
Hypothesis HR : In r bls_roms.
Notation c := (r_cfg r).
Notation p := (pmod r).
Notation V := (val (BASEBITS (r_cfg r))).
Notation FE := (FEXCESS r).
Notation N := (mbytes r).
Notation T := (256 ^ Z.of_nat (N - 1)).
Notation "x == y" := (eq2 p x y) (at level 70).
Notation b4 := ((4, 4) : Z2).
Notation gx := (g2x b4).

Let HR2 : In r fp2_roms. Proof. unfold fp2_roms. apply in_or_app. left. exact HR. Qed.
Let Hf : fp_ok r. Proof. exact (bls_fp_ok r HR). Qed.
Let Hs : special r = false. Proof. exact (bls_ns r HR). Qed.
Let Hp : prime p. Proof. exact (bls_prime r HR). Qed.
Let H34 : p mod 4 = 3. Proof. rewrite (bls_p r HR). vm_compute. reflexivity. Qed.
Let H8 : r_MOD8 r <> 5. Proof. destruct (f2_ok r HR2) as [_ [_ [_ [_ [H _]]]]]. exact H. Qed.
Let Hw1 : wide_ok c 1 1. Proof. destruct (f2_ok r HR2) as [_ [_ [_ [_ [_ H]]]]]. exact H. Qed.
Lemma g2_tower : tower_ok r.
Proof.
  assert (G : forall r, (negb (special r) && (16383 <=? FEXCESS r) && (4 * Z.min 524288 (FEXCESS r) * pmod r <=? bmax (r_cfg r)))%bool = true -> tower_ok r).
  { intros x H. rewrite !andb_true_iff, negb_true_iff, !Z.leb_le in H. unfold tower_ok. tauto. }
  destruct HR as [<-|[<-|[]]]; apply G; vm_compute; reflexivity.
Qed.
Lemma g2_FE : 9 * 1800 <= FE.
Proof. assert (G : forall r, (9 * 1800 <=? FEXCESS r) = true -> 9 * 1800 <= FEXCESS r) by (intros x H; apply Z.leb_le; exact H). destruct HR as [<-|[<-|[]]]; apply G; vm_compute; reflexivity. Qed.
Lemma g2_B : big_wf c (r_CURVE_B r).
Proof.
  assert (G : forall r, forallb (fun d => (0 <=? d) && (d <? 2 ^ BASEBITS (r_cfg r))) (r_CURVE_B r) && (length (r_CURVE_B r) =? NLEN (r_cfg r))%nat = true -> big_wf (r_cfg r) (r_CURVE_B r)).
  { intros x H2. apply andb_true_iff in H2. destruct H2 as [H2 H3]. apply Nat.eqb_eq in H3. split; [exact H3|]. rewrite forallb_forall in H2. apply Forall_forall. intros d Hd. specialize (H2 d Hd). apply andb_true_iff in H2. rewrite Z.leb_le, Z.ltb_lt in H2. exact H2. }
  destruct HR as [<-|[<-|[]]]; apply G; vm_compute; reflexivity.
Qed.
Lemma g2_bt : b4 == mul2 xi (k2 (cB r)).
Proof. destruct (bls_AB r HR) as [_ ->]. split; reflexivity. Qed.
Let HT := g2_tower.
Let HFE := g2_FE.
Let Hmg : 4 <= maxg r. Proof. exact (maxg_ge r Hf). Qed.
Let P3 : 3 < p. Proof. exact (p_gt3 r Hf). Qed.
Let pn : p <> 0. Proof. lia. Qed.
Let HN1 : (1 <= N)%nat. Proof. exact (bls_N1 r HR). Qed.
Let Hbits : p <= 2 ^ (8 * Z.of_nat N - 3). Proof. exact (bls_bits r HR). Qed.
Let Ho : Z.odd p = true. Proof. exact (p_odd r Hf Hp). Qed.
Let Hok : cfg_ok c. Proof. exact (ff_ok r (fp_ok_facts r Hf)). Qed.

(** *** pairs of residues *)
Lemma res_eq u v : res2 p u -> res2 p v -> u == v -> u = v.
Proof. intros [A B] [C D] [E F]. rewrite !Z.mod_small in E, F by assumption. destruct u, v. cbn [fst snd] in *. congruence. Qed.
Lemma red_eq u : red2 p u == u.
Proof. split; cbn [red2 fst snd]; apply Z.mod_mod; exact pn. Qed.
Lemma red_res u : res2 p (red2 p u).
Proof. split; cbn [red2 fst snd]; apply Z.mod_pos_bound; lia. Qed.
Lemma red_id u : res2 p u -> red2 p u = u.
Proof. intros [A B]. destruct u. unfold red2. cbn [fst snd] in *. rewrite !Z.mod_small by assumption. reflexivity. Qed.
Lemma red_cong u v : u == v -> red2 p u = red2 p v.
Proof. intros [A B]. unfold red2. congruence. Qed.
Lemma sq_two w y : mul2 w w == mul2 y y -> w == y \/ w == neg2 y.
Proof.
  intros E. destruct (Z.eq_dec (norm2 (sub2 w y) mod p) 0) as [D|D].
  - left. pose proof (norm2_zero p Hp _ H34 D) as Q. replace w with (add2 (sub2 w y) y) by (destruct w, y; unfold add2, sub2; cbn [fst snd]; f_equal; ring). eapply eq2_trans; [apply eq2_add; [exact pn|exact Q|apply eq2_refl]|]. replace (add2 zero2 y) with y by ring. apply eq2_refl.
  - right. assert (NZ : ~ sub2 w y == zero2). { intros [Q1 Q2]. apply D. unfold norm2. unfold zero2 in *. cbn [fst snd] in *. rewrite Z.add_mod, (Z.mul_mod (fst _)), (Z.mul_mod (snd _)), Q1, Q2 by lia. rewrite (Z.mod_0_l p) by lia. rewrite Z.mul_0_l, (Z.mod_0_l p) by lia. apply Z.mod_0_l. lia. }
    assert (Q : add2 w y == zero2).
    { apply (cancel2 r Hf Hp H34) with (z := sub2 w y); [exact NZ|]. replace (mul2 (add2 w y) (sub2 w y)) with (add2 (mul2 w w) (neg2 (mul2 y y))) by (destruct w, y; unfold mul2, add2, sub2, neg2; cbn [fst snd]; f_equal; ring).
      eapply eq2_trans; [apply eq2_add; [exact pn|exact E|apply eq2_refl]|]. replace (add2 (mul2 y y) (neg2 (mul2 y y))) with zero2 by ring. replace (mul2 zero2 (sub2 w y)) with zero2 by ring. apply eq2_refl. }
    replace w with (add2 (add2 w y) (neg2 y)) by (destruct w, y; unfold add2, neg2; cbn [fst snd]; f_equal; ring). eapply eq2_trans; [apply eq2_add; [exact pn|exact Q|apply eq2_refl]|]. replace (add2 zero2 (neg2 y)) with (neg2 y) by ring. apply eq2_refl.
Qed.
Lemma neg_neg y : res2 p y -> red2 p (neg2 (red2 p (neg2 y))) = y.
Proof.
  intros H. apply res_eq; [apply red_res|exact H|]. eapply eq2_trans; [apply red_eq|]. eapply eq2_trans; [apply eq2_neg; [exact pn|apply red_eq]|]. replace (neg2 (neg2 y)) with y by ring. apply eq2_refl.
Qed.
Lemma oppm a : 0 <= a < p -> (- a) mod p = if a =? 0 then 0 else p - a.
Proof. intros H. destruct (Z.eqb_spec a 0) as [->|E]; [apply Z.mod_0_l; lia|]. apply (opp_mod r HN1). lia. Qed.
Lemma larger2_neg y : res2 p y -> y <> zero2 -> larger2 p (red2 p (neg2 y)) = negb (larger2 p y).
Proof.
  intros H NZ. pose proof (neg_neg y H) as E. unfold larger2. rewrite E. destruct y as [a b]. destruct H as [Ha Hb]. unfold red2, neg2. cbn [fst snd] in *. rewrite (oppm a Ha), (oppm b Hb).
  assert (OO : forall t, p <> 2 * t) by (intros t Q; rewrite Q, Z.odd_mul in Ho; discriminate).
  destruct (Z.eqb_spec b 0) as [->|B0].
  - rewrite Z.eqb_refl. change (0 <? 0) with false. cbn [orb andb]. destruct (Z.eqb_spec a 0) as [->|A0]; [contradiction NZ; reflexivity|]. pose proof (OO a). destruct (Z.ltb_spec a (p - a)); destruct (Z.ltb_spec (p - a) a); try reflexivity; lia.
  - pose proof (OO b). destruct (Z.ltb_spec b (p - b)); destruct (Z.ltb_spec (p - b) b); cbn [orb]; try lia; destruct (Z.eqb_spec b (p - b)); destruct (Z.eqb_spec (p - b) b); try lia; reflexivity.
Qed.
(** objects and points *)
Lemma point_of e P x w : rep3 r e P x w one2 -> res2 p x -> mul2 w w == gx x -> e2_point r b4 e P (Aff2 x (red2 p w)).
Proof.
  intros [A [B C]] Hx E. split.
  - split; [exact Hx|]. split; [apply red_res|]. eapply eq2_trans; [apply eq2_mul; [exact pn|apply red_eq|apply red_eq]|]. exact E.
  - exists x, w, one2. split; [apply el2_rep; [exact Hf|exact A]|]. split; [apply el2_rep; [exact Hf|exact B]|]. split; [apply el2_rep; [exact Hf|exact C]|]. split; [exact (one_nz r Hf Hp)|]. split.
    + replace (mul2 x one2) with x by ring. apply eq2_refl.
    + replace (mul2 (red2 p w) one2) with (red2 p w) by ring. apply red_eq.
Qed.
Lemma point_inf e P : rep3 r e P zero2 one2 zero2 -> e2_point r b4 e P Inf2.
Proof.
  intros [A [B C]]. split; [exact I|]. exists zero2, one2, zero2. split; [apply el2_rep; [exact Hf|exact A]|]. split; [apply el2_rep; [exact Hf|exact B]|]. split; [apply el2_rep; [exact Hf|exact C]|]. split; [apply eq2_refl|]. split; [apply eq2_refl|exact (one_nz r Hf Hp)].
Qed.
Lemma point_mono e e' P A : e <= e' -> e2_point r b4 e P A -> e2_point r b4 e' P A.
Proof.
  intros L [O [X0 [Y0 [Z0 [H1 [H2 [H3 H4]]]]]]]. split; [exact O|]. exists X0, Y0, Z0.
  assert (K : forall f v, el2 r e f v -> el2 r e' f v) by (intros f v [[K1 K2] [K3 K4]]; repeat split; try lia; try apply K1; try apply K3).
  split; [apply K; exact H1|]. split; [apply K; exact H2|]. split; [apply K; exact H3|exact H4].
Qed.
Lemma is_inf_false e P x y : e2_point r b4 e P (Aff2 x y) -> ecp2_is_infinity r P = Some false.
Proof.
  intros [_ [X0 [Y0 [Z0 [H1 [H2 [H3 [H4 _]]]]]]]]. rewrite (is_inf2_ok r Hf e P X0 Y0 Z0).
  - f_equal. apply andb_false_iff. right. destruct (eqb2 r Z0 zero2) eqn:E; [|reflexivity]. apply eqb2_iff in E. contradiction.
  - split; [apply el2_rep; assumption|]. split; apply el2_rep; assumption.
Qed.
Lemma is_inf_true e P : e2_point r b4 e P Inf2 -> ecp2_is_infinity r P = Some true.
Proof.
  intros [_ [X0 [Y0 [Z0 [H1 [H2 [H3 [H4 [H5 _]]]]]]]]]. rewrite (is_inf2_ok r Hf e P X0 Y0 Z0).
  - f_equal. apply andb_true_iff. split; apply eqb2_iff; assumption.
  - split; [apply el2_rep; assumption|]. split; apply el2_rep; assumption.
Qed.
(** affine coordinates of an object *)
Lemma aff_coords e P x y : 2 <= e -> e2_point r b4 e P (Aff2 x y) ->
  exists W, ecp2_affine r P = Some W /\ rep3 r e W x y one2 /\ ((el2 r FE (z2 P) one2 /\ W = P) \/ (rep2 r 0 1 1 (x2 W) x /\ rep2 r 0 1 1 (y2 W) y)).
Proof.
  intros He [O [X0 [Y0 [Z0 [H1 [H2 [H3 [H4 [H5 H6]]]]]]]]]. pose proof (proj1 (el2_rep r Hf _ _ _) H1) as R1. pose proof (proj1 (el2_rep r Hf _ _ _) H2) as R2. pose proof (proj1 (el2_rep r Hf _ _ _) H3) as R3.
  destruct (aff2_ok r Hf Hs Hp H34 HT e P X0 Y0 Z0 He (conj R1 (conj R2 R3)) H4) as [W [W1 [x' [y' [W2 [W3 [W4 W5]]]]]]]. exists W. split; [exact W1|].
  assert (EX : x' == x) by (apply (cancel2 r Hf Hp H34) with (z := Z0); [exact H4|]; eapply eq2_trans; [exact W2|apply eq2_sym; exact H5]).
  assert (EY : y' == y) by (apply (cancel2 r Hf Hp H34) with (z := Z0); [exact H4|]; eapply eq2_trans; [exact W3|apply eq2_sym; exact H6]).
  destruct W4 as [Q1 [Q2 Q3]]. split.
  - split; [eapply rep2_cong; [exact EX|exact Q1]|]. split; [eapply rep2_cong; [exact EY|exact Q2]|exact Q3].
  - destruct W5 as [[Z1 ->]|[_ [S1 S2]]]; [left|right; split; eapply rep2_cong; eassumption]. split; [|reflexivity]. apply (el2_rep r Hf). destruct Q3 as [Qa Qb]. split; [exact (frep_up r _ _ _ Qa)|exact (frep_up r _ _ _ Qb)].
Qed.
Lemma redc_comp e f u v : frep r 0 1 e f u -> u mod p = v -> (V (fx f) < p \/ v <> 0) -> exists w, fp_redc r f = Some w /\ big_wf c w /\ bval c w = v.
Proof.
  intros H E D. destruct (redc_any r Hf e f u H) as [w [R1 [R2 [_ [R4 R5]]]]]. exists w. split; [exact R1|]. split; [exact R2|]. unfold bval. destruct D as [D|D]; [rewrite (R4 D); exact E|]. rewrite (R5 Hs) by (rewrite E; exact D). exact E.
Qed.
Lemma write_comp P W f e f' v : (el2 r FE (z2 P) one2 /\ W = P \/ V (fx f') < p) -> frep r 0 1 e f' v -> 0 <= v < p -> comp_writable r P f v -> (W = P -> f' = f) ->
  exists w, fp_redc r f' = Some w /\ big_wf c w /\ bval c w = v.
Proof.
  intros D H Rv CW E. apply (redc_comp e f' v v H (Z.mod_small _ _ Rv)). destruct D as [[D1 D2]|D]; [|left; exact D]. destruct CW as [CW|[CW|CW]]; [contradiction|left; rewrite (E D2); exact CW|right; exact CW].
Qed.
Lemma getx_w e P x y : 2 <= e -> e2_point r b4 e P (Aff2 x y) -> x_writable2 r P x ->
  exists X0 xa xb, ecp2_getx r P = Some X0 /\ fp2_geta r X0 = Some xa /\ fp2_getb r X0 = Some xb /\ big_wf c xa /\ big_wf c xb /\ bval c xa = fst x /\ bval c xb = snd x.
Proof.
  intros He H [CA CB]. destruct (aff_coords e P x y He H) as [W [W1 [[Wx _] W3]]]. destruct H as [[[Hx1 Hx2] _] _]. unfold ecp2_getx. rewrite W1. cbn [bind]. exists (x2 W).
  destruct (write_comp P W (f2a (x2 P)) e (f2a (x2 W)) (fst x)) as [xa [A1 [A2 A3]]]; [|exact (proj1 Wx)|exact Hx1|exact CA|intros ->; reflexivity|].
  { destruct W3 as [W3|[[W3 _] _]]; [left; exact W3|right; exact (V_of1 r _ _ W3)]. }
  destruct (write_comp P W (f2b (x2 P)) e (f2b (x2 W)) (snd x)) as [xb [B1 [B2 B3]]]; [|exact (proj2 Wx)|exact Hx2|exact CB|intros ->; reflexivity|].
  { destruct W3 as [W3|[[_ W3] _]]; [left; exact W3|right; exact (V_of1 r _ _ W3)]. }
  exists xa, xb. repeat split; auto; apply A2 || apply B2.
Qed.
Lemma gety_w e P x y : 2 <= e -> e2_point r b4 e P (Aff2 x y) -> y_writable2 r P y ->
  exists X0 xa xb, ecp2_gety r P = Some X0 /\ fp2_geta r X0 = Some xa /\ fp2_getb r X0 = Some xb /\ big_wf c xa /\ big_wf c xb /\ bval c xa = fst y /\ bval c xb = snd y.
Proof.
  intros He H [CA CB]. destruct (aff_coords e P x y He H) as [W [W1 [[_ [Wy _]] W3]]]. destruct H as [[_ [[Hy1 Hy2] _]] _]. unfold ecp2_gety. rewrite W1. cbn [bind]. exists (y2 W).
  destruct (write_comp P W (f2a (y2 P)) e (f2a (y2 W)) (fst y)) as [xa [A1 [A2 A3]]]; [|exact (proj1 Wy)|exact Hy1|exact CA|intros ->; reflexivity|].
  { destruct W3 as [W3|[_ [W3 _]]]; [left; exact W3|right; exact (V_of1 r _ _ W3)]. }
  destruct (write_comp P W (f2b (y2 P)) e (f2b (y2 W)) (snd y)) as [xb [B1 [B2 B3]]]; [|exact (proj2 Wy)|exact Hy2|exact CB|intros ->; reflexivity|].
  { destruct W3 as [W3|[_ [_ W3]]]; [left; exact W3|right; exact (V_of1 r _ _ W3)]. }
  exists xa, xb. repeat split; auto; apply A2 || apply B2.
Qed.
Lemma gety_ok e P x y : 2 <= e -> e2_point r b4 e P (Aff2 x y) -> exists Y0, ecp2_gety r P = Some Y0 /\ rep2 r 0 1 e Y0 y.
Proof.
  intros He H. destruct (aff_coords e P x y He H) as [W [W1 [[_ [Wy _]] _]]]. unfold ecp2_gety. rewrite W1. cbn [bind]. exists (y2 W). auto.
Qed.
(** the comparison of y with -y *)
Lemma comp0 a b : big_wf c a -> big_wf c b -> comp a b = 0 -> bval c a = bval c b.
Proof.
  intros [L W] [L2 W2]. rewrite (comp_spec c); [|pose proof (cf_B _ (cfg_ok_facts _ Hok)); lia|apply canon_nrm; exact W|apply canon_nrm; exact W2|congruence]. unfold bval. destruct (Z.compare_spec (V a) (V b)) as [E|E|E]; [auto|discriminate|discriminate].
Qed.
Lemma up11 e f u : frep r 0 1 e f u -> frep r 1 1 e f u.
Proof. apply (frep_mono r Hf); lia. Qed.
Lemma cmp_total e e' Y0 Y1 u v : rep2 r 1 1 e Y0 u -> rep2 r 1 1 e' Y1 v -> exists k, zcash_cmp_fp2 r Y0 Y1 = Some k.
Proof.
  intros [A1 A2] [B1 B2]. unfold zcash_cmp_fp2, fp2_geta, fp2_getb. destruct (redcn r Hf Hs Hp _ _ _ A2) as [a [-> _]]. destruct (redcn r Hf Hs Hp _ _ _ B2) as [b [-> _]]. cbn [bind]. destruct (comp a b =? 0); [|eauto].
  destruct (redcn r Hf Hs Hp _ _ _ A1) as [a' [-> _]]. destruct (redcn r Hf Hs Hp _ _ _ B1) as [b' [-> _]]. cbn [bind]. eauto.
Qed.
Lemma cmp_ok e e' Y0 Y1 y : rep2 r 0 1 e Y0 y -> rep2 r 1 1 e' Y1 (neg2 y) -> res2 p (red2 p y) -> snd y mod p <> 0 -> exists k, zcash_cmp_fp2 r Y0 Y1 = Some k /\ (0 <? k) = larger2 p (red2 p y).
Proof.
  intros [A1 A2] [B1 B2] _ NZ. unfold zcash_cmp_fp2, fp2_geta, fp2_getb. destruct (redcn r Hf Hs Hp _ _ _ (up11 _ _ _ A2)) as [a [-> [Wa [_ Va]]]]. destruct (redcn r Hf Hs Hp _ _ _ B2) as [b [-> [Wb [_ Vb]]]]. cbn [bind].
  specialize (Va NZ). pose proof (Z.mod_pos_bound (snd y) p ltac:(lia)) as R. set (s := snd y mod p) in *.
  assert (NS : (- snd y) mod p = p - s). { unfold s. rewrite (Z.mod_opp_l_nz (snd y) p pn NZ). reflexivity. }
  cbn [neg2 snd] in Vb. rewrite NS in Vb. specialize (Vb ltac:(lia)).
  assert (OO : p <> 2 * s) by (intros Q; rewrite Q, Z.odd_mul in Ho; discriminate).
  assert (K : larger2 p (red2 p y) = (p - s <? s)).
  { unfold larger2. cbn [red2 neg2 fst snd]. fold s. rewrite (oppm s) by lia. destruct (Z.eqb_spec s 0); [lia|]. destruct (Z.eqb_spec (p - s) s); [lia|]. cbn [andb]. apply orb_false_r. }
  destruct (Z.eqb_spec (comp a b) 0) as [E|E].
  - apply comp0 in E; [|exact Wa|exact Wb]. unfold bval in E. lia.
  - eexists. split; [reflexivity|]. rewrite K, (comp_gt r (bls_w r HR) a b Wa Wb). unfold bval. rewrite Va, Vb. reflexivity.
Qed.

(** *** the byte strings *)
Notation C2 := (compress2 p N).
Notation P2 := (plain2 N).
Lemma cinf2 : C2 Inf2 = (128 + 64) :: repeat 0 (2 * N - 1).
Proof.
  unfold compress2, bit_compressed, bit_infinity. pose proof (cinf r HN1 Hbits) as E. unfold compress1, bit_compressed, bit_infinity in E. rewrite E. cbn [app]. change (128 + 64) with (64 + 128). f_equal. rewrite <- repeat_app. f_equal. lia.
Qed.
Lemma pinf2 : P2 Inf2 = 64 :: repeat 0 (4 * N - 1).
Proof.
  pose proof (pinf r HN1 Hbits) as E. unfold plain1 in E. unfold plain2. replace (3 * N)%nat with (N + 2 * N)%nat by lia. rewrite repeat_app, app_assoc, E. cbn [app]. f_equal. rewrite <- repeat_app. f_equal. lia.
Qed.
Lemma caff2 x y : res2 p x -> C2 (Aff2 x y) = (snd x / T + (if larger2 p y then 32 else 0) + 128) :: i2osp (snd x) (N - 1) ++ i2osp (fst x) N.
Proof.
  intros [_ H]. unfold compress2, bit_compressed, bit_y. destruct (flag_head r HN1 Hbits (if larger2 p y then 5 else 4) (snd x) ltac:(destruct (larger2 p y); lia) ltac:(lia)) as [E _].
  replace (snd x / T + (if larger2 p y then 32 else 0) + 128) with (32 * (if larger2 p y then 5 else 4) + snd x / T) by (destruct (larger2 p y); lia). rewrite app_comm_cons. f_equal. rewrite <- E. f_equal. rewrite (T_pow r HN1 1), (T_pow r HN1 3) by lia. change (2 ^ (8 - 1)) with 128. change (2 ^ (8 - 3)) with 32. destruct (larger2 p y); ring.
Qed.
Theorem serialize2_ok bd e P A : 2 <= e <= 1800 -> e2_point r b4 e P A -> (forall x y, A = Aff2 x y -> x_writable2 r P x /\ snd y <> 0) -> serialize_g2 r bd P = Some (C2 A).
Proof.
  intros He H HW. unfold serialize_g2. change (Bls.mb r) with N. destruct A as [|x y].
  - rewrite (is_inf_true e P H). cbn [bind]. rewrite cinf2. reflexivity.
  - destruct (HW x y eq_refl) as [HX NY]. rewrite (is_inf_false e P x y H). cbn [bind]. destruct (getx_w e P x y ltac:(lia) H HX) as [X0 [xa [xb [G1 [G2 [G3 [G4 [G5 [G6 G7]]]]]]]]]. rewrite G1. cbn [bind]. rewrite G2. cbn [bind].
    rewrite (tob r (bls_w r HR) HN1 xa G4), G6. cbn [bind]. rewrite G3. cbn [bind]. rewrite (tob r (bls_w r HR) HN1 xb G5), G7. cbn [bind].
    destruct (gety_ok e P x y ltac:(lia) H) as [Y0 [Y1 Y2]]. rewrite Y1. cbn [bind]. destruct (neg2_ok r Hf 0 1 e Y0 y ltac:(lia) ltac:(lia) ltac:(lia) ltac:(lia) ltac:(lia) Y2) as [Yn [N1 N2]]. rewrite N1. cbn [bind].
    destruct H as [[Hx [Hy _]] _]. destruct (cmp_ok e (9 * e) Y0 Yn y Y2 N2) as [k [K1 K2]]; [rewrite red_id by exact Hy; exact Hy|rewrite Z.mod_small by apply Hy; exact NY|]. rewrite K1. cbn [bind]. rewrite K2, red_id by exact Hy.
    rewrite (caff2 x y Hx). destruct (x_head r HN1 Hbits (snd x) (proj2 Hx)) as [EX RX]. rewrite EX.
    destruct (larger2 p y); cbn [add0 app]; unfold Y_FLAG, COMPRESION_FLAG.
    + rewrite (xuadd r HN1 bd (snd x / T) 32) by lia. cbn [bind add0]. rewrite (xuadd r HN1) by lia. reflexivity.
    + cbn [bind add0]. rewrite (xuadd r HN1) by lia. cbn [bind]. rewrite Z.add_0_r. reflexivity.
Qed.
Theorem serialize2_u_ok e P A : 2 <= e <= 1800 -> e2_point r b4 e P A -> (forall x y, A = Aff2 x y -> x_writable2 r P x /\ y_writable2 r P y) -> serialize_uncompressed_g2 r P = Some (P2 A).
Proof.
  intros He H HW. unfold serialize_uncompressed_g2. change (Bls.mb r) with N. destruct A as [|x y].
  - rewrite (is_inf_true e P H). cbn [bind]. rewrite pinf2. reflexivity.
  - destruct (HW x y eq_refl) as [HX HY]. rewrite (is_inf_false e P x y H). cbn [bind]. destruct (getx_w e P x y ltac:(lia) H HX) as [X0 [xa [xb [G1 [G2 [G3 [G4 [G5 [G6 G7]]]]]]]]]. destruct (gety_w e P x y ltac:(lia) H HY) as [Y0 [ya [yb [F1 [F2 [F3 [F4 [F5 [F6 F7]]]]]]]]].
    rewrite G1. cbn [bind]. rewrite G3. cbn [bind]. rewrite (tob r (bls_w r HR) HN1 xb G5), G7. cbn [bind]. rewrite G2. cbn [bind]. rewrite (tob r (bls_w r HR) HN1 xa G4), G6. cbn [bind].
    rewrite F1. cbn [bind]. rewrite F3. cbn [bind]. rewrite (tob r (bls_w r HR) HN1 yb F5), F7. cbn [bind]. rewrite F2. cbn [bind]. rewrite (tob r (bls_w r HR) HN1 ya F4), F6. reflexivity.
Qed.
End G2.
