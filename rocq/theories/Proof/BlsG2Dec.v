(** Decoding of the G2 encodings of bls381/core.rs. *)
From Verif Require Import Base.Word Base.Arr Model.Big Model.Roms Model.Fp Model.Fp2 Model.Fp12 Model.Ecp Model.HashToCurve Model.Bls Model.Ecp2 Model.BlsG2
  Spec.Bytes Spec.BigSpec Spec.RomSpec Spec.FpSpec Spec.EcpSpec Spec.TowerSpec Spec.TowerRep Spec.BlsSpec Spec.Sswu2Spec Spec.G2Spec Spec.Ecp2Spec
  Proof.NumTheory Proof.BigVal Proof.BigBytes Proof.BigMod Proof.FpBase Proof.FpOps Proof.FpIv Proof.FpWide Proof.TowerRing Proof.TowerInv Proof.Fp2Ops Proof.Fp2Sqrt
  Proof.EcpCodec Proof.EcpCodec2 Proof.EcpCodec3 Proof.EcpInst Proof.CurveFacts Proof.Pocklington Proof.BlsRoms Proof.BlsG1 Proof.BlsInst Proof.Sswu2Inst Proof.Ecp2Ops Proof.BlsG2 Proof.Primes.
From Coq Require Import Lia Znumtheory.

Section G2.
Variable r : rom.
Hypothesis HR : In r bls_roms.
Notation c := (r_cfg r).
Notation p := (pmod r).
Notation V := (val (BASEBITS (r_cfg r))).
Notation FE := (FEXCESS r).
Notation N := (mbytes r).
Notation T := (256 ^ Z.of_nat (N - 1)).
Notation "x == y" := (eq2 p x y) (at level 70).
Notation b4 := ((4, 4) : Z2).
Notation gx := (g2x b4).
Notation C2 := (compress2 p N).
Notation P2 := (plain2 N).

Let HR2 : In r fp2_roms. Proof. unfold fp2_roms. apply in_or_app. left. exact HR. Qed.
Let Hf : fp_ok r. Proof. exact (bls_fp_ok r HR). Qed.
Let Hs : special r = false. Proof. exact (bls_ns r HR). Qed.
Let Hp : prime p. Proof. exact (bls_prime r HR). Qed.
Let H34 : p mod 4 = 3. Proof. rewrite (bls_p r HR). vm_compute. reflexivity. Qed.
Let H8 : r_MOD8 r <> 5. Proof. destruct (f2_ok r HR2) as [_ [_ [_ [_ [H _]]]]]. exact H. Qed.
Let Hw1 : wide_ok c 1 1. Proof. destruct (f2_ok r HR2) as [_ [_ [_ [_ [_ H]]]]]. exact H. Qed.
Let HT : tower_ok r. Proof. exact (g2_tower r HR). Qed.
Let HFE : 9 * 1800 <= FE. Proof. exact (g2_FE r HR). Qed.
Let P3 : 3 < p. Proof. exact (p_gt3 r Hf). Qed.
Let pn : p <> 0. Proof. lia. Qed.
Let HN1 : (1 <= N)%nat. Proof. exact (bls_N1 r HR). Qed.
Let Hbits : p <= 2 ^ (8 * Z.of_nat N - 3). Proof. exact (bls_bits r HR). Qed.
Let HBw : big_wf c (r_CURVE_B r). Proof. exact (g2_B r HR). Qed.
Let Hbt : b4 == mul2 xi (k2 (cB r)). Proof. exact (g2_bt r HR). Qed.

(** *** points with a zero coordinate *)
Lemma eq0_norm v : v == zero2 -> norm2 v mod p = 0.
Proof. intros [Q1 Q2]. unfold norm2, zero2 in *. cbn [fst snd] in *. rewrite Z.add_mod, (Z.mul_mod (fst _)), (Z.mul_mod (snd _)), Q1, Q2 by lia. rewrite (Z.mod_0_l p) by lia. rewrite Z.mul_0_l, (Z.mod_0_l p) by lia. apply Z.mod_0_l. lia. Qed.
Lemma no_y0 x y : on_e2 p b4 (Aff2 x y) -> y <> zero2.
Proof.
  intros [Hx [Hy E]] ->. assert (Q : mul2 (mul2 x x) x == (-4, -4)).
  { replace (mul2 (mul2 x x) x) with (add2 (add2 (mul2 (mul2 x x) x) b4) (-4, -4)). 2:{ destruct x as [a b]. unfold add2, mul2. cbn [fst snd]. f_equal; ring. }
    eapply eq2_trans; [apply eq2_add; [exact pn|apply eq2_sym; exact E|apply eq2_refl]|]. split; reflexivity. }
  assert (NQ : (norm2 x * norm2 x * norm2 x) mod p = 32 mod p).
  { rewrite <- !norm2_mul. change 32 with (norm2 (-4, -4)). destruct Q as [Q1 Q2]. unfold norm2. rewrite Z.add_mod, (Z.mul_mod (fst _)), (Z.mul_mod (snd _)), Q1, Q2 by lia. rewrite <- !Z.mul_mod, <- Z.add_mod by lia. reflexivity. }
  revert NQ. rewrite (bls_p r HR). apply (no_cube_root bls381_p 32).
  - rewrite <- (bls_p r HR). exact Hp.
  - lia.
  - vm_compute. discriminate.
  - vm_compute. reflexivity.
  - apply Z.eqb_neq. vm_cast_no_check (eq_refl false).
Qed.
Lemma mod0 a : 0 <= a < p -> a mod p = 0 -> a = 0. Proof. intros H E. rewrite Z.mod_small in E; assumption. Qed.
Lemma g_real_nonres x y : on_e2 p b4 (Aff2 x y) -> real_nonres p (gx x) <-> fst y = 0.
Proof.
  intros O. pose proof (no_y0 x y O) as NZ. destruct O as [_ [[Hy1 Hy2] E]]. change (add2 (mul2 (mul2 x x) x) b4) with (gx x) in E. destruct E as [E1 E2]. destruct y as [a b]. unfold mul2 in E1, E2. cbn [fst snd] in *. split.
  - intros [R1 R2]. destruct (Z.eq_dec a 0) as [A0|A0]; [exact A0|exfalso]. assert (B0 : b = 0).
    { rewrite R1 in E2. replace (a * b + b * a) with (2 * (a * b)) in E2 by ring. apply Z.mod_divide in E2; [|lia]. apply prime_mult in E2; [|exact Hp]. destruct E2 as [E2|E2]; [apply Z.divide_pos_le in E2; lia|]. apply prime_mult in E2; [|exact Hp]. destruct E2 as [E2|E2].
      - exfalso. apply A0. apply mod0; [assumption|]. apply Z.mod_divide; [lia|exact E2].
      - apply mod0; [assumption|]. apply Z.mod_divide; [lia|exact E2]. }
    apply R2. exists a. rewrite <- E1. f_equal. subst b. ring.
  - intros ->. assert (B0 : b <> 0) by (intros ->; apply NZ; reflexivity). split; [rewrite <- E2; rewrite Z.mul_0_l, Z.mul_0_r; apply Z.mod_0_l; lia|]. intros [s S]. rewrite <- E1 in S.
    assert (Q : norm2 (s, b) mod p = 0).
    { unfold norm2. cbn [fst snd]. rewrite Z.add_mod, S, <- Z.add_mod by lia. replace (0 * 0 - b * b + b * b) with 0 by ring. apply Z.mod_0_l. lia. }
    apply (norm2_zero p Hp _ H34) in Q. destruct Q as [_ Q]. cbn [snd zero2] in Q. rewrite (Z.mod_0_l p) in Q by lia. apply B0. apply mod0; assumption.
Qed.
Lemma root_sign x y w : on_e2 p b4 (Aff2 x y) -> mul2 w w == gx x -> red2 p w = y \/ red2 p w = red2 p (neg2 y).
Proof.
  intros [Hx [Hy E]] EW. destruct (sq_two r HR w y) as [S|S].
  - eapply eq2_trans; [exact EW|]. apply eq2_sym. exact E.
  - left. rewrite (red_cong r _ _ S). apply (red_id r). exact Hy.
  - right. apply (red_cong r). exact S.
Qed.
Lemma on_neg x y : on_e2 p b4 (Aff2 x y) -> on_e2 p b4 (Aff2 x (red2 p (neg2 y))).
Proof.
  intros [Hx [Hy E]]. split; [exact Hx|]. split; [apply (red_res r HR)|]. eapply eq2_trans; [apply eq2_mul; [exact pn| |]; apply (red_eq r HR)|]. replace (mul2 (neg2 y) (neg2 y)) with (mul2 y y) by ring. exact E.
Qed.
(** *** compressed *)
Section Dec.
Variables (d f : Z) (ti tr : list Z).
Hypothesis Hd : 0 <= d < 32.
Hypothesis Hfl : f = 0 \/ f = 1.
Hypothesis Hti : bytes ti.
Hypothesis Htr : bytes tr.
Hypothesis Lti : length ti = (N - 1)%nat.
Hypothesis Ltr : length tr = N.
Let h := 128 + 32 * f + d.
Let xi' := os2ip (d :: ti).
Let xr' := os2ip tr.
Let x : Z2 := (xr', xi').
Notation R0 := (deserialize_compressed_g2 r (h :: ti ++ tr)).
Definition stored_x (P : ecp2) : Prop := exists a b X, big_wf c a /\ big_wf c b /\ bval c a = xr' /\ bval c b = xi' /\ fp2_new_bigs r a b = Some X /\ fp2_norm r X = Some (x2 P).
Lemma dec2_c : (p <= xi' \/ p <= xr' -> R0 = Some (Err InvalidPoint)) /\
  (xi' < p -> xr' < p -> (forall y, ~ on_e2 p b4 (Aff2 x y)) -> R0 = Some (Err InvalidPoint)) /\
  (forall y, on_e2 p b4 (Aff2 x y) -> fst y = 0 -> R0 = Some (Err InvalidPoint)) /\
  (forall y, on_e2 p b4 (Aff2 x y) -> fst y <> 0 -> exists P, R0 = Some (Ok P) /\ stored_x P /\
     (e2_point r b4 18 P (Aff2 x y) \/ e2_point r b4 18 P (Aff2 x (red2 p (neg2 y)))) /\
     (snd y <> 0 -> (if larger2 p y then 1 else 0) = f -> e2_point r b4 18 P (Aff2 x y))).
Proof.
  destruct (hfacts r HN1 d f ti Hd Hfl Lti) as [F1 [F2 [F3 F4]]]. fold h in F1, F2, F3, F4.
  assert (E0 : R0 = (a <- frombytes c (d :: ti) ;; b <- frombytes c tr ;;
      if (0 <=? comp a (r_MODULUS r)) || (0 <=? comp b (r_MODULUS r)) then Some (Err InvalidPoint) else
      x <- fp2_new_bigs r b a ;; P <- ecp2_new_fp2 r MType x ;; i <- ecp2_is_infinity r P ;; if (i : bool) then Some (Err InvalidPoint) else
      N <- ecp2_neg r P ;; y <- ecp2_gety r P ;; yn <- ecp2_gety r N ;; k <- zcash_cmp_fp2 r y yn ;; Some (Ok (if Bool.eqb (0 <? k) (0 <? 32 * f) then P else N)))).
  { unfold deserialize_compressed_g2. change (Bls.mb r) with N. cbn [length]. rewrite app_length, Lti, Ltr. replace (S (N - 1 + N)) with (2 * N)%nat by lia. rewrite Nat.eqb_refl. cbn [negb]. unfold INFINITY_FLAG, Y_FLAG. rewrite F2, F3, F4. change (0 =? 0) with true. cbn [negb].
    rewrite app_comm_cons. rewrite firstn_app, skipn_app. assert (LL : length (d :: ti) = N) by (cbn [length]; lia). rewrite LL, Nat.sub_diag, firstn_O, skipn_O, app_nil_r, firstn_all2, skipn_all2 by lia. reflexivity. }
  rewrite E0. clear E0. assert (Hb : bytes (d :: ti)) by (constructor; [unfold is_byte; lia|exact Hti]).
  destruct (frb r Hf (d :: ti) Hb) as [a [E1 [W1 V1]]]. { cbn [length]. rewrite Lti. unfold mbytes in *. lia. }
  destruct (frb r Hf tr Htr) as [b [E2 [W2 V2]]]. { rewrite Ltr. reflexivity. }
  fold xi' in V1. fold xr' in V2. rewrite E1, E2. cbn [bind]. rewrite (comp_p r Hf a W1), (comp_p r Hf b W2), V1, V2.
  assert (R1 : 0 <= xi') by (apply os2ip_range; exact Hb). assert (R2 : 0 <= xr') by (apply os2ip_range; exact Htr). split.
  { intros H. destruct (Z.leb_spec p xi'); [reflexivity|]. destruct (Z.leb_spec p xr'); [reflexivity|]. lia. }
  destruct (el2_new_bigs r Hf Hs b a W2 W1) as [X [X1 X2]]. unfold bval in X2. rewrite V1, V2 in X2. change (xr', xi') with x in X2. apply (el2_rep r Hf) in X2.
  destruct (new_fp2_ok r Hf Hs Hp H34 H8 Hw1 HT MType b4 HBw Hbt 2 X x) as [P [Q1 Q2]]; [lia|exact X2|].
  split; [|split].
  - intros L1 L2 NO. destruct (Z.leb_spec p xi'); [lia|]. destruct (Z.leb_spec p xr'); [lia|]. cbn [orb]. rewrite X1. cbn [bind]. rewrite Q1. cbn [bind]. destruct Q2 as [[_ [w [Q2 [Q3 _]]]]|[_ Q2]].
    + exfalso. apply (NO (red2 p w)). apply (point_of r HR 2 P x w Q3); [split; cbn [x fst snd]; lia|exact Q2].
    + rewrite (is_inf_true r HR 2 P (point_inf r HR 2 P Q2)). reflexivity.
  - intros y O Y0. pose proof O as [[Hx1 Hx2] _]. cbn [x fst snd] in Hx1, Hx2. destruct (Z.leb_spec p xi'); [lia|]. destruct (Z.leb_spec p xr'); [lia|]. cbn [orb]. rewrite X1. cbn [bind]. rewrite Q1. cbn [bind]. destruct Q2 as [[Q2 _]|[_ Q2]].
    + exfalso. apply Q2. apply (g_real_nonres x y O). exact Y0.
    + rewrite (is_inf_true r HR 2 P (point_inf r HR 2 P Q2)). reflexivity.
  - intros y O Y0. pose proof O as [[Hx1 Hx2] [Hy Ey]]. cbn [x fst snd] in Hx1, Hx2. destruct (Z.leb_spec p xi'); [lia|]. destruct (Z.leb_spec p xr'); [lia|]. cbn [orb]. rewrite X1. cbn [bind]. rewrite Q1. cbn [bind]. destruct Q2 as [[_ [w [Q2 [Q3 Q4]]]]|[[Q2|Q2] _]].
    2:{ exfalso. apply Q2. apply (norm_sq p Hp H34). exists y. exact Ey. }
    2:{ exfalso. apply Y0. apply (g_real_nonres x y O). exact Q2. }
    assert (Hx : res2 p x) by (split; cbn [x fst snd]; lia). pose proof (point_of r HR 2 P x w Q3 Hx Q2) as HP. rewrite (is_inf_false r HR 2 P _ _ HP). cbn [bind].
    destruct (neg3_ok r Hf 2 P x w one2 ltac:(lia) Q3) as [Q [N1 [N2 [N3 _]]]]. rewrite N1. cbn [bind].
    assert (HQ : e2_point r b4 18 Q (Aff2 x (red2 p (neg2 w)))).
    { apply (point_of r HR); [exact N2|exact Hx|]. replace (mul2 (neg2 w) (neg2 w)) with (mul2 w w) by ring. exact Q2. }
    destruct (gety_ok r HR 2 P _ _ ltac:(lia) HP) as [y0 [G1 G2]]. destruct (gety_ok r HR 18 Q _ _ ltac:(lia) HQ) as [y1 [G3 G4]]. rewrite G1. cbn [bind]. rewrite G3. cbn [bind].
    assert (SX : stored_x P) by (exists b, a, X; unfold bval; tauto). assert (SQ : stored_x Q) by (unfold stored_x; rewrite N3; exact SX).
    apply (point_mono r HR 2 18) in HP; [|lia].
    assert (NW : red2 p (neg2 w) = red2 p (neg2 (red2 p w))) by (apply (red_cong r); apply eq2_neg; [exact pn|]; apply eq2_sym; apply (red_eq r HR)).
    assert (ALT : forall R, R = P \/ R = Q -> stored_x R /\ (e2_point r b4 18 R (Aff2 x y) \/ e2_point r b4 18 R (Aff2 x (red2 p (neg2 y))))).
    { intros R [-> | ->]; (split; [assumption|]); destruct (root_sign x y w O Q2) as [S|S]; rewrite ?NW in *; rewrite S in *; auto. rewrite (neg_neg r HR y Hy) in HQ. auto. }
    destruct (cmp_total r HR 2 18 y0 y1 (red2 p w) (red2 p (neg2 w))) as [k K].
    { destruct G2. split; apply (up11 r HR); assumption. } { destruct G4. split; apply (up11 r HR); assumption. }
    rewrite K. cbn [bind]. eexists. split; [reflexivity|]. destruct (ALT (if Bool.eqb (0 <? k) (0 <? 32 * f) then P else Q)) as [A1 A2]; [destruct (Bool.eqb _ _); auto|]. split; [exact A1|]. split; [exact A2|].
    intros Y1 EF. assert (YR : snd (red2 p w) mod p <> 0).
    { pose proof (red_res r HR w) as [_ RR]. rewrite Z.mod_small by exact RR. destruct (root_sign x y w O Q2) as [S|S]; rewrite S; [exact Y1|]. destruct Hy as [_ Hy2]. cbn [red2 neg2 fst snd]. rewrite (oppm r HR _ Hy2). destruct (Z.eqb_spec (snd y) 0); lia. }
    destruct (cmp_ok r HR 2 18 y0 y1 (red2 p w) G2) as [k' [K1 K2]].
    { eapply (rep2_cong r). 2:{ destruct G4 as [Ga Gb]. split; apply (up11 r HR); eassumption. } rewrite NW. apply (red_eq r HR). }
    { apply (red_res r HR). } { exact YR. }
    rewrite K in K1. injection K1 as <-. rewrite K2, (red_id r) by apply (red_res r HR). assert (FE' : (0 <? 32 * f) = larger2 p y) by (rewrite <- EF; destruct (larger2 p y); reflexivity). rewrite FE'.
    destruct (root_sign x y w O Q2) as [S|S]; rewrite S in *.
    + rewrite Bool.eqb_reflx. exact HP.
    + rewrite (larger2_neg r HR y Hy (no_y0 x y O)). destruct (larger2 p y); cbn [negb Bool.eqb]; rewrite NW, (neg_neg r HR y Hy) in HQ; exact HQ.
Qed.
End Dec.
(** *** uncompressed *)
Definition stored2 (v : Z2) (f : fp2) : Prop := exists a b, big_wf c a /\ big_wf c b /\ bval c a = fst v /\ bval c b = snd v /\ fp2_new_bigs r a b = Some f.
Lemma dec2_u b : bytes b -> length b = (4 * N)%nat -> hd 0 b < 32 ->
  let x : Z2 := (os2ip (firstn N (skipn N b)), os2ip (firstn N b)) in let y : Z2 := (os2ip (skipn (3 * N) b), os2ip (firstn N (skipn (2 * N) b))) in
  (on_e2 p b4 (Aff2 x y) -> exists P X, deserialize_uncompressed_g2 r b = Some (Ok P) /\ e2_point r b4 2 P (Aff2 x y) /\ stored2 y (y2 P) /\ stored2 x X /\ fp2_norm r X = Some (x2 P)) /\
  (~ on_e2 p b4 (Aff2 x y) -> deserialize_uncompressed_g2 r b = Some (Err InvalidPoint)).
Proof.
  intros Hb L H32 x y.
  assert (E0 : deserialize_uncompressed_g2 r b = (xi <- frombytes c (firstn N b) ;; xr <- frombytes c (firstn N (skipn N b)) ;; yi <- frombytes c (firstn N (skipn (2 * N) b)) ;; yr <- frombytes c (skipn (3 * N) b) ;;
      if (0 <=? comp xi (r_MODULUS r)) || (0 <=? comp xr (r_MODULUS r)) || (0 <=? comp yi (r_MODULUS r)) || (0 <=? comp yr (r_MODULUS r)) then Some (Err InvalidPoint) else
      x <- fp2_new_bigs r xr xi ;; y <- fp2_new_bigs r yr yi ;;
      P <- ecp2_new_fp2s r MType x y ;; i <- ecp2_is_infinity r P ;; if (i : bool) then Some (Err InvalidPoint) else Some (Ok P))).
  { unfold deserialize_uncompressed_g2. change (Bls.mb r) with N. rewrite L, Nat.eqb_refl. cbn [negb]. destruct b as [|h t]; [cbn [length] in L; lia|]. cbn [hd] in H32. inversion_clear Hb as [|? ? B1 B2]. unfold is_byte in B1.
    destruct (bfacts r HN1 h B1) as [_ [F2 [F3 [F4 _]]]]. unfold INFINITY_FLAG, Y_FLAG. rewrite F2, F3, F4. rewrite (Z.div_small h 64), (Z.div_small h 32), (Z.mod_small h 32) by lia. rewrite Z.mod_0_l by lia. reflexivity. }
  rewrite E0. clear E0.
  assert (BS : forall k, bytes (skipn k b)). { intros k. unfold bytes in *. rewrite <- (firstn_skipn k b) in Hb. apply Forall_app in Hb. tauto. }
  assert (BF : forall k l, bytes l -> bytes (firstn k l)). { intros k l Hl. unfold bytes in *. rewrite <- (firstn_skipn k l) in Hl. apply Forall_app in Hl. tauto. }
  destruct (frb r Hf (firstn N b) (BF _ _ Hb)) as [ix [X1 [X2 X3]]]; [rewrite firstn_length; unfold mbytes in *; lia|].
  destruct (frb r Hf (firstn N (skipn N b)) (BF _ _ (BS _))) as [rx [X4 [X5 X6]]]; [rewrite firstn_length, skipn_length; unfold mbytes in *; lia|].
  destruct (frb r Hf (firstn N (skipn (2 * N) b)) (BF _ _ (BS _))) as [iy [Y1 [Y2 Y3]]]; [rewrite firstn_length, skipn_length; unfold mbytes in *; lia|].
  destruct (frb r Hf (skipn (3 * N) b) (BS _)) as [ry [Y4 [Y5 Y6]]]; [rewrite skipn_length; unfold mbytes in *; lia|].
  rewrite X1. cbn [bind]. rewrite X4. cbn [bind]. rewrite Y1. cbn [bind]. rewrite Y4. cbn [bind]. rewrite (comp_p r Hf ix X2), (comp_p r Hf rx X5), (comp_p r Hf iy Y2), (comp_p r Hf ry Y5), X3, X6, Y3, Y6.
  pose proof (proj1 (os2ip_range _ (BF N _ Hb))) as R1. pose proof (proj1 (os2ip_range _ (BF N _ (BS N)))) as R2. pose proof (proj1 (os2ip_range _ (BF N _ (BS (2 * N)%nat)))) as R3. pose proof (proj1 (os2ip_range _ (BS (3 * N)%nat))) as R4.
  destruct (Z.leb_spec p (os2ip (firstn N b))) as [L1|L1]; cbn [orb]. { split; [|reflexivity]. intros [[_ [_ H]] _]. cbn [x snd] in H. lia. }
  destruct (Z.leb_spec p (os2ip (firstn N (skipn N b)))) as [L2|L2]; cbn [orb]. { split; [|reflexivity]. intros [[[_ H] _] _]. cbn [x fst] in H. lia. }
  destruct (Z.leb_spec p (os2ip (firstn N (skipn (2 * N) b)))) as [L3|L3]; cbn [orb]. { split; [|reflexivity]. intros [_ [[_ [_ H]] _]]. cbn [y snd] in H. lia. }
  destruct (Z.leb_spec p (os2ip (skipn (3 * N) b))) as [L4|L4]; cbn [orb]. { split; [|reflexivity]. intros [_ [[[_ H] _] _]]. cbn [y fst] in H. lia. }
  destruct (el2_new_bigs r Hf Hs rx ix X5 X2) as [X [XA XB]]. unfold bval in XB. rewrite X3, X6 in XB. fold x in XB. apply (el2_rep r Hf) in XB.
  destruct (el2_new_bigs r Hf Hs ry iy Y5 Y2) as [Y [YA YB]]. unfold bval in YB. rewrite Y3, Y6 in YB. fold y in YB. apply (el2_rep r Hf) in YB.
  rewrite XA. cbn [bind]. rewrite YA. cbn [bind]. destruct (new_fp2s_ok r Hf Hs HT MType b4 HBw Hbt 2 X Y x y ltac:(lia) XB YB) as [P [P1 P2']]. rewrite P1. cbn [bind]. destruct P2' as [[Q1 [Q2 [Q3 Q4]]]|[Q1 Q2]].
  - assert (Hx : res2 p x) by (split; cbn [x fst snd]; lia). assert (Hy : res2 p y) by (split; cbn [y fst snd]; lia). pose proof (point_of r HR 2 P x y Q2 Hx Q1) as HP. rewrite (red_id r y Hy) in HP. rewrite (is_inf_false r HR 2 P _ _ HP). cbn [bind]. split; [|intros NO; contradiction (NO (proj1 HP))].
    intros _. exists P, X. split; [reflexivity|]. split; [exact HP|]. rewrite Q3. split; [exists ry, iy; unfold bval, y; cbn [fst snd]; tauto|]. split; [exists rx, ix; unfold bval, x; cbn [fst snd]; tauto|exact Q4].
  - rewrite (is_inf_true r HR 2 P (point_inf r HR 2 P Q2)). cbn [bind]. split; [|reflexivity]. intros [_ [_ O]]. exfalso. apply Q1. exact O.
Qed.
Lemma dec2_inf : (exists P, deserialize_g2 r (C2 Inf2) = Some (Ok P) /\ e2_point r b4 2 P Inf2) /\ (exists P, deserialize_g2 r (P2 Inf2) = Some (Ok P) /\ e2_point r b4 2 P Inf2).
Proof.
  destruct (enew_ok r Hf) as [E0 [N1 N2]]. rewrite (cinf2 r HR), (pinf2 r HR). split; exists E0; (split; [|exact (point_inf r HR 2 E0 N2)]); unfold deserialize_g2, COMPRESION_FLAG.
  - change (Z.land (128 + 64) 128 =? 0) with false. unfold deserialize_compressed_g2. change (Bls.mb r) with N. cbn [length]. rewrite repeat_length. replace (S (2 * N - 1)) with (2 * N)%nat by lia. rewrite Nat.eqb_refl. cbn [negb].
    unfold INFINITY_FLAG. change (Z.land (128 + 64) 64 =? 0) with false. cbn [negb]. rewrite (proj2 (tz r HN1 (128 + 64) (repeat 0 (2 * N - 1)) ltac:(lia))) by (rewrite repeat_length; split; reflexivity). rewrite N1. reflexivity.
  - change (Z.land 64 128 =? 0) with true. unfold deserialize_uncompressed_g2. change (Bls.mb r) with N. cbn [length]. rewrite repeat_length. replace (S (4 * N - 1)) with (4 * N)%nat by lia. rewrite Nat.eqb_refl. cbn [negb].
    unfold INFINITY_FLAG. change (Z.land 64 64 =? 0) with false. cbn [negb]. rewrite (proj2 (tz r HN1 64 (repeat 0 (4 * N - 1)) ltac:(lia))) by (rewrite repeat_length; split; reflexivity). rewrite N1. reflexivity.
Qed.
End G2.
