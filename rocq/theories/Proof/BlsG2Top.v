(** Decoding of the G2 encodings of bls381/core.rs: the whole functions. *)
From Verif Require Import Base.Word Base.Arr Model.Big Model.Roms Model.Fp Model.Fp2 Model.Fp12 Model.Ecp Model.HashToCurve Model.Bls Model.Ecp2 Model.BlsG2
  Spec.Bytes Spec.BigSpec Spec.RomSpec Spec.FpSpec Spec.EcpSpec Spec.TowerSpec Spec.TowerRep Spec.BlsSpec Spec.Sswu2Spec Spec.G2Spec Spec.Ecp2Spec
  Proof.NumTheory Proof.BigVal Proof.BigBytes Proof.BigMod Proof.FpBase Proof.FpOps Proof.FpIv Proof.FpWide Proof.TowerRing Proof.TowerInv Proof.Fp2Ops Proof.Fp2Sqrt
  Proof.EcpCodec Proof.EcpCodec2 Proof.EcpCodec3 Proof.EcpInst Proof.CurveFacts Proof.Pocklington Proof.BlsRoms Proof.BlsG1 Proof.BlsInst Proof.Sswu2Inst Proof.Ecp2Ops Proof.BlsG2 Proof.BlsG2Dec Proof.Primes.
From Coq Require Import Lia Znumtheory.

Section G2.
Variable r : rom.
Hypothesis HR : In r bls_roms.
Notation c := (r_cfg r).
Notation p := (pmod r).
Notation V := (val (BASEBITS (r_cfg r))).
Notation FE := (FEXCESS r).
Notation N := (mbytes r).
Notation T := (256 ^ Z.of_nat (N - 1)).
Notation "x == y" := (eq2 p x y) (at level 70).
Notation b4 := ((4, 4) : Z2).
Notation gx := (g2x b4).
Notation C2 := (compress2 p N).
Notation P2 := (plain2 N).

Let HR2 : In r fp2_roms. Proof. unfold fp2_roms. apply in_or_app. left. exact HR. Qed.
Let Hf : fp_ok r. Proof. exact (bls_fp_ok r HR). Qed.
Let Hs : special r = false. Proof. exact (bls_ns r HR). Qed.
Let Hp : prime p. Proof. exact (bls_prime r HR). Qed.
Let H34 : p mod 4 = 3. Proof. rewrite (bls_p r HR). vm_compute. reflexivity. Qed.
Let H8 : r_MOD8 r <> 5. Proof. destruct (f2_ok r HR2) as [_ [_ [_ [_ [H _]]]]]. exact H. Qed.
Let Hw1 : wide_ok c 1 1. Proof. destruct (f2_ok r HR2) as [_ [_ [_ [_ [_ H]]]]]. exact H. Qed.
Let HT : tower_ok r. Proof. exact (g2_tower r HR). Qed.
Let HFE : 9 * 1800 <= FE. Proof. exact (g2_FE r HR). Qed.
Let P3 : 3 < p. Proof. exact (p_gt3 r Hf). Qed.
Let pn : p <> 0. Proof. lia. Qed.
Let HN1 : (1 <= N)%nat. Proof. exact (bls_N1 r HR). Qed.
Let Hbits : p <= 2 ^ (8 * Z.of_nat N - 3). Proof. exact (bls_bits r HR). Qed.
Let HBw : big_wf c (r_CURVE_B r). Proof. exact (g2_B r HR). Qed.
Let Hbt : b4 == mul2 xi (k2 (cB r)). Proof. exact (g2_bt r HR). Qed.

Lemma larger_flag y : (if larger2 p y then 1 else 0) = 0 \/ (if larger2 p y then 1 else 0) = 1. Proof. destruct (larger2 p y); auto. Qed.
Lemma caff_f x y : res2 p x -> C2 (Aff2 x y) = (128 + 32 * (if larger2 p y then 1 else 0) + snd x / T) :: i2osp (snd x) (N - 1) ++ i2osp (fst x) N.
Proof. intros H. rewrite (caff2 r HR x y H). f_equal. destruct (larger2 p y); lia. Qed.
Lemma os_N v : 0 <= v < p -> os2ip (i2osp v N) = v.
Proof. intros H. destruct (x_head r HN1 Hbits v H) as [-> _]. exact (os_x r HN1 Hbits v H). Qed.
Lemma enter_c x y : res2 p x -> deserialize_g2 r (C2 (Aff2 x y)) = deserialize_compressed_g2 r ((128 + 32 * (if larger2 p y then 1 else 0) + snd x / T) :: i2osp (snd x) (N - 1) ++ i2osp (fst x) N).
Proof.
  intros H. rewrite (caff_f x y H). destruct (x_head r HN1 Hbits (snd x) (proj2 H)) as [_ RX]. unfold deserialize_g2. pose proof (larger_flag y) as F. rewrite (land128 r HN1) by lia. destruct (Z.ltb_spec (128 + 32 * (if larger2 p y then 1 else 0) + snd x / T) 128); [lia|reflexivity].
Qed.
Lemma zero_comp a f f' : big_wf c a -> bval c a = 0 -> fp_new_big r a = Some f -> V (fx f) < p /\ (fp_norm r f = Some f' -> V (fx f') < p).
Proof.
  intros W E. assert (EA : a = repeat 0 (NLEN c)). { destruct W as [L W]. rewrite <- L. pose proof (cf_B _ (cfg_ok_facts _ (ff_ok r (fp_ok_facts r Hf)))). apply (zeros_of r HN1 (BASEBITS c)); [lia|exact W|exact E]. } subst a.
  assert (G : forall r, match fp_new_big r (repeat 0 (NLEN (r_cfg r))) with Some f => match fp_norm r f with Some g => (bval (r_cfg r) (fx f) <? pmod r) && (bval (r_cfg r) (fx g) <? pmod r) | None => false end | None => false end = true ->
     forall f f', fp_new_big r (repeat 0 (NLEN (r_cfg r))) = Some f -> bval (r_cfg r) (fx f) < pmod r /\ (fp_norm r f = Some f' -> bval (r_cfg r) (fx f') < pmod r)).
  { intros x H g g' E1. rewrite E1 in H. destruct (fp_norm x g) as [k|]; [|discriminate]. apply andb_true_iff in H. rewrite !Z.ltb_lt in H. split; [apply H|]. intros Q. injection Q as <-. apply H. }
  revert f f'. pattern r. destruct HR as [<-|[<-|[]]]; apply G; vm_compute; reflexivity.
Qed.
Lemma stored_w P x X : stored2 r x X -> fp2_norm r X = Some (x2 P) -> x_writable2 r P x.
Proof.
  intros [a [b [Wa [Wb [Va [Vb EX]]]]]] EN. unfold fp2_new_bigs in EX. destruct (fp_new_big r a) as [fa|] eqn:Ea; [|discriminate]. destruct (fp_new_big r b) as [fb|] eqn:Eb; [|discriminate]. cbn [bind] in EX. injection EX as <-.
  unfold fp2_norm in EN. cbn [f2a f2b] in EN. destruct (fp_norm r fa) as [ga|] eqn:Ga; [|discriminate]. destruct (fp_norm r fb) as [gb|] eqn:Gb; [|discriminate]. cbn [bind] in EN. injection EN as EN. unfold x_writable2. rewrite <- EN. cbn [f2a f2b]. split; right.
  - destruct (Z.eq_dec (fst x) 0) as [Z0|Z0]; [left|right; exact Z0]. rewrite Z0 in Va. apply (proj2 (zero_comp a fa ga Wa Va Ea) Ga).
  - destruct (Z.eq_dec (snd x) 0) as [Z0|Z0]; [left|right; exact Z0]. rewrite Z0 in Vb. apply (proj2 (zero_comp b fb gb Wb Vb Eb) Gb).
Qed.
Lemma stored_yw P y : stored2 r y (y2 P) -> y_writable2 r P y.
Proof.
  intros [a [b [Wa [Wb [Va [Vb EX]]]]]]. unfold fp2_new_bigs in EX. destruct (fp_new_big r a) as [fa|] eqn:Ea; [|discriminate]. destruct (fp_new_big r b) as [fb|] eqn:Eb; [|discriminate]. cbn [bind] in EX. injection EX as EX. unfold y_writable2. rewrite <- EX. cbn [f2a f2b]. split; right.
  - destruct (Z.eq_dec (fst y) 0) as [Z0|Z0]; [left|right; exact Z0]. rewrite Z0 in Va. apply (proj1 (zero_comp a fa fa Wa Va Ea)).
  - destruct (Z.eq_dec (snd y) 0) as [Z0|Z0]; [left|right; exact Z0]. rewrite Z0 in Vb. apply (proj1 (zero_comp b fb fb Wb Vb Eb)).
Qed.
Lemma dec_top_c x y : on_e2 p b4 (Aff2 x y) ->
  (fst y = 0 -> deserialize_g2 r (C2 (Aff2 x y)) = Some (Err InvalidPoint)) /\
  (fst y <> 0 -> exists P, deserialize_g2 r (C2 (Aff2 x y)) = Some (Ok P) /\ x_writable2 r P x /\
     (e2_point r b4 18 P (Aff2 x y) \/ e2_point r b4 18 P (Aff2 x (red2 p (neg2 y)))) /\ (snd y <> 0 -> e2_point r b4 18 P (Aff2 x y))).
Proof.
  intros O. pose proof O as [Hx _]. rewrite (enter_c x y Hx). destruct (x_head r HN1 Hbits (snd x) (proj2 Hx)) as [EX RX].
  destruct (dec2_c r HR (snd x / T) (if larger2 p y then 1 else 0) (i2osp (snd x) (N - 1)) (i2osp (fst x) N) RX (larger_flag y) (i2osp_bytes _ _) (i2osp_bytes _ _) (i2osp_length _ _) (i2osp_length _ _)) as [_ [_ [D3 D4]]].
  unfold stored_x in D4. rewrite (os_x r HN1 Hbits (snd x) (proj2 Hx)), (os_N (fst x) (proj1 Hx)), <- surjective_pairing in D3, D4. split; [exact (D3 y O)|]. intros Y0. destruct (D4 y O Y0) as [P [Q1 [Q2 [Q3 Q4]]]]. exists P. split; [exact Q1|]. split; [|split; [exact Q3|intros Y1; exact (Q4 Y1 eq_refl)]].
  destruct Q2 as [a [b [X [S1 [S2 [S3 [S4 [S5 S6]]]]]]]]. apply (stored_w P x X); [|exact S6]. exists a, b. tauto.
Qed.
Lemma plain_facts x y : res2 p x -> res2 p y -> let b := P2 (Aff2 x y) in bytes b /\ length b = (4 * N)%nat /\ hd 0 b < 32 /\ (os2ip (firstn N (skipn N b)), os2ip (firstn N b)) = x /\ (os2ip (skipn (3 * N) b), os2ip (firstn N (skipn (2 * N) b))) = y.
Proof.
  intros Hx Hy. cbv zeta. unfold plain2. assert (L : forall v, length (i2osp v N) = N) by (intros; apply i2osp_length).
  assert (F1 : forall v l, firstn N (i2osp v N ++ l) = i2osp v N) by (intros v l; rewrite firstn_app, L, Nat.sub_diag, firstn_O, app_nil_r; apply firstn_all2; rewrite L; lia).
  assert (F2 : forall v l, skipn N (i2osp v N ++ l) = l) by (intros v l; rewrite skipn_app, L, Nat.sub_diag, skipn_O; rewrite skipn_all2 by (rewrite L; lia); reflexivity).
  assert (F3 : forall v l k, skipn (N + k) (i2osp v N ++ l) = skipn k l) by (intros v l k; rewrite skipn_app, L; rewrite skipn_all2 by (rewrite L; lia); cbn [app]; f_equal; lia).
  split; [repeat (apply Forall_app; split); apply i2osp_bytes|]. split; [rewrite !app_length, !L; lia|]. split; [destruct (x_head r HN1 Hbits (snd x) (proj2 Hx)) as [-> RX]; cbn [app hd]; lia|].
  replace (2 * N)%nat with (N + (N + 0))%nat by lia. replace (3 * N)%nat with (N + (N + N))%nat by lia. rewrite !F1, F2, F1, !F3. rewrite F2. cbn [skipn]. rewrite F1, !os_N by (apply Hx || apply Hy). rewrite <- !surjective_pairing. auto.
Qed.
Lemma dec_top_u x y : on_e2 p b4 (Aff2 x y) -> exists P, deserialize_g2 r (P2 (Aff2 x y)) = Some (Ok P) /\ e2_point r b4 2 P (Aff2 x y) /\ x_writable2 r P x /\ y_writable2 r P y.
Proof.
  intros O. pose proof O as [Hx [Hy _]]. destruct (plain_facts x y Hx Hy) as [B [L [H32 [EX EY]]]]. pose proof (dec2_u r HR _ B L H32) as D. cbv zeta in D. rewrite EX, EY in D. destruct D as [D _]. destruct (D O) as [P [X [Q1 [Q2 [Q3 [Q4 Q5]]]]]].
  exists P. split; [|split; [exact Q2|split; [exact (stored_w P x X Q4 Q5)|exact (stored_yw P y Q3)]]].
  unfold deserialize_g2. revert Q1 H32 B. destruct (P2 (Aff2 x y)) as [|h t]; [cbn [length] in L; lia|]. intros Q1 H32 B. cbn [hd] in H32. inversion_clear B as [|? ? B1 _]. rewrite (land128 r HN1) by exact B1. destruct (Z.ltb_spec h 128); [exact Q1|lia].
Qed.
Lemma skip2 : forall (a b : nat) (l : list Z), skipn a (skipn b l) = skipn (a + b) l.
Proof. intros a b. revert a. induction b as [|b IH]; intros a l; [rewrite Nat.add_0_r; reflexivity|]. destruct l as [|x l]; [rewrite !skipn_nil; reflexivity|]. rewrite Nat.add_succ_r. cbn [skipn]. apply IH. Qed.
Lemma i2osp_part l : bytes l -> length l = N -> i2osp (os2ip l) N = l.
Proof. intros A1 A2. rewrite <- A2. apply i2osp_os2ip. exact A1. Qed.
Theorem dec_top_err b : bytes b -> (forall A, on_e2 p b4 A -> b <> C2 A /\ b <> P2 A) -> deserialize_g2 r b = Some (Err (g2_error N b)).
Proof.
  intros Hb NO. destruct b as [|h t]; [reflexivity|]. pose proof Hb as Hb0. inversion_clear Hb as [|? ? B1 B2]. unfold is_byte in B1. unfold deserialize_g2, g2_error. rewrite (land128 r HN1) by lia.
  destruct (bfacts r HN1 h B1) as [_ [F2 [F3 [F4 _]]]]. destruct (Z.ltb_spec h 128) as [Lh|Lh]; destruct (Z.leb_spec 128 h) as [Lh'|Lh']; try lia.
  - destruct (Nat.eqb_spec (length (h :: t)) (4 * N)) as [L|L]; cbn [negb].
    2:{ unfold deserialize_uncompressed_g2. change (Bls.mb r) with N. destruct (Nat.eqb_spec (length (h :: t)) (4 * N)); [contradiction|reflexivity]. }
    destruct (Z_lt_ge_dec h 64) as [L64|L64].
    + destruct (Z.leb_spec 32 h) as [L32|L32]; cbn [andb].
      * unfold deserialize_uncompressed_g2. change (Bls.mb r) with N. rewrite L, Nat.eqb_refl. cbn [negb]. unfold INFINITY_FLAG, Y_FLAG. rewrite F2. rewrite (Z.div_small h 64) by lia. rewrite Z.mod_0_l, Z.mul_0_r by lia. change (negb (0 =? 0)) with false. cbv iota. rewrite F3.
        destruct (Z.ltb_spec h 64); [|lia]. replace (h / 32) with 1 by (apply Z.div_unique with (h - 32); lia). reflexivity.
      * destruct (dec2_u r HR (h :: t) Hb0 L ltac:(cbn [hd]; lia)) as [_ D]. apply D. clear D. intros O. destruct (NO _ O) as [_ N2]. apply N2. unfold plain2. cbn [fst snd].
        assert (BS : forall k, bytes (skipn k (h :: t))). { intros k. unfold bytes in *. rewrite <- (firstn_skipn k (h :: t)) in Hb0. apply Forall_app in Hb0. tauto. }
        assert (BF : forall k l, bytes l -> bytes (firstn k l)). { intros k l Hl. unfold bytes in *. rewrite <- (firstn_skipn k l) in Hl. apply Forall_app in Hl. tauto. }
        rewrite !i2osp_part; auto; rewrite ?firstn_length, ?skipn_length; try lia.
        transitivity (firstn N (h :: t) ++ firstn N (skipn N (h :: t)) ++ firstn N (skipn N (skipn N (h :: t))) ++ skipn N (skipn N (skipn N (h :: t)))); [rewrite !firstn_skipn; reflexivity|]. rewrite !skip2. replace (N + N)%nat with (2 * N)%nat by lia. replace (2 * N + N)%nat with (3 * N)%nat by lia. replace (N + 2 * N)%nat with (3 * N)%nat by lia. reflexivity.
    + unfold deserialize_uncompressed_g2. change (Bls.mb r) with N. rewrite L, Nat.eqb_refl. cbn [negb]. unfold INFINITY_FLAG. rewrite F2. replace (h / 64) with 1 by (apply Z.div_unique with (h - 64); lia). change (64 * (1 mod 2)) with 64. change (negb (64 =? 0)) with true. cbv iota.
      replace ((32 <=? h) && (h <? 64)) with false by (destruct (Z.ltb_spec h 64); [lia|rewrite andb_false_r; reflexivity]).
      destruct (trailing_zero (h :: t)) eqn:TZ; [|reflexivity]. apply (tz r HN1) in TZ; [|lia]. destruct TZ as [T1 T2]. exfalso. destruct (NO Inf2 I) as [_ N2]. apply N2. rewrite (pinf2 r HR).
      assert (h = 64) by (rewrite (Z.mod_eq h 64) in T1 by lia; replace (h / 64) with 1 in T1 by (apply Z.div_unique with (h - 64); lia); lia). subst h. cbn [length] in L. rewrite T2. do 2 f_equal. lia.
  - destruct (Nat.eqb_spec (length (h :: t)) (2 * N)) as [L|L].
    2:{ unfold deserialize_compressed_g2. change (Bls.mb r) with N. destruct (Nat.eqb_spec (length (h :: t)) (2 * N)); [contradiction|reflexivity]. }
    cbn [length] in L. set (q := h / 32) in *. assert (Q : h = 32 * q + h mod 32) by (unfold q; apply Z.div_mod; lia). pose proof (Z.mod_pos_bound h 32 ltac:(lia)) as HM.
    destruct (Z_lt_ge_dec q 6) as [Q6|Q6].
    + assert (FF : q - 4 = 0 \/ q - 4 = 1) by lia.
      assert (BT : bytes (firstn (N - 1) t) /\ bytes (skipn (N - 1) t)). { unfold bytes in *. rewrite <- (firstn_skipn (N - 1) t) in B2. apply Forall_app in B2. tauto. } destruct BT as [BT1 BT2].
      assert (LT1 : length (firstn (N - 1) t) = (N - 1)%nat) by (rewrite firstn_length; lia). assert (LT2 : length (skipn (N - 1) t) = N) by (rewrite skipn_length; lia).
      pose proof (dec2_c r HR (h mod 32) (q - 4) _ _ HM FF BT1 BT2 LT1 LT2) as D. replace (128 + 32 * (q - 4) + h mod 32) with h in D by lia. rewrite firstn_skipn in D. destruct D as [D1 [D2 _]].
      set (a := os2ip (h mod 32 :: firstn (N - 1) t)) in *. set (b := os2ip (skipn (N - 1) t)) in *. destruct (Z_lt_ge_dec a p) as [La|La]; [|apply D1; lia]. destruct (Z_lt_ge_dec b p) as [Lb|Lb]; [|apply D1; lia]. apply D2; [exact La|exact Lb|].
      assert (BA : bytes (h mod 32 :: firstn (N - 1) t)) by (constructor; [unfold is_byte; lia|exact BT1]).
      assert (A0 : 0 <= a) by (apply os2ip_range; exact BA). assert (B0 : 0 <= b) by (apply os2ip_range; exact BT2).
      assert (EE : i2osp a (N - 1) = firstn (N - 1) t /\ a / T = h mod 32).
      { assert (E : i2osp a N = h mod 32 :: firstn (N - 1) t) by (apply i2osp_part; [exact BA|cbn [length]; lia]). destruct (x_head r HN1 Hbits a ltac:(lia)) as [E' _]. rewrite E in E'. injection E' as E1 E2. auto. }
      assert (EB : i2osp b N = skipn (N - 1) t) by (apply i2osp_part; assumption). destruct EE as [EA1 EA2].
      assert (K : forall y, on_e2 p b4 (Aff2 (b, a) y) -> (if larger2 p y then 1 else 0) <> q - 4).
      { intros y O EF. destruct (NO _ O) as [N1 _]. apply N1. rewrite (caff_f (b, a) y) by (split; cbn [fst snd]; lia). cbn [fst snd]. rewrite EA1, EA2, EB, firstn_skipn, EF. f_equal. lia. }
      intros y O. pose proof (K y O) as K1. pose proof (K _ (on_neg r HR _ _ O)) as K2. rewrite (larger2_neg r HR y) in K2; [|apply O|exact (no_y0 r HR _ _ O)]. destruct (larger2 p y); cbn [negb] in *; lia.
    + unfold deserialize_compressed_g2. change (Bls.mb r) with N. cbn [length]. rewrite L, Nat.eqb_refl. cbn [negb]. unfold INFINITY_FLAG. rewrite F2. replace (h / 64) with 3 by (apply Z.div_unique with (h - 192); lia). change (64 * (3 mod 2)) with 64. change (negb (64 =? 0)) with true. cbv iota.
      destruct (trailing_zero (h :: t)) eqn:TZ; [|reflexivity]. apply (tz r HN1) in TZ; [|lia]. destruct TZ as [T1 T2]. exfalso. destruct (NO Inf2 I) as [N1 _]. apply N1. rewrite (cinf2 r HR).
      assert (h = 128 + 64) by (rewrite (Z.mod_eq h 64) in T1 by lia; replace (h / 64) with 3 in T1 by (apply Z.div_unique with (h - 192); lia); lia). subst h. rewrite T2. do 2 f_equal. lia.
Qed.
End G2.
