(** The wide split of a product of Bigs, comparison and shifts of FFs. *)
From Verif Require Import Base.Word Model.Big Model.Ff Spec.BigSpec Spec.FfSpec Proof.BigVal Proof.BigShift
  Proof.BigMul Proof.BigSqr Proof.BigMisc Proof.BigMod Proof.BigBytes Proof.BigInv Proof.FfBase.
Open Scope Z_scope.

Section F.
Variable c : cfg.
Hypothesis Hff : ff_ok c.
Notation B := (BASEBITS c).
Notation C := (CHUNK c).
Notation N := (NLEN c).
Notation X := (2 ^ BASEBITS c).
Notation V := (val (BASEBITS c)).
Notation T := (FT c).
Notation R := (bigR c).
Notation FV := (fval c).
Notation cn := (cn c).
Notation nb := (nb c).
Notation tf := (tf c).
Notation SL := (SL c).
Notation E1 := (E1 c).
Let HT := proj2 (ffok c Hff).
Let Hok := Hok c Hff.
Let HB : 8 <= B. Proof. pose proof (fB c Hff). lia. Qed.
Let HB0 : 0 <= B. Proof. lia. Qed.
Let HC := fC c Hff.
Let HN := fN c Hff.
Let HX := fX c Hff.
Let HXC := fXC c Hff.
Let PE := E1_pos c Hff.
Let PT := T_pos c Hff.
Let PR := R_pos c Hff.

Lemma pow_even n : 1 <= n -> 2 ^ n = 2 ^ (n - 1) * 2.
Proof. intros H. replace n with (Z.succ (n - 1)) at 1 by lia. rewrite Z.pow_succ_r by lia. ring. Qed.
Lemma split_loop_wide m pre x y : 0 <= m < B -> canon B pre -> 0 <= x < X -> 0 <= y -> y * 2 ^ (B - m) < 2 ^ (C - 1) ->
  fst (split_loop c m (pre ++ [x]) (wrap C (Z.shiftl y (B - m)))) = shr_limbs c m (pre ++ [x + X * y])
  /\ snd (split_loop c m (pre ++ [x]) (wrap C (Z.shiftl y (B - m)))) = Z.land (wrap C (Z.shiftl (hd (x + X * y) pre) (B - m))) (BMASK c).
Proof.
  intros Hm Hp Hx Hy Hb. assert (P : 0 < 2 ^ (B - m)) by (apply pow2_pos; lia).
  assert (Ex : X = 2 ^ (B - m) * 2 ^ m) by (rewrite <- Z.pow_add_r by lia; f_equal; lia).
  assert (Pm : 0 < 2 ^ m) by (apply pow2_pos; lia).
  induction Hp as [|a pre Ha Hp IH].
  - cbn [app split_loop shr_limbs fst snd hd]. split.
    + f_equal. rewrite !Z.shiftl_mul_pow2 by lia. rewrite wrap_id; [|lia|split; [|lia]; assert (0 <= y * 2 ^ (B - m)) by (apply Z.mul_nonneg_nonneg; lia); lia].
      rewrite !Z.shiftr_div_pow2 by lia. rewrite lor_disjoint; [|lia|].
      * rewrite Ex at 1. replace (x + 2 ^ (B - m) * 2 ^ m * y) with (x + (y * 2 ^ (B - m)) * 2 ^ m) by ring. rewrite Z.div_add by lia. reflexivity.
      * split; [apply Z.div_pos; lia|]. apply Z.div_lt_upper_bound; [lia|]. rewrite Z.mul_comm, <- Ex. lia.
    + rewrite !wrap_bmask by assumption. rewrite !Z.shiftl_mul_pow2 by lia.
      replace ((x + X * y) * 2 ^ (B - m)) with (x * 2 ^ (B - m) + (y * 2 ^ (B - m)) * X) by ring. rewrite Z.mod_add by lia. reflexivity.
  - destruct IH as [I1 I2]. cbn [app]. cbn [split_loop]. destruct (split_loop c m (pre ++ [x]) (wrap C (Z.shiftl y (B - m)))) as [r cr] eqn:E.
    cbn [fst snd hd] in *. split; [|reflexivity]. subst r cr. destruct pre as [|b pre]; cbn [app hd shr_limbs]; reflexivity.
Qed.

(** the leaf of the Karatsuba multiplication *)
Lemma split_wide d g : dbig_wf c d -> 0 <= V d < g * (R * R) -> g <= 4 * SL ->
  exists hi lo, split c d (8 * MODBYTES c) = (hi, lo) /\ nb g hi /\ cn (big_dcopy c lo) /\ V (big_dcopy c lo) + R * V hi = V d.
Proof.
  intros [Hl Hd] Hv Hg. unfold split. fold (FT c).
  pose proof (bits_eq c Hff) as Eb. unfold DNLEN in *.
  set (y := get d (2 * N - 1)).
  assert (Hy : 0 <= y < X) by (apply canon_get; assumption).
  set (x := get d (2 * N - 2)). assert (Hxr : 0 <= x < X) by (apply canon_get; assumption).
  set (lowp := firstn (N - 1) d). set (pre := firstn (N - 1) (skipn (N - 1) d)).
  assert (Emid : firstn N (skipn (N - 1) d) = pre ++ [x]).
  { replace N with ((N - 1) + 1)%nat at 1 by lia. unfold pre.
    rewrite <- (firstn_skipn (N - 1) (skipn (N - 1) d)) at 1. rewrite firstn_app.
    rewrite firstn_all2 by (rewrite firstn_length; lia). f_equal. rewrite firstn_length, !skipn_length.
    replace (N - 1 + 1 - Nat.min (N - 1) (length d - (N - 1)))%nat with 1%nat by lia.
    rewrite skipn_skipn. rewrite (get_nth d (N - 1 + (N - 1))) by lia. cbn [firstn]. unfold x. do 2 f_equal. lia. }
  rewrite Emid.
  assert (Ed : d = lowp ++ pre ++ [x; y]).
  { rewrite <- (firstn_skipn (N - 1) d) at 1. unfold lowp. f_equal. rewrite <- (firstn_skipn (N - 1) (skipn (N - 1) d)) at 1. unfold pre. f_equal.
    rewrite skipn_skipn. rewrite (get_nth d (N - 1 + (N - 1))) by lia. rewrite (get_nth d (S (N - 1 + (N - 1)))) by lia.
    rewrite skipn_all2 by lia. unfold x, y. replace (N - 1 + (N - 1))%nat with (2 * N - 2)%nat by lia. replace (S (2 * N - 2)) with (2 * N - 1)%nat by lia. reflexivity. }
  assert (Llow : length lowp = (N - 1)%nat) by (unfold lowp; rewrite firstn_length; lia).
  assert (Lpre : length pre = (N - 1)%nat) by (unfold pre; rewrite firstn_length, skipn_length; lia).
  assert (Clow : canon B lowp) by (apply canon_firstn; exact Hd).
  assert (Cpre : canon B pre).
  { unfold pre. apply canon_firstn. unfold canon in *. rewrite <- (firstn_skipn (N - 1) d) in Hd. apply Forall_app in Hd. apply Hd. }
  set (mid' := pre ++ [x + X * y]).
  assert (Nm : nrm B mid') by (apply (nrm_build c); exact Cpre).
  assert (Vm : V (pre ++ [x; y]) = V mid').
  { unfold mid'. rewrite !val_app by exact HB0. cbn [val]. f_equal. f_equal. ring. }
  pose proof (canon_val B lowp HB0 Clow) as Vlow. rewrite Llow in Vlow. rewrite Nat2Z.inj_sub in Vlow by lia. change (Z.of_nat 1) with 1 in Vlow. fold E1 in Vlow.
  assert (Vd : V d = V lowp + E1 * V mid').
  { rewrite Ed at 1. rewrite val_app by exact HB0. rewrite Llow, Nat2Z.inj_sub by lia. change (Z.of_nat 1) with 1. fold E1. rewrite Vm. reflexivity. }
  assert (Dq : V d / R = V mid' / 2 ^ T).
  { rewrite (R_eq c Hff), <- Z.div_div by lia. f_equal. rewrite Vd, (Z.mul_comm E1), Z.div_add, (Z.div_small (V lowp)) by lia. lia. }
  assert (Qv : 0 <= V d / R < g * R).
  { split; [apply Z.div_pos; lia|]. apply Z.div_lt_upper_bound; [lia|]. replace (R * (g * R)) with (g * (R * R)) by ring. lia. }
  assert (Lm : length mid' = N) by (unfold mid'; rewrite app_length; cbn; lia).
  assert (Pm' : 0 <= V pre). { pose proof (canon_val B pre HB0 Cpre). lia. }
  assert (Vmid : V mid' = V pre + E1 * (x + X * y)).
  { unfold mid'. rewrite val_app by exact HB0. rewrite Lpre, Nat2Z.inj_sub by lia. cbn [val]. change (Z.of_nat 1) with 1. fold E1. ring. }
  assert (Hyb : y * 2 ^ (B - T) < 2 ^ (C - 1)).
  { pose proof (XS c Hff) as XS. fold (FfBase.SL c).
    assert (Q : V mid' < g * R * 2 ^ T).
    { rewrite Dq in Qv. pose proof (Z.div_mod (V mid') (2 ^ T) ltac:(lia)). pose proof (Z.mod_pos_bound (V mid') (2 ^ T) PT).
      assert (2 ^ T * (V mid' / 2 ^ T + 1) <= 2 ^ T * (g * R)) by (apply Z.mul_le_mono_nonneg_l; lia). lia. }
    assert (Q2 : E1 * (X * y) < E1 * ((4 * X) * 2 ^ T)).
    { assert (0 <= E1 * x) by (apply Z.mul_nonneg_nonneg; lia). rewrite Vmid in Q. rewrite Z.mul_add_distr_l in Q.
      assert (g * R * 2 ^ T <= E1 * ((4 * X) * 2 ^ T)); [|lia].
      rewrite (R_eq c Hff). rewrite XS. replace (g * (E1 * 2 ^ T) * 2 ^ T) with (g * (E1 * 2 ^ T * 2 ^ T)) by ring.
      replace (E1 * (4 * (SL * 2 ^ T) * 2 ^ T)) with ((4 * SL) * (E1 * 2 ^ T * 2 ^ T)) by ring. apply Z.mul_le_mono_nonneg_r; [|exact Hg].
      apply Z.lt_le_incl. apply Z.mul_pos_pos; [apply Z.mul_pos_pos; lia|lia]. }
    apply Z.mul_lt_mono_pos_l in Q2; [|exact PE].
    assert (y < 4 * 2 ^ T). { apply (Z.mul_lt_mono_pos_l X); [lia|]. replace (X * (4 * 2 ^ T)) with (4 * X * 2 ^ T) by ring. exact Q2. }
    assert (y * SL < 4 * X); [|lia]. rewrite XS. pose proof (S_big c Hff). replace (4 * (SL * 2 ^ T)) with ((4 * 2 ^ T) * SL) by ring.
    apply Z.mul_lt_mono_pos_r; lia. }
  destruct (split_loop_wide T pre x y ltac:(lia) Cpre Hxr ltac:(lia) Hyb) as [SW _]. rewrite SW.
  destruct (shr_limbs_spec c HB HC mid' T ltac:(lia) Nm) as [S1 [S2 S3]]. fold mid'.
  eexists _, _. split; [reflexivity|].
  assert (Lo : big_dcopy c (lowp ++ Z.land (get d (N - 1)) (2 ^ T - 1) :: skipn N d) = lowp ++ [get d (N - 1) mod 2 ^ T]).
  { unfold big_dcopy. rewrite firstn_app, Llow.
    replace (N - (N - 1))%nat with 1%nat by lia. rewrite (firstn_all2 lowp) by lia. cbn [firstn].
    replace (2 ^ T - 1) with (Z.ones T) by (rewrite Z.ones_equiv; lia). rewrite Z.land_ones by lia. reflexivity. }
  rewrite Lo.
  assert (Hg0 : 0 <= get d (N - 1) < X) by (apply canon_get; assumption).
  pose proof (Z.mod_pos_bound (get d (N - 1)) (2 ^ T) PT) as Mg.
  assert (2 ^ T <= X) by (apply pow2_le; lia).
  assert (Vl : V (lowp ++ [get d (N - 1) mod 2 ^ T]) = V d mod R).
  { rewrite val_app by exact HB0. rewrite Llow, Nat2Z.inj_sub by lia. change (Z.of_nat 1) with 1. fold E1. cbn [val].
    rewrite Z.mul_0_r, Z.add_0_r. rewrite Vd, (R_eq c Hff), Z.rem_mul_r by lia.
    rewrite (Z.mul_comm E1 (V mid')), Z.mod_add, Z.div_add, (Z.mod_small (V lowp)), (Z.div_small (V lowp)) by lia. rewrite Z.add_0_l.
    f_equal. f_equal.
    assert (Eg : get d (N - 1) = hd 0 (pre ++ [x; y])).
    { rewrite Ed at 1. unfold get. rewrite app_nth2 by lia. rewrite Llow, Nat.sub_diag. destruct pre; reflexivity. }
    rewrite <- Vm. rewrite Eg. destruct (pre ++ [x; y]) as [|h t] eqn:Ep; [destruct pre; discriminate|]. cbn [hd val].
    replace X with (2 ^ (B - T) * 2 ^ T) by (rewrite <- Z.pow_add_r by lia; f_equal; lia).
    replace (h + 2 ^ (B - T) * 2 ^ T * V t) with (h + (2 ^ (B - T) * V t) * 2 ^ T) by ring. rewrite Z.mod_add by lia. reflexivity. }
  split; [|split; [split; [split|]|]].
  - split; [lia|]. split; [exact S2|]. rewrite S1, <- Dq. exact Qv.
  - rewrite app_length. cbn. lia.
  - apply canon_app; [exact Clow|]. constructor; [lia|constructor].
  - rewrite Vl. apply Z.mod_pos_bound. lia.
  - rewrite Vl, S1, <- Dq. pose proof (Z.div_mod (V d) R ltac:(lia)). lia.
Qed.

Lemma leaf_mul x y gx gy : nb gx x -> nb gy y -> gx <= SL -> gy <= SL -> 0 <= gx -> 0 <= gy -> gx * gy <= 4 * SL ->
  exists z, karmul c 0 [x] [y] = Some z /\ length z = 2%nat /\ tf (gx * gy) z /\ FV z = V x * V y.
Proof.
  intros Hx Hy Gx Gy Px Py G. destruct (mul_spec c Hok x y (nb_wf c Hff _ _ Hx Gx) (nb_wf c Hff _ _ Hy Gy)) as [d [D1 [D2 D3]]].
  destruct Hx as [_ [_ Hx]], Hy as [_ [_ Hy]].
  destruct (split_wide d (gx * gy) D2) as [hi [lo [S1 [S2 [S3 S4]]]]]; [rewrite D3| exact G|].
  { split; [apply Z.mul_nonneg_nonneg; lia|]. replace (gx * gy * (R * R)) with ((gx * R) * (gy * R)) by ring. apply Z.mul_lt_mono_nonneg; lia. }
  cbn [karmul nth]. rewrite D1. cbn [bind]. rewrite S1. eexists. split; [reflexivity|]. split; [reflexivity|]. split.
  - exists [big_dcopy c lo], hi. split; [reflexivity|]. split; [constructor; [exact S3|constructor]|exact S2].
  - cbn [fval]. unfold bval. lia.
Qed.
Lemma leaf_sqr x g : nb g x -> g <= SL -> 0 <= g -> g * g <= 4 * SL ->
  exists lo hi, karsqr c 0 [x] = Some [lo; hi] /\ cn lo /\ nb (g * g) hi /\ V lo + R * V hi = V x * V x.
Proof.
  intros Hx Gx Px G. destruct (sqr_spec c Hok x (nb_wf c Hff _ _ Hx Gx)) as [d [D1 [D2 D3]]].
  destruct Hx as [_ [_ Hx]].
  destruct (split_wide d (g * g) D2) as [hi [lo [S1 [S2 [S3 S4]]]]]; [rewrite D3| exact G|].
  { split; [apply Z.mul_nonneg_nonneg; lia|]. replace (g * g * (R * R)) with ((g * R) * (g * R)) by ring. apply Z.mul_lt_mono_nonneg; lia. }
  cbn [karsqr nth]. rewrite D1. cbn [bind]. rewrite S1. eexists _, _. split; [reflexivity|]. split; [exact S3|]. split; [exact S2|]. lia.
Qed.

(** ** comparison *)
Lemma cn_wf x : cn x -> big_wf c x. Proof. intros [H _]. exact H. Qed.
Lemma ffcomp_app a b a' b' : length a = length a' -> length b = length b' ->
  ff_comp (a ++ b) (a' ++ b') = if ff_comp b b' =? 0 then ff_comp a a' else ff_comp b b'.
Proof.
  revert a'. induction a as [|x a IH]; intros [|y a'] L Lb; cbn in L; try discriminate.
  - cbn [app ff_comp]. destruct (ff_comp b b' =? 0) eqn:E; [apply Z.eqb_eq in E; exact E|reflexivity].
  - cbn [app ff_comp]. rewrite (IH a' ltac:(lia) Lb). destruct (ff_comp b b' =? 0) eqn:E; [reflexivity|]. rewrite E. reflexivity.
Qed.
Definition cmpz (u v : Z) : Z := match u ?= v with Lt => -1 | Eq => 0 | Gt => 1 end.
Lemma cmpz_big x y u v M : 0 <= u < M -> 0 <= v < M -> cmpz (u + M * x) (v + M * y) = if cmpz x y =? 0 then cmpz u v else cmpz x y.
Proof.
  intros Hu Hv. unfold cmpz. destruct (Z.compare_spec x y) as [E|L|L]; cbn [Z.eqb].
  - subst y. destruct (Z.compare_spec u v); destruct (Z.compare_spec (u + M * x) (v + M * x)); try reflexivity; lia.
  - assert (M * (x + 1) <= M * y) by (apply Z.mul_le_mono_nonneg_l; lia). destruct (Z.compare_spec (u + M * x) (v + M * y)); try reflexivity; lia.
  - assert (M * (y + 1) <= M * x) by (apply Z.mul_le_mono_nonneg_l; lia). destruct (Z.compare_spec (u + M * x) (v + M * y)); try reflexivity; lia.
Qed.
Lemma comp_z x y : length x = N -> length y = N -> nrm B x -> nrm B y -> comp x y = cmpz (V x) (V y).
Proof. intros Lx Ly Wx Wy. apply (comp_spec c HB); [exact Wx|exact Wy|lia]. Qed.
Lemma ffcomp_cn a b : Forall cn a -> Forall cn b -> length a = length b -> ff_comp a b = cmpz (FV a) (FV b).
Proof.
  intros Ha. revert b. induction Ha as [|x a Hx Ha IH]; intros b Hb L; destruct b as [|y b]; cbn in L; try discriminate; [reflexivity|].
  apply Forall_cons_iff in Hb. destruct Hb as [Hy Hb]. cbn [ff_comp fval]. rewrite (IH b Hb ltac:(lia)).
  apply (cn_nb c Hff) in Hx, Hy. destruct Hx as [Lx [Wx Vx]], Hy as [Ly [Wy Vy]]. rewrite (comp_z x y Lx Ly Wx Wy). unfold bval.
  rewrite cmpz_big by lia. reflexivity.
Qed.
Lemma ffcomp_ok g g' a b : tf g a -> tf g' b -> length a = length b -> ff_comp a b = cmpz (FV a) (FV b).
Proof.
  intros [a0 [x [-> [Ha [Lx [Wx Vx]]]]]] [b0 [y [-> [Hb [Ly [Wy Vy]]]]]] L. rewrite !app_length in L. cbn [length] in L.
  rewrite ffcomp_app by (cbn; lia). rewrite !(FV_app c Hff). cbn [fval]. rewrite !Z.mul_0_r, !Z.add_0_r. unfold bval.
  replace (length b0) with (length a0) by lia. rewrite cmpz_big.
  - cbn [ff_comp]. cbn [Z.eqb]. rewrite (comp_z x y Lx Ly Wx Wy). rewrite (ffcomp_cn a0 b0 Ha Hb ltac:(lia)). reflexivity.
  - apply (cn_range c Hff). exact Ha.
  - replace (length a0) with (length b0) by lia. apply (cn_range c Hff). exact Hb.
Qed.
Lemma cmpz_lt u v : (cmpz u v <? 0) = (u <? v).
Proof. unfold cmpz. destruct (Z.compare_spec u v); symmetry; [apply Z.ltb_ge|apply Z.ltb_lt|apply Z.ltb_ge]; lia. Qed.
Lemma cmpz_ge u v : (0 <=? cmpz u v) = (v <=? u).
Proof. unfold cmpz. destruct (Z.compare_spec u v); symmetry; [apply Z.leb_le|apply Z.leb_gt|apply Z.leb_le]; lia. Qed.
Lemma cmpz_gt u v : (0 <? cmpz u v) = (v <? u).
Proof. unfold cmpz. destruct (Z.compare_spec u v); symmetry; [apply Z.ltb_ge|apply Z.ltb_ge|apply Z.ltb_lt]; lia. Qed.

(** ** shift left by one *)
Lemma nrm_head w : nrm B w -> length w = N -> exists a t, w = a :: t /\ 0 <= a < X /\ t <> [].
Proof.
  intros W L. destruct w as [|a [|b t]]; cbn in L; try lia. exists a, (b :: t). split; [reflexivity|]. split; [apply W|discriminate].
Qed.
Lemma inc_even y d : length y = N -> nrm B y -> V y mod 2 = 0 -> 0 <= d <= 1 -> - 2 ^ (C - 1) <= last y 0 < 2 ^ (C - 1) ->
  exists z, inc c y d = Some z /\ length z = N /\ nrm B z /\ V z = V y + d /\ last z 0 = last y 0.
Proof.
  intros L W E Hd Hl. unfold inc. rewrite (norm_id c HB HC y W Hl). cbn [bind].
  destruct (nrm_head y W L) as [a [t [-> [Ha Ht]]]]. rewrite wrap_id by lia. rewrite chk_ok by lia. cbn [bind].
  assert (Ea : a mod 2 = 0).
  { cbn [val] in E. replace X with (2 ^ (B - 1) * 2) in E.
    - replace (a + 2 ^ (B - 1) * 2 * V t) with (a + (2 ^ (B - 1) * V t) * 2) in E by ring. rewrite Z.mod_add in E by lia. exact E.
    - symmetry. apply pow_even. lia. }
  assert (a <> X - 1).
  { intros ->. assert (Q : X = 2 ^ (B - 1) * 2) by (apply pow_even; lia).
    rewrite Q in Ea. replace (2 ^ (B - 1) * 2 - 1) with (1 + (2 ^ (B - 1) - 1) * 2) in Ea by ring. rewrite Z.mod_add in Ea by lia. discriminate. }
  eexists. split; [reflexivity|]. split; [exact L|]. destruct t as [|b t]; [congruence|]. split; [|split].
  - destruct W as [_ W]. split; [lia|exact W].
  - cbn [val]. lia.
  - reflexivity.
Qed.
Lemma shl_big g x : nb g x -> 2 * g <= 4 * SL -> exists y, fshl c x 1 = Some y /\ nb (2 * g) y /\ V y = 2 * V x /\ - 2 ^ (C - 1) <= last y 0 < 2 ^ (C - 1).
Proof.
  intros H G. destruct (nb_last c Hff g x H) as [Hl _]. pose proof H as [L [W Hv]]. pose proof (XS c Hff) as XS.
  assert (Q : 2 * (g * 2 ^ T) <= 4 * X). { rewrite XS. replace (2 * (g * 2 ^ T)) with (2 * g * 2 ^ T) by ring. rewrite Z.mul_assoc. apply Z.mul_le_mono_nonneg_r; lia. }
  destruct (fshl_spec c HB HC x 1 ltac:(lia) ltac:(lia) W) as [y [Y1 [Y2 [Y3 Y4]]]]; [change (2 ^ 1) with 2; lia|].
  change (2 ^ 1) with 2 in Y2. exists y. split; [exact Y1|]. assert (Hy : nb (2 * g) y) by (split; [lia|]; split; [exact Y3|]; lia). split; [exact Hy|].
  split; [lia|]. destruct (nb_last c Hff _ y Hy) as [Hly _]. replace (2 * g * 2 ^ T) with (2 * (g * 2 ^ T)) in Hly by ring. lia.
Qed.
Lemma ffshl_loop_ok g f : tf g f -> 1 <= g -> g <= 2 * SL -> forall d, 0 <= d <= 1 ->
  exists r, ff_shl_loop c f d = Some r /\ length r = length f /\ tf (2 * g) r /\ FV r = 2 * FV f + d.
Proof.
  intros [a [b [-> [Ha Hb]]]] G1 G2. pose proof (S_big c Hff) as SB. induction Ha as [|x a Hx Ha IH]; intros d Hd.
  - cbn [app ff_shl_loop]. destruct (shl_big g b Hb ltac:(lia)) as [y [Y1 [Y2 [Y3 Y4]]]]. rewrite Y1. cbn [bind].
    pose proof Y2 as [Ly [Wy Vy]]. destruct (inc_even y d Ly Wy) as [z [Z1 [Z2 [Z3 [Z4 Z5]]]]]; [rewrite Y3, Z.mul_comm; apply Z.mod_mul; lia|exact Hd|exact Y4|].
    rewrite Z1. cbn [bind]. eexists. split; [reflexivity|]. split; [reflexivity|]. split.
    + exists [], z. split; [reflexivity|]. split; [constructor|]. split; [exact Z2|]. split; [exact Z3|]. rewrite Z4, Y3.
      destruct Hb as [_ [_ Hv]]. split; [lia|]. replace (2 * g * R) with (2 * (g * R)) by ring. lia.
    + cbn [fval]. unfold bval. lia.
  - cbn [app ff_shl_loop]. apply (cn_nb c Hff) in Hx. destruct (shl_big 1 x Hx ltac:(lia)) as [y [Y1 [Y2 [Y3 Y4]]]]. rewrite Y1. cbn [bind].
    pose proof Y2 as [Ly [Wy Vy]]. destruct (inc_even y d Ly Wy) as [z [Z1 [Z2 [Z3 [Z4 Z5]]]]]; [rewrite Y3, Z.mul_comm; apply Z.mod_mul; lia|exact Hd|exact Y4|].
    rewrite Z1. cbn [bind].
    assert (Ee : excess_of c y = excess_of c z) by (unfold excess_of; rewrite Z5; reflexivity). rewrite Ee.
    rewrite <- Z5 in Y4. destruct (top_ok c Hff z Z3 Z2 Y4) as [T1 [T2 T3]].
    assert (Hq : 0 <= V z / R <= 1).
    { split; [apply Z.div_pos; lia|]. assert (V z / R < 2); [|lia]. apply Z.div_lt_upper_bound; [lia|]. rewrite Z4, Y3.
      destruct Hx as [_ [_ Hx]]. assert (Even : R = 2 * (R / 2)).
      { assert (Er : R = 2 ^ (8 * MODBYTES c - 1) * 2).
        { unfold bigR. apply pow_even. pose proof (cf_M c (cfg_ok_facts c Hok)). lia. }
        rewrite Er at 2. rewrite Z.div_mul by lia. lia. }
      lia. }
    destruct (a ++ [b]) as [|h t] eqn:E; [destruct a; discriminate|].
    rewrite T1 in *. destruct (IH (V z / R) Hq) as [r [R1 [R2 [[a' [b' [E2 [Ha' Hb']]]] R4]]]]. rewrite R1. cbn [bind].
    eexists. split; [reflexivity|]. split; [cbn [length] in *; lia|]. split.
    + eexists (_ :: a'), b'. split; [rewrite E2; reflexivity|]. split; [constructor; assumption|exact Hb'].
    + set (g0 := h :: t) in *. cbn [fval]. unfold bval. rewrite R4, T3. pose proof (Z.div_mod (V z) R ltac:(lia)). lia.
Qed.
Lemma ffshl_ok g f : tf g f -> 1 <= g -> g <= 2 * SL -> exists r, ff_shl c f = Some r /\ length r = length f /\ tf (2 * g) r /\ FV r = 2 * FV f.
Proof. intros H G1 G2. destruct (ffshl_loop_ok g f H G1 G2 0 ltac:(lia)) as [r [R1 [R2 [R3 R4]]]]. exists r. rewrite Z.add_0_r in R4. auto. Qed.

(** ** shift right by one *)
Lemma xortop_set x d : cn x -> 0 <= d <= 1 ->
  nb 2 (xortop c x (wrap C (Z.shiftl d T))) /\ V (xortop c x (wrap C (Z.shiftl d T))) = V x + d * R.
Proof.
  intros Hx Hd. apply (cn_nb c Hff) in Hx. destruct (nb_last c Hff 1 x Hx) as [Hl _]. destruct Hx as [L [W Hv]]. rewrite Z.mul_1_l in Hl.
  assert (2 ^ T <= X) by (apply pow2_le; lia).
  assert (Ew : wrap C (Z.shiftl d T) = d * 2 ^ T).
  { rewrite Z.shiftl_mul_pow2 by lia. apply wrap_id; [lia|]. assert (0 <= d * 2 ^ T <= 1 * 2 ^ T) by (split; [apply Z.mul_nonneg_nonneg; lia|apply Z.mul_le_mono_nonneg_r; lia]). lia. }
  assert (Ex : xortop c x (wrap C (Z.shiftl d T)) = firstn (N - 1) x ++ [last x 0 + d * 2 ^ T]).
  { unfold xortop. rewrite Ew, (last_get c Hff x L). do 2 f_equal. 
    rewrite <- Z.add_nocarry_lxor; [reflexivity|]. apply Z.bits_inj'. intros n Hn. rewrite Z.land_spec, Z.bits_0.
    destruct (Z.lt_ge_cases n T) as [Q|Q]; [rewrite (Z.mul_pow2_bits_low d) by lia; apply andb_false_r|].
    rewrite (Z.bits_above_log2 (last x 0)); [reflexivity|lia|]. destruct (Z.eq_dec (last x 0) 0) as [->|]; [cbn; lia|]. apply Z.log2_lt_pow2; [lia|].
    eapply Z.lt_le_trans; [apply Hl|]. apply pow2_le. lia. }
  rewrite Ex. pose proof (low_range c Hff x W L) as Lr. pose proof (val_last c Hff x L) as Ev.
  assert (Ll : length (firstn (N - 1) x) = (N - 1)%nat) by (rewrite firstn_length; lia).
  assert (Ve : V (firstn (N - 1) x ++ [last x 0 + d * 2 ^ T]) = V x + d * R).
  { rewrite val_app by exact HB0. rewrite Ll, Nat2Z.inj_sub by lia. change (Z.of_nat 1) with 1. fold E1. cbn [val]. rewrite Ev, (R_eq c Hff). ring. }
  split; [|exact Ve]. split; [rewrite app_length, Ll; cbn; lia|]. split; [apply (nrm_build c); apply (nrm_low c Hff); assumption|].
  rewrite Ve. assert (0 <= d * R <= 1 * R) by (split; [apply Z.mul_nonneg_nonneg; lia|apply Z.mul_le_mono_nonneg_r; lia]). lia.
Qed.
Lemma half_mod x r q : R mod 2 = 0 -> x = r + R * q -> x mod 2 = r mod 2.
Proof. intros H ->. rewrite <- Zplus_mod_idemp_r, <- Zmult_mod_idemp_l, H, Z.mul_0_l, Z.mod_0_l, Z.add_0_r by lia. reflexivity. Qed.
Lemma R_even : R mod 2 = 0 /\ R = 2 * (R / 2).
Proof.
  assert (Er : R = 2 ^ (8 * MODBYTES c - 1) * 2).
  { unfold bigR. apply pow_even. pose proof (cf_M c (cfg_ok_facts c Hok)). lia. }
  split; [rewrite Er; apply Z.mod_mul; lia|]. rewrite Er at 2. rewrite Z.div_mul by lia. lia.
Qed.
Lemma fshr_nb g x : nb g x -> exists y, fshr c x 1 = Some (V x mod 2, y) /\ nb g y /\ V y = V x / 2 /\ (g = 2 -> nb 1 y).
Proof.
  intros [L [W Hv]]. destruct (fshr_spec c HB HC x 1 ltac:(lia) W ltac:(intros ->; cbn in L; lia)) as [y [Y1 [Y2 [Y3 Y4]]]].
  change (2 ^ 1) with 2 in *. exists y. split; [exact Y1|]. assert (V x / 2 <= V x) by (apply Z.div_le_upper_bound; lia).
  assert (0 <= V x / 2) by (apply Z.div_pos; lia). split; [split; [lia|]; split; [exact Y3|]; lia|]. split; [exact Y2|].
  intros ->. split; [lia|]. split; [exact Y3|]. rewrite Y2. split; [lia|]. apply Z.div_lt_upper_bound; lia.
Qed.
Lemma ffshr_loop_ok g f : tf g f -> 1 <= g -> exists r, ff_shr_loop c f = Some (FV f mod 2, r) /\ length r = length f /\ tf g r /\ FV r = FV f / 2.
Proof.
  intros [a [b [-> [Ha Hb]]]] G. destruct R_even as [Re Rh]. induction Ha as [|x a Hx Ha IH].
  - cbn [app ff_shr_loop bind fst snd]. destruct (fshr_nb g b Hb) as [y [Y1 [Y2 [Y3 _]]]]. rewrite Y1. cbn [bind fst snd].
    eexists. split; [cbn [fval]; unfold bval; rewrite Z.mul_0_r, Z.add_0_r; reflexivity|]. split; [reflexivity|]. split.
    + exists [], y. split; [reflexivity|]. split; [constructor|exact Y2].
    + cbn [fval]. unfold bval. rewrite !Z.mul_0_r, !Z.add_0_r. exact Y3.
  - cbn [app ff_shr_loop]. destruct IH as [r [R1 [R2 [[a' [b' [E2 [Ha' Hb']]]] R4]]]]. rewrite R1. cbn [bind fst snd].
    destruct (a ++ [b]) as [|h t] eqn:E; [destruct a; discriminate|]. set (g0 := h :: t) in *.
    pose proof (Z.mod_pos_bound (FV g0) 2 ltac:(lia)) as Mb.
    destruct (xortop_set x (FV g0 mod 2) Hx ltac:(lia)) as [X1 X2]. set (x' := xortop c x (wrap C (Z.shiftl (FV g0 mod 2) T))) in *.
    destruct (fshr_nb 2 x' X1) as [y [Y1 [_ [Y3 Y4]]]]. rewrite Y1. cbn [bind fst snd].
    assert (Em : V x' mod 2 = FV (x :: g0) mod 2).
    { rewrite X2. cbn [fval]. unfold bval. rewrite (Z.mul_comm (FV g0 mod 2)), (half_mod _ (V x) (FV g0 mod 2) Re eq_refl). symmetry. apply (half_mod _ (V x) (FV g0) Re eq_refl). }
    rewrite Em. eexists. split; [reflexivity|]. split; [cbn [length] in *; lia|]. split.
    + eexists (y :: a'), b'. split; [rewrite E2; reflexivity|]. split; [constructor; [apply (cn_nb c Hff); apply Y4; reflexivity|exact Ha']|exact Hb'].
    + cbn [fval]. unfold bval. rewrite R4, Y3, X2. pose proof (Z.div_mod (FV g0) 2 ltac:(lia)) as D.
      replace (V x + R * FV g0) with ((V x + FV g0 mod 2 * R) + (R * (FV g0 / 2)) * 2).
      2:{ rewrite D at 3. ring. }
      rewrite Z.div_add by lia. reflexivity.
Qed.
Lemma ffshr_ok g f : tf g f -> 1 <= g -> exists r, ff_shr c f = Some r /\ length r = length f /\ tf g r /\ FV r = FV f / 2.
Proof. intros H G. destruct (ffshr_loop_ok g f H G) as [r [R1 [R2 [R3 R4]]]]. exists r. unfold ff_shr. rewrite R1. cbn. auto. Qed.
End F.
