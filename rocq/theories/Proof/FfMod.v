(** Reduction of FFs modulo an FF: rmod, dmod, nres, redc for two or more Bigs. *)
From Verif Require Import Base.Word Model.Big Model.Ff Spec.BigSpec Spec.FfSpec Proof.BigVal Proof.BigShift
  Proof.BigMul Proof.BigSqr Proof.BigMisc Proof.BigMod Proof.BigBytes Proof.BigInv Proof.FfBase Proof.FfLeaf Proof.FfMul Proof.FfRed.
Open Scope Z_scope.

Section F.
Variable c : cfg.
Hypothesis Hff : ff_ok c.
Notation X := (2 ^ BASEBITS c).
Notation C := (CHUNK c).
Notation R := (bigR c).
Notation FV := (fval c).
Notation cn := (cn c).
Notation nb := (nb c).
Notation lw := (lw c).
Notation tf := (tf c).
Notation SL := (SL c).
Notation lim := (lim c).
Let Hok := Hok c Hff.
Let HX := fX c Hff.
Let HXC := fXC c Hff.
Let PR := R_pos c Hff.
Let HS := S_big c Hff.
Let HXh := Xh c Hff.

Lemma tf_pos g f : tf g f -> 0 <= FV f.
Proof. intros H. apply (tf_range c Hff g f H). Qed.
Lemma norm_tf g f : tf g f -> 1 <= g <= SL -> exists r, ff_norm c f = Some r /\ length r = length f /\ tf g r /\ FV r = FV f.
Proof.
  intros H G. pose proof (tf_flw1 c Hff g f H ltac:(lia) ltac:(lia)) as W. apply (rnorm_ok c Hff f g); [apply (tf_ne c _ _ H)| |apply (tf_range c Hff g f H)].
  eapply (flw_lim c); [exact W| |]; unfold FfBase.lim; lia.
Qed.
Lemma tf_flw2 g f : tf g f -> 1 <= g -> g <= 2 * SL -> Forall (lw 0 (2 * X - 1)) f.
Proof.
  intros H G1 G. eapply Forall_impl; [|apply (tf_nb c Hff g f H G1)]. intros x Hx. pose proof (nb_lw c Hff g 4 x Hx ltac:(lia) ltac:(lia)) as L.
  replace (4 * X / 2) with (2 * X) in L; [exact L|]. replace (4 * X) with (2 * X * 2) by lia. rewrite Z.div_mul; lia.
Qed.
(** subtraction of a smaller number *)
Lemma sub_norm g g' s m : tf g s -> tf g' m -> length s = length m -> 1 <= g <= SL -> 1 <= g' <= 2 * SL -> FV m <= FV s ->
  exists d r, ff_sub c s m = Some d /\ ff_norm c d = Some r /\ length r = length m /\ tf g r /\ FV r = FV s - FV m.
Proof.
  intros Hs Hm L G G' Le.
  destruct (ffsub_ok c Hff _ _ _ _ s m (tf_flw1 c Hff g s Hs ltac:(lia) ltac:(lia)) (tf_flw2 g' m Hm ltac:(lia) ltac:(lia)) L ltac:(lia) ltac:(lia)) as [d [D1 [D2 [D3 D4]]]].
  pose proof (tf_range c Hff g s Hs) as Rs. pose proof (tf_range c Hff g' m Hm) as Rm.
  destruct (rnorm_ok c Hff d g) as [r [R1 [R2 [R3 R4]]]].
  { intros ->. apply (tf_ne c _ _ Hs). destruct s; [reflexivity|discriminate D2]. }
  { eapply (flw_lim c); [exact D3| |]; unfold FfBase.lim; lia. }
  { rewrite D4, D2. lia. }
  exists d, r. split; [exact D1|]. split; [exact R1|]. split; [lia|]. split; [exact R3|]. lia.
Qed.
Lemma condsub_ok g g' s m : tf g s -> tf g' m -> length s = length m -> 1 <= g <= SL -> 1 <= g' <= 2 * SL ->
  exists r, ff_cond_sub c s m = Some r /\ length r = length m /\ tf g r /\ FV r = if FV m <=? FV s then FV s - FV m else FV s.
Proof.
  intros Hs Hm L G G'. unfold ff_cond_sub. rewrite (ffcomp_ok c Hff g g' s m Hs Hm L), (cmpz_ge c Hff). destruct (FV m <=? FV s) eqn:E.
  - apply Z.leb_le in E. destruct (sub_norm g g' s m Hs Hm L G G' E) as [d [r [D1 [D2 [D3 [D4 D5]]]]]]. rewrite D1. cbn [bind]. exists r. auto.
  - exists s. auto.
Qed.
Lemma down_ok k : forall s m g g' b, tf g s -> tf g' m -> length s = length m -> 1 <= g <= SL -> 1 <= g' <= 2 * SL ->
  0 < b -> FV m = b * 2 ^ Z.of_nat k -> FV s < FV m ->
  exists r, ff_down c k s m = Some r /\ length r = length m /\ tf g r /\ FV r = FV s mod b.
Proof.
  induction k as [|k IH]; intros s m g g' b Hs Hm L G G' Pb Em Lt.
  - cbn [ff_down]. exists s. split; [reflexivity|]. split; [exact L|]. split; [exact Hs|]. change (Z.of_nat 0) with 0 in Em. rewrite Z.pow_0_r in Em.
    rewrite Z.mod_small; [reflexivity|]. pose proof (tf_pos g s Hs). lia.
  - cbn [ff_down]. destruct (ffshr_ok c Hff g' m Hm ltac:(lia)) as [m1 [M1 [M2 [M3 M4]]]]. rewrite M1. cbn [bind].
    assert (Em1 : FV m1 = b * 2 ^ Z.of_nat k).
    { rewrite M4, Em, Nat2Z.inj_succ, Z.pow_succ_r by lia. replace (b * (2 * 2 ^ Z.of_nat k)) with (b * 2 ^ Z.of_nat k * 2) by ring. apply Z.div_mul. lia. }
    assert (Em2 : FV m = 2 * FV m1) by (rewrite Em1, Em, Nat2Z.inj_succ, Z.pow_succ_r by lia; ring).
    destruct (condsub_ok g g' s m1 Hs M3 ltac:(lia) G G') as [s1 [S1 [S2 [S3 S4]]]]. rewrite S1. cbn [bind].
    destruct (IH s1 m1 g g' b S3 M3 ltac:(lia) G G' Pb Em1) as [r [R1 [R2 [R3 R4]]]].
    { rewrite S4. destruct (Z.leb_spec (FV m1) (FV s)); lia. }
    exists r. split; [exact R1|]. split; [lia|]. split; [exact R3|]. rewrite R4, S4. destruct (FV m1 <=? FV s); [|reflexivity].
    rewrite Em1, (Z.mul_comm b), <- (Z.mod_add _ (2 ^ Z.of_nat k) b) by lia. f_equal. lia.
Qed.
Lemma up_ok fuel : forall s m k g b, tf g s -> length s = length m -> 1 <= g <= SL -> (exists g', 1 <= g' <= 2 * SL /\ tf g' m) ->
  0 < b -> FV m = b * 2 ^ Z.of_nat k -> FV s < FV m * 2 ^ Z.of_nat fuel ->
  exists m' k', ffrmod_up (S fuel) c s m k = Some (m', k') /\ length m' = length m /\ (exists g', 1 <= g' <= 2 * SL /\ tf g' m') /\ FV m' = b * 2 ^ Z.of_nat k' /\ FV s < FV m'.
Proof.
  induction fuel as [|fuel IH]; intros s m k g b Hs L G [g' [G' Hm]] Pb Em Lt; cbn [ffrmod_up];
    rewrite (ffcomp_ok c Hff g g' s m Hs Hm L), (cmpz_ge c Hff); destruct (Z.leb_spec (FV m) (FV s)) as [Q|Q].
  - change (Z.of_nat 0) with 0 in Lt. rewrite Z.pow_0_r in Lt. lia.
  - exists m, k. split; [reflexivity|]. split; [reflexivity|]. split; [exists g'; auto|]. auto.
  - assert (Hm' : tf g m). { apply (tf_val c Hff g' g m Hm). pose proof (tf_range c Hff g s Hs) as Rs. rewrite L in Rs. lia. }
    destruct (ffshl_ok c Hff g m Hm' ltac:(lia) ltac:(lia)) as [m1 [M1 [M2 [M3 M4]]]]. rewrite M1. cbn [bind].
    destruct (IH s m1 (S k) g b Hs ltac:(lia) G) as [m' [k' [R1 [R2 [R3 [R4 R5]]]]]].
    { exists (2 * g). split; [lia|exact M3]. }
    { exact Pb. }
    { rewrite M4, Em, Nat2Z.inj_succ, Z.pow_succ_r by lia. ring. }
    { rewrite M4. rewrite Nat2Z.inj_succ, Z.pow_succ_r in Lt by lia. rewrite <- Z.mul_assoc, (Z.mul_comm 2), <- Z.mul_assoc, (Z.mul_comm (2 ^ _) 2). exact Lt. }
    exists m', k'. split; [exact R1|]. split; [lia|]. auto.
  - exists m, k. split; [reflexivity|]. split; [reflexivity|]. split; [exists g'; auto|]. auto.
Qed.
Lemma fuel_ok n : (1 <= n)%nat -> SL * R ^ Z.of_nat n <= 2 ^ (BASEBITS c * Z.of_nat (NLEN c) * Z.of_nat n).
Proof.
  intros Hn. rewrite Z.pow_mul_r by (pose proof (fB c Hff); lia). rewrite (KSR c Hff), Z.pow_mul_l. apply Z.mul_le_mono_nonneg_r; [apply Z.lt_le_incl; apply (Rp c Hff)|].
  rewrite <- (Z.pow_1_r SL) at 1. apply Z.pow_le_mono_r; lia.
Qed.
Lemma rmod_ok g s m : tf g s -> 1 <= g <= SL -> Forall cn m -> length s = length m -> 0 < FV m ->
  exists r, ff_rmod c s m = Some r /\ length r = length m /\ Forall cn r /\ FV r = FV s mod FV m.
Proof.
  intros Hs G Hm L Pm. pose proof (tf_ne c _ _ Hs) as Ns. assert (Nm : m <> []) by (intros ->; destruct s; [congruence|discriminate]).
  pose proof (cn_tf c Hff m Nm Hm) as Tm. unfold ff_rmod. destruct (norm_tf g s Hs G) as [s1 [S1 [S2 [S3 S4]]]]. rewrite S1. cbn [bind].
  rewrite (ffcomp_ok c Hff g 1 s1 m S3 Tm ltac:(lia)), (cmpz_lt c Hff), S4. pose proof (cn_range c Hff m Hm) as Rm. pose proof (tf_pos g s Hs) as Ps.
  assert (Fin : forall r, tf g r -> length r = length m -> FV r = FV s mod FV m -> Forall cn r).
  { intros r Hr Lr Er. apply (tf_cns c Hff). apply (tf_val c Hff g 1 r Hr). rewrite Er, Lr. pose proof (Z.mod_pos_bound (FV s) (FV m) Pm). lia. }
  destruct (Z.ltb_spec (FV s) (FV m)) as [Q|Q].
  - exists s1. split; [reflexivity|]. split; [lia|]. assert (E : FV s1 = FV s mod FV m) by (rewrite Z.mod_small; lia). split; [apply Fin; auto; lia|exact E].
  - destruct (ffshl_ok c Hff 1 m Tm ltac:(lia) ltac:(lia)) as [m1 [M1 [M2 [M3 M4]]]]. rewrite M1. cbn [bind].
    unfold ff_fuel. set (n := length m) in *.
    assert (Hn : (1 <= n)%nat) by (unfold n; destruct m; [congruence|cbn; lia]).
    pose proof (fuel_ok n Hn) as Fu. pose proof (fB c Hff) as HB. set (bb := BASEBITS c * Z.of_nat (NLEN c) * Z.of_nat n) in *.
    assert (Pbb : 0 <= bb) by (unfold bb; apply Z.mul_nonneg_nonneg; [apply Z.mul_nonneg_nonneg|]; lia).
    replace (Z.to_nat (bb + 2)) with (S (Z.to_nat (bb + 1))) by lia.
    destruct (up_ok (Z.to_nat (bb + 1)) s1 m1 1 g (FV m) S3 ltac:(lia) G) as [m' [k' [R1 [R2 [[g' [G' R3]] [R4 R5]]]]]].
    { exists (2 * 1). split; [lia|exact M3]. }
    { exact Pm. }
    { rewrite M4. change (2 ^ Z.of_nat 1) with 2. lia. }
    { rewrite M4, S4. pose proof (tf_range c Hff g s Hs) as Rs. rewrite L in Rs. fold n in Rs.
      assert (g * R ^ Z.of_nat n <= SL * R ^ Z.of_nat n) by (apply Z.mul_le_mono_nonneg_r; [apply Z.lt_le_incl; apply (Rp c Hff)|lia]).
      rewrite Z2Nat.id by lia. rewrite Z.pow_add_r by lia. assert (P : 0 < 2 ^ bb) by (apply pow2_pos; lia).
      assert (1 * 2 ^ bb <= FV m * 2 ^ bb) by (apply Z.mul_le_mono_nonneg_r; lia). change (2 ^ 1) with 2.
      replace (2 * FV m * (2 ^ bb * 2)) with (4 * (FV m * 2 ^ bb)) by ring. lia. }
    rewrite R1. cbn [bind fst snd]. destruct (down_ok k' s1 m' g g' (FV m) S3 R3 ltac:(lia) G G' Pm R4 R5) as [r [D1 [D2 [D3 D4]]]].
    exists r. split; [exact D1|]. split; [lia|]. rewrite S4 in D4. split; [apply Fin; auto; lia|exact D4].
Qed.

(** ** dmod *)
Lemma ffval_eq f : ff_val c f = FV f.
Proof. induction f as [|x t IH]; [reflexivity|]. cbn [ff_val fval]. rewrite IH. unfold bigR. f_equal. clear. unfold bval. induction x as [|l x IHx]; [reflexivity|]. cbn [fold_right val]. rewrite IHx. reflexivity. Qed.
Lemma zero_cn n : Forall cn (ff_zero c n) /\ FV (ff_zero c n) = 0 /\ length (ff_zero c n) = n.
Proof.
  assert (Hz : cn (big_new c) /\ val (BASEBITS c) (big_new c) = 0).
  { assert (E : forall k, val (BASEBITS c) (repeat 0 k) = 0) by (induction k; cbn [repeat val]; lia). unfold big_new. split; [|apply E].
    split; [split; [apply repeat_length|]|rewrite E; lia]. apply Forall_forall. intros x Hx. apply repeat_spec in Hx. subst x. lia. }
  destruct Hz as [Hz Ev]. induction n as [|n IH]; [repeat split; constructor|]. destruct IH as [A [A' A'']]. cbn [ff_zero repeat]. fold (ff_zero c n). split; [constructor; assumption|].
  split; [cbn [fval]; unfold bval; rewrite Ev, A'; lia|cbn [length]; lia].
Qed.
Lemma subs_ok fuel : forall x m g, tf g x -> tf 1 m -> length x = length m -> 1 <= g <= SL -> 0 < FV m -> FV x < FV m * (Z.of_nat fuel + 1) ->
  exists r, ff_subs (S fuel) c x m = Some r /\ length r = length m /\ tf g r /\ FV r = FV x mod FV m.
Proof.
  induction fuel as [|fuel IH]; intros x m g Hx Hm L G Pm Lt; cbn [ff_subs]; rewrite (ffcomp_ok c Hff g 1 x m Hx Hm L), (cmpz_ge c Hff); destruct (Z.leb_spec (FV m) (FV x)) as [Q|Q].
  - change (Z.of_nat 0) with 0 in Lt. lia.
  - exists x. split; [reflexivity|]. split; [exact L|]. split; [exact Hx|]. rewrite Z.mod_small; [reflexivity|]. pose proof (tf_pos g x Hx). lia.
  - destruct (sub_norm g 1 x m Hx Hm L G ltac:(lia) Q) as [d [x1 [D1 [D2 [D3 [D4 D5]]]]]]. rewrite D1. cbn [bind]. rewrite D2. cbn [bind].
    destruct (IH x1 m g D4 Hm D3 G Pm) as [r [R1 [R2 [R3 R4]]]].
    { rewrite D5. rewrite Nat2Z.inj_succ in Lt. replace (FV m * (Z.succ (Z.of_nat fuel) + 1)) with (FV m * (Z.of_nat fuel + 1) + FV m) in Lt by ring. lia. }
    exists r. split; [exact R1|]. split; [exact R2|]. split; [exact R3|]. rewrite R4, D5. rewrite <- (Z.mod_add (FV x - FV m) 1 (FV m)) by lia. f_equal. lia.
  - exists x. split; [reflexivity|]. split; [exact L|]. split; [exact Hx|]. rewrite Z.mod_small; [reflexivity|]. pose proof (tf_pos g x Hx). lia.
Qed.
Lemma pow_R n : R ^ Z.of_nat n = 2 ^ Z.of_nat (Z.to_nat (BIGBITS c) * n).
Proof. pose proof (cf_M c (cfg_ok_facts c Hok)). unfold bigR, BIGBITS. rewrite <- Z.pow_mul_r by lia. f_equal. rewrite Nat2Z.inj_mul, Z2Nat.id by lia. lia. Qed.
Lemma dmod_ok d b g : length d = (2 * length b)%nat -> b <> [] -> tf g d -> 1 <= g <= SL -> Forall cn b -> 0 < FV b ->
  exists r, ff_dmod c d b = Some r /\ length r = length b /\ Forall cn r /\ FV r = FV d mod FV b.
Proof.
  intros Ld Nb Hd G Hb Pb. unfold ff_dmod, ff_copy. set (n := length b) in *. rewrite Ld, Nat.leb_refl. cbn [bind]. rewrite firstn_all2 by lia.
  assert (Hn : (1 <= n)%nat) by (unfold n; destruct b; [congruence|cbn; lia]).
  destruct (norm_tf g d Hd G) as [x1 [X1 [X2 [X3 X4]]]]. rewrite X1. cbn [bind].
  destruct (zero_cn n) as [Zc [Zv Zl]]. assert (Hm : Forall cn (dsucopy c b)) by (unfold dsucopy; fold n; apply Forall_app; auto).
  assert (Lm : length (dsucopy c b) = (2 * n)%nat) by (unfold dsucopy; fold n; rewrite app_length, Zl; fold n; lia).
  assert (Vm : FV (dsucopy c b) = FV b * R ^ Z.of_nat n) by (unfold dsucopy; fold n; rewrite (FV_app c Hff), Zv, Zl; lia).
  pose proof (Rp c Hff n) as PH. assert (Tm : tf 1 (dsucopy c b)) by (apply (cn_tf c Hff); [apply len_ne; lia|exact Hm]). set (m := dsucopy c b) in *. clearbody m.
  assert (Pm : 0 < FV m) by (rewrite Vm; apply Z.mul_pos_pos; lia). rewrite !ffval_eq.
  assert (Pq : 0 <= FV x1 / FV m) by (apply Z.div_pos; [apply (tf_pos g x1 X3)|exact Pm]).
  destruct (subs_ok (Z.to_nat (FV x1 / FV m)) x1 m g X3 Tm ltac:(lia) G Pm) as [x2 [Y1 [Y2 [Y3 Y4]]]].
  { rewrite Z2Nat.id by exact Pq. pose proof (Z.div_mod (FV x1) (FV m) ltac:(lia)). pose proof (Z.mod_pos_bound (FV x1) (FV m) Pm).
    rewrite Z.mul_add_distr_l. lia. }
  rewrite Y1. cbn [bind].
  destruct (down_ok (Z.to_nat (BIGBITS c) * n) x2 m g 1 (FV b) Y3 Tm ltac:(lia) G ltac:(lia) Pb) as [x3 [D1 [D2 [D3 D4]]]].
  { rewrite Vm, pow_R. reflexivity. }
  { rewrite Y4. apply Z.mod_pos_bound. exact Pm. }
  rewrite D1. cbn [bind].
  assert (E3 : FV x3 = FV d mod FV b).
  { rewrite D4, Y4, Vm, X4. rewrite Z.rem_mul_r by lia. rewrite (Z.mul_comm (FV b) (_ mod _)), Z.mod_add, Z.mod_mod by lia. reflexivity. }
  destruct (halves n x3 ltac:(lia)) as [u [v [Ex [Lu [Lv [F1 _]]]]]]. rewrite F1. rewrite Ex in D3. apply tf_app in D3; [|apply len_ne; lia]. destruct D3 as [Hu Hv].
  pose proof (cn_range c Hff u Hu) as Ru. pose proof (tf_pos g v Hv) as Pv. pose proof (cn_range c Hff b Hb) as Rb. fold n in Rb. rewrite Lu in Ru.
  pose proof (Z.mod_pos_bound (FV d) (FV b) Pb) as Mb. rewrite Ex, (FV_app c Hff), Lu in E3.
  assert (V0 : FV v = 0). { destruct (Z.eq_dec (FV v) 0); [assumption|]. pose proof (Z.mul_le_mono_nonneg_l 1 (FV v) (R ^ Z.of_nat n) ltac:(lia) ltac:(lia)). lia. }
  rewrite V0, Z.mul_0_r, Z.add_0_r in E3.
  destruct (rmod_ok 1 u b (cn_tf c Hff u ltac:(apply len_ne; lia) Hu) ltac:(lia) Hb ltac:(lia) Pb) as [r [R1 [R2 [R3 R4]]]].
  exists r. split; [exact R1|]. split; [exact R2|]. split; [exact R3|]. rewrite R4, E3, Z.mod_mod by lia. reflexivity.
Qed.

(** ** Montgomery form for two or more Bigs *)
Lemma nres2_ok s p : (2 <= length p)%nat -> length s = length p -> Forall cn s -> Forall cn p -> 0 < FV p ->
  exists r, ff_nres c s p = Some r /\ length r = length p /\ Forall cn r /\ FV r = (FV s * R ^ Z.of_nat (length p)) mod FV p.
Proof.
  intros Hn L Hs Hp Pp. destruct (zero_cn (length s)) as [Zc [Zv Zl]].
  destruct (dmod_ok (dsucopy c s) p 1) as [r [R1 [R2 [R3 R4]]]]; auto.
  { unfold dsucopy. rewrite app_length, Zl. lia. }
  { apply len_ne. lia. }
  { apply (cn_tf c Hff). { apply len_ne. unfold dsucopy. rewrite app_length. lia. } unfold dsucopy. apply Forall_app; auto. }
  { lia. }
  unfold ff_nres. destruct p as [|p0 [|p1 p]]; cbn [length] in Hn; try lia. exists r. split; [exact R1|]. split; [exact R2|]. split; [exact R3|].
  rewrite R4. f_equal. unfold dsucopy. rewrite (FV_app c Hff), Zv, Zl, L. ring.
Qed.
Lemma redc2_ok k s p md g : length p = (2 ^ S k)%nat -> length s = length p -> length md = length p -> tf g s -> 1 <= g <= SL -> Forall cn p -> pf c md -> (S k <= 3)%nat ->
  (2 + Z.of_nat k) * (2 + Z.of_nat k) <= SL -> 0 < FV p -> (FV p * FV md) mod R ^ Z.of_nat (length p) = 1 ->
  exists r, ff_redc c s p md = Some r /\ length r = length p /\ Forall cn r /\ FV r < FV p /\ (FV r * R ^ Z.of_nat (length p)) mod FV p = FV s mod FV p.
Proof.
  intros Lp Ls Lm Hs G Hp Hm K3' Gk Pp Inv. assert (Hn : (2 <= length p)%nat) by (rewrite Lp, pow2S; pose proof (pow2pos k); lia).
  destruct (rmod_ok g s p Hs G Hp Ls Pp) as [s1 [S1 [S2 [S3 S4]]]].
  destruct (zero_cn (length s1)) as [Zc [Zv Zl]].
  rewrite Lp in Inv. assert (N1 : s1 <> []) by (apply len_ne; lia).
  destruct (reduce_ok c Hff k (dscopy c s1) p md 1) as [r [m [R1 [R2 [R3 [R4 R5]]]]]]; auto; try lia.
  { unfold dscopy. rewrite app_length, Zl, (pow2S (S k)). lia. }
  { apply (cn_tf c Hff). { unfold dscopy. destruct s1; [congruence|discriminate]. } unfold dscopy. apply Forall_app; auto. }
  destruct (rmod_ok (1 + 1) r p R3 ltac:(lia) Hp ltac:(lia) Pp) as [u [U1 [U2 [U3 U4]]]].
  exists u. unfold ff_redc. split.
  { destruct p as [|p0 [|p1 p]]; cbn [length] in Hn; try lia. rewrite S1. cbn [bind]. rewrite R1. cbn [bind]. exact U1. }
  split; [exact U2|]. split; [exact U3|]. split; [rewrite U4; apply Z.mod_pos_bound; exact Pp|].
  rewrite U4, Zmult_mod_idemp_l, Lp, R5. rewrite (Z.mul_comm (FV p)), Z.mod_add by lia.
  unfold dscopy. rewrite (FV_app c Hff), Zv, Z.mul_0_r, Z.add_0_r, S4, Z.mod_mod by lia. reflexivity.
Qed.
End F.
