(** Karatsuba products of FFs: full, squaring, lower half, upper half. *)
From Verif Require Import Base.Word Model.Big Model.Ff Spec.BigSpec Spec.FfSpec Proof.BigVal Proof.BigShift
  Proof.BigMul Proof.BigSqr Proof.BigMisc Proof.BigMod Proof.BigBytes Proof.BigInv Proof.FfBase Proof.FfLeaf.
Open Scope Z_scope.

Lemma halves {A} h (f : list A) : length f = (2 * h)%nat -> exists a b, f = a ++ b /\ length a = h /\ length b = h
  /\ firstn h f = a /\ skipn h f = b /\ firstn h (skipn h f) = b.
Proof.
  intros L. exists (firstn h f), (skipn h f). rewrite firstn_skipn, firstn_length, skipn_length.
  repeat split; try reflexivity; try lia. apply firstn_all2. rewrite skipn_length. lia.
Qed.
Lemma pow2S k : (2 ^ S k = 2 * 2 ^ k)%nat.
Proof. cbn [Nat.pow]. lia. Qed.
Lemma pow2pos k : (1 <= 2 ^ k)%nat.
Proof. induction k; cbn; lia. Qed.
Lemma Forall_firstn {A} (P : A -> Prop) n l : Forall P l -> Forall P (firstn n l).
Proof. revert l. induction n; intros l H; [constructor|]. destruct H; cbn; constructor; auto. Qed.
Lemma Forall_skipn {A} (P : A -> Prop) n l : Forall P l -> Forall P (skipn n l).
Proof. revert l. induction n; intros l H; [exact H|]. destruct H; cbn; [constructor|auto]. Qed.

Lemma len_ne {A} (f : list A) : (1 <= length f)%nat -> f <> [].
Proof. destruct f; cbn; [lia|discriminate]. Qed.

Lemma mul_lt a b u v : 0 <= a < u -> 0 <= b < v -> 0 <= a * b < u * v.
Proof. intros A A'. split; [apply Z.mul_nonneg_nonneg; lia|]. apply Z.mul_lt_mono_nonneg; lia. Qed.

Section F.
Variable c : cfg.
Hypothesis Hff : ff_ok c.
Notation B := (BASEBITS c).
Notation C := (CHUNK c).
Notation N := (NLEN c).
Notation X := (2 ^ BASEBITS c).
Notation V := (val (BASEBITS c)).
Notation T := (FT c).
Notation R := (bigR c).
Notation FV := (fval c).
Notation cn := (cn c).
Notation nb := (nb c).
Notation lw := (lw c).
Notation tf := (tf c).
Notation SL := (SL c).
Notation E1 := (E1 c).
Notation lim := (lim c).
Let Hok := Hok c Hff.
Let HX := fX c Hff.
Let HXC := fXC c Hff.
Let PR := R_pos c Hff.
Let HS := S_big c Hff.
Let HXh := Xh c Hff.

Lemma tf_app g a b : b <> [] -> (tf g (a ++ b) <-> Forall cn a /\ tf g b).
Proof.
  intros Hb. destruct (exists_last Hb) as [b' [z ->]]. split.
  - intros [a' [z' [E [Ha Hz]]]]. rewrite app_assoc in E. apply app_inj_tail in E. destruct E as [<- <-].
    apply Forall_app in Ha. destruct Ha as [A1 A2]. split; [exact A1|]. exists b', z. auto.
  - intros [Ha [b2 [z2 [E [H1 H2]]]]]. apply app_inj_tail in E. destruct E as [<- <-].
    exists (a ++ b'), z. rewrite app_assoc. split; [reflexivity|]. split; [apply Forall_app; auto|exact H2].
Qed.
Lemma cn_tf f : f <> [] -> Forall cn f -> tf 1 f.
Proof. intros H. apply (tf_cn c Hff f H). Qed.
Lemma tf_cns f : tf 1 f -> Forall cn f.
Proof. intros H. apply (tf_cn c Hff f); [|exact H]. destruct H as [a [b [-> _]]]. destruct a; discriminate. Qed.
Lemma cn_flw f : Forall cn f -> Forall (lw 0 (X - 1)) f.
Proof. apply Forall_impl. apply (cn_lw c). Qed.
Lemma tf_flw g f : tf g f -> 1 <= g -> 2 * g <= 5 * SL -> Forall (lw 0 (5 * X / 2 - 1)) f.
Proof. intros H G1 G. eapply Forall_impl; [|apply (tf_nb c Hff g f H G1)]. intros x Hx. apply (nb_lw c Hff g 5 x Hx); lia. Qed.
Lemma tf_flw1 g f : tf g f -> 1 <= g -> g <= SL -> Forall (lw 0 (X - 1)) f.
Proof. intros H G1 G. eapply Forall_impl; [|apply (tf_nb c Hff g f H G1)]. intros x Hx. apply (nb_lw1 c Hff g x Hx); lia. Qed.
Lemma h5 : 5 * X / 2 = 2 * X + X / 2.
Proof. destruct HXh as [_ [E _]]. replace (5 * X) with (X + 2 * X * 2) by lia. rewrite Z.div_add by lia. lia. Qed.
Lemma flw_lim lo hi f : Forall (lw lo hi) f -> - lim <= lo -> hi <= lim -> Forall (lw (- lim) lim) f.
Proof. intros H A A'. eapply (flw_mono c); eassumption. Qed.

(** sum of the two halves, normalised *)
Lemma half_sum g a b : Forall cn a -> tf g b -> length a = length b -> 1 <= g -> g <= SL ->
  exists s0 s, ff_add c a b = Some s0 /\ rnorm c false s0 = Some s /\ length s = length b /\ tf (g + 1) s /\ FV s = FV a + FV b.
Proof.
  intros Ha Hb L G1 G. pose proof (cn_flw a Ha) as Wa. pose proof (tf_flw1 g b Hb G1 G) as Wb.
  destruct (ffadd_ok c Hff 0 (X - 1) 0 (X - 1) a b Wa Wb L ltac:(lia) ltac:(lia)) as [s0 [S1 [S2 [S3 S4]]]].
  pose proof (cn_range c Hff a Ha) as Ra. pose proof (tf_range c Hff g b Hb) as Rb. rewrite L in Ra.
  assert (Hne : s0 <> []). { apply len_ne. rewrite S2, L. destruct Hb as [u [v [-> _]]]. rewrite app_length. cbn. lia. }
  destruct (rnorm_ok c Hff s0 (g + 1) Hne) as [s [T1 [T2 [T3 T4]]]].
  { eapply flw_lim; [exact S3| |]; unfold FfBase.lim; lia. }
  { rewrite S4, S2, L. lia. }
  exists s0, s. split; [exact S1|]. split; [exact T1|]. split; [lia|]. split; [exact T3|]. lia.
Qed.

Lemma karmul_ok k : forall x y gx gy, length x = (2 ^ k)%nat -> length y = (2 ^ k)%nat -> tf gx x -> tf gy y ->
  1 <= gx -> 1 <= gy -> gx + Z.of_nat k <= SL -> gy + Z.of_nat k <= SL -> 2 * ((gx + Z.of_nat k) * (gy + Z.of_nat k)) <= 5 * SL ->
  exists z, karmul c k x y = Some z /\ length z = (2 ^ S k)%nat /\ tf (gx * gy) z /\ FV z = FV x * FV y.
Proof.
  induction k as [|k IH]; intros x y gx gy Lx Ly Hx Hy G1 G2 Gx Gy G.
  - cbn in Lx, Ly. destruct x as [|x [|]]; try discriminate. destruct y as [|y [|]]; try discriminate.
    assert (Nx : nb gx x). { destruct Hx as [a [b [E [_ H]]]]. destruct a as [|? a]; [|destruct a; discriminate]. injection E as ->. exact H. }
    assert (Ny : nb gy y). { destruct Hy as [a [b [E [_ H]]]]. destruct a as [|? a]; [|destruct a; discriminate]. injection E as ->. exact H. }
    change (Z.of_nat 0) with 0 in *. rewrite !Z.add_0_r in *.
    destruct (leaf_mul c Hff x y gx gy Nx Ny Gx Gy ltac:(lia) ltac:(lia) ltac:(lia)) as [z [Z1 [Z2 [Z3 Z4]]]].
    exists z. split; [exact Z1|]. split; [exact Z2|]. split; [exact Z3|]. cbn [fval]. unfold bval. rewrite !Z.mul_0_r, !Z.add_0_r. exact Z4.
  - rewrite pow2S in Lx, Ly. set (h := (2 ^ k)%nat) in *. pose proof (pow2pos k) as Hh. fold h in Hh.
    rewrite Nat2Z.inj_succ in *. set (kk := Z.of_nat k) in *.
    assert (Kk : 0 <= kk) by lia.
    destruct (halves h x Lx) as [x0 [x1 [Ex [Lx0 [Lx1 [F1 [_ F2]]]]]]].
    destruct (halves h y Ly) as [y0 [y1 [Ey [Ly0 [Ly1 [F3 [_ F4]]]]]]].
    cbn [karmul]. fold h. rewrite F1, F2, F3, F4.
    assert (Nx1 : x1 <> []) by (apply len_ne; lia). assert (Ny1 : y1 <> []) by (apply len_ne; lia).
    assert (Nx0 : x0 <> []) by (apply len_ne; lia). assert (Ny0 : y0 <> []) by (apply len_ne; lia).
    rewrite Ex in Hx. rewrite Ey in Hy. apply (tf_app gx x0 x1 Nx1) in Hx. apply (tf_app gy y0 y1 Ny1) in Hy. destruct Hx as [Hx0 Hx1], Hy as [Hy0 Hy1].
    destruct (half_sum gx x0 x1 Hx0 Hx1 ltac:(lia) G1 ltac:(lia)) as [xs0 [xs [A1 [A2 [A3 [A4 A5]]]]]]. rewrite A1. cbn [bind]. rewrite A2. cbn [bind].
    destruct (half_sum gy y0 y1 Hy0 Hy1 ltac:(lia) G2 ltac:(lia)) as [ys0 [ys [B1 [B2 [B3 [B4 B5]]]]]]. rewrite B1. cbn [bind]. rewrite B2. cbn [bind].
    assert (Hmon : forall a a' b b', 0 <= a <= a' -> 0 <= b <= b' -> a * b <= a' * b') by (intros; apply Z.mul_le_mono_nonneg; lia).
    destruct (IH xs ys (gx + 1) (gy + 1) ltac:(lia) ltac:(lia) A4 B4 ltac:(lia) ltac:(lia) ltac:(lia) ltac:(lia)) as [t [T1 [T2 [T3 T4]]]].
    { replace (gx + 1 + kk) with (gx + Z.succ kk) by lia. replace (gy + 1 + kk) with (gy + Z.succ kk) by lia. exact G. }
    rewrite T1. cbn [bind].
    destruct (IH x0 y0 1 1 Lx0 Ly0 (cn_tf x0 Nx0 Hx0) (cn_tf y0 Ny0 Hy0) ltac:(lia) ltac:(lia) ltac:(lia) ltac:(lia)) as [z0 [Z1 [Z2 [Z3 Z4]]]].
    { pose proof (Hmon (1 + kk) (gx + Z.succ kk) (1 + kk) (gy + Z.succ kk) ltac:(lia) ltac:(lia)). lia. }
    rewrite Z1. cbn [bind]. rewrite Z.mul_1_r in Z3. apply tf_cns in Z3.
    destruct (IH x1 y1 gx gy Lx1 Ly1 Hx1 Hy1 G1 G2 ltac:(lia) ltac:(lia)) as [z1 [Y1 [Y2 [Y3 Y4]]]].
    { pose proof (Hmon (gx + kk) (gx + Z.succ kk) (gy + kk) (gy + Z.succ kk) ltac:(lia) ltac:(lia)). lia. }
    rewrite Y1. cbn [bind].
    pose proof (Hmon (gx + 1) (gx + Z.succ kk) (gy + 1) (gy + Z.succ kk) ltac:(lia) ltac:(lia)) as Q1.
    pose proof (Hmon gx (gx + 1) gy (gy + 1) ltac:(lia) ltac:(lia)) as Q2.
    assert (Q3 : 1 <= gx * gy) by (pose proof (Hmon 1 gx 1 gy ltac:(lia) ltac:(lia)); lia).
    pose proof (tf_flw _ t T3 ltac:(lia) ltac:(lia)) as Wt.
    pose proof (cn_flw z0 Z3) as Wz0. pose proof (tf_flw _ z1 Y3 ltac:(lia) ltac:(lia)) as Wz1.
    rewrite h5 in Wt, Wz1. destruct HXh as [_ [Xe _]].
    rewrite pow2S in T2, Z2, Y2. fold h in T2, Z2, Y2.
    destruct (ffsub_ok c Hff _ _ _ _ t z0 Wt Wz0 ltac:(lia) ltac:(lia) ltac:(lia)) as [t1 [U1 [U2 [U3 U4]]]]. rewrite U1. cbn [bind].
    destruct (ffsub_ok c Hff _ _ _ _ t1 z1 U3 Wz1 ltac:(lia) ltac:(lia) ltac:(lia)) as [t2 [V1 [V2 [V3 V4]]]]. rewrite V1. cbn [bind].
    destruct (halves h z0 Z2) as [p0 [q0 [Ez0 [Lp0 [Lq0 [E1' [E2' _]]]]]]].
    destruct (halves h z1 Y2) as [p1 [q1 [Ez1 [Lp1 [Lq1 [E3' [E4' _]]]]]]].
    rewrite E1', E2', E3', E4'. rewrite Ez0 in Z3. apply Forall_app in Z3. destruct Z3 as [Hp0 Hq0].
    rewrite Ez1 in Y3. apply tf_app in Y3; [|apply len_ne; lia]. destruct Y3 as [Hp1 Hq1].
    assert (Wm : Forall (lw 0 (X - 1)) (q0 ++ p1)) by (apply Forall_app; split; apply cn_flw; assumption).
    destruct (ffadd_ok c Hff _ _ _ _ _ t2 Wm V3 ltac:(rewrite app_length; lia) ltac:(lia) ltac:(lia)) as [m [M1 [M2 [M3 M4]]]]. rewrite M1. cbn [bind].
    rewrite app_length in M2.
    assert (Wz : Forall (lw (- lim) lim) (p0 ++ m ++ q1)).
    { apply Forall_app; split; [eapply flw_lim; [apply cn_flw; exact Hp0| |]; unfold FfBase.lim; lia|].
      apply Forall_app; split; [eapply flw_lim; [exact M3| |]; unfold FfBase.lim; lia|].
      eapply flw_lim; [apply (tf_flw _ q1 Hq1); lia| |]; rewrite ?h5; unfold FfBase.lim; lia. }
    assert (Ev : FV (p0 ++ m ++ q1) = FV x * FV y).
    { rewrite Ex, Ey, !(FV_app c Hff), M4, (FV_app c Hff), V4, U4, T4, A5, B5, Z4, Y4.
      rewrite Ez0, (FV_app c Hff) in Z4. rewrite Ez1, (FV_app c Hff) in Y4.
      assert (LM : length m = (h + h)%nat) by lia. rewrite ?LM, ?Lp0, ?Lq0, ?Lx0, ?Ly0, ?(RpD c Hff).
      rewrite Lp0 in Z4. rewrite Lp1 in Y4.
      assert (Z4' : FV p0 = FV x0 * FV y0 - R ^ Z.of_nat h * FV q0) by lia. rewrite Z4'.
      assert (Y4' : FV p1 = FV x1 * FV y1 - R ^ Z.of_nat h * FV q1) by lia. rewrite Y4'. ring. }
    assert (Lz : length (p0 ++ m ++ q1) = (2 ^ S (S k))%nat) by (rewrite !app_length, !pow2S; fold h; lia).
    assert (Rx : 0 <= FV x < gx * R ^ Z.of_nat (2 * h)).
    { rewrite <- Lx. apply (tf_range c Hff). rewrite Ex. apply tf_app; auto. }
    assert (Ry : 0 <= FV y < gy * R ^ Z.of_nat (2 * h)).
    { rewrite <- Ly. apply (tf_range c Hff). rewrite Ey. apply tf_app; auto. }
    destruct (rnorm_ok c Hff (p0 ++ m ++ q1) (gx * gy)) as [r [R1 [R2 [R3 R4]]]].
    { apply len_ne. rewrite Lz. apply pow2pos. }
    { exact Wz. }
    { rewrite Ev, Lz, !pow2S. fold h. replace (2 * (2 * h))%nat with (2 * h + 2 * h)%nat by lia. rewrite (RpD c Hff).
      replace (gx * gy * (R ^ Z.of_nat (2 * h) * R ^ Z.of_nat (2 * h))) with ((gx * R ^ Z.of_nat (2 * h)) * (gy * R ^ Z.of_nat (2 * h))) by ring.
      apply mul_lt; assumption. }
    exists r. split; [exact R1|]. split; [lia|]. split; [exact R3|]. lia.
Qed.

Lemma Forall_nb_mono g g' f : Forall (nb g) f -> g <= g' -> Forall (nb g') f.
Proof. intros H G. eapply Forall_impl; [|exact H]. intros x Hx. apply (nb_mono c Hff g g' x Hx G). Qed.
Lemma low_lt f u n : Forall cn f -> length f = n -> FV f + R ^ Z.of_nat n * u < R ^ Z.of_nat n * (u + 1).
Proof. intros H L. pose proof (cn_range c Hff f H). rewrite L in *. lia. Qed.

Lemma karsqr_ok k : forall x g, length x = (2 ^ k)%nat -> tf g x -> 1 <= g -> g + Z.of_nat k <= SL ->
  2 * ((g + 1) * (g + 1)) <= 5 * SL -> 2 * ((1 + Z.of_nat k) * (g + Z.of_nat k)) <= 5 * SL ->
  exists a b, karsqr c k x = Some (a ++ b) /\ length a = (2 ^ k)%nat /\ length b = (2 ^ k)%nat /\ Forall cn a
    /\ Forall (nb ((g + 1) * (g + 1))) b /\ FV a + R ^ Z.of_nat (2 ^ k) * FV b = FV x * FV x.
Proof.
  induction k as [|k IH]; intros x g Lx Hx G1 Gk Gs Gm.
  - cbn in Lx. destruct x as [|x [|]]; try discriminate.
    assert (Nx : nb g x). { destruct Hx as [a [b [E [_ H]]]]. destruct a as [|? a]; [|destruct a; discriminate]. injection E as ->. exact H. }
    destruct (leaf_sqr c Hff x g Nx ltac:(lia) ltac:(lia) ltac:(lia)) as [lo [hi [Z1 [Z2 [Z3 Z4]]]]].
    exists [lo], [hi]. split; [exact Z1|]. split; [reflexivity|]. split; [reflexivity|]. split; [repeat constructor; apply Z2|]. split.
    + constructor; [|constructor]. apply (nb_mono c Hff _ _ _ Z3). lia.
    + cbn [fval]. unfold bval. change (Z.of_nat (2 ^ 0)) with 1. rewrite Z.pow_1_r, !Z.mul_0_r, !Z.add_0_r. exact Z4.
  - rewrite pow2S in Lx. set (h := (2 ^ k)%nat) in *. pose proof (pow2pos k) as Hh. fold h in Hh.
    rewrite Nat2Z.inj_succ in *. set (kk := Z.of_nat k) in *. assert (Kk : 0 <= kk) by lia.
    destruct (halves h x Lx) as [x0 [x1 [Ex [Lx0 [Lx1 [F1 [_ F2]]]]]]].
    cbn [karsqr]. fold h. rewrite F1, F2.
    assert (Nx1 : x1 <> []) by (apply len_ne; lia). assert (Nx0 : x0 <> []) by (apply len_ne; lia).
    rewrite Ex in Hx. apply (tf_app g x0 x1 Nx1) in Hx. destruct Hx as [Hx0 Hx1]. pose proof (cn_tf x0 Nx0 Hx0) as Tx0.
    assert (Hmon : forall a a' b b', 0 <= a <= a' -> 0 <= b <= b' -> a * b <= a' * b') by (intros; apply Z.mul_le_mono_nonneg; lia).
    pose proof (Hmon (1 + kk) (1 + Z.succ kk) (g + kk) (g + Z.succ kk) ltac:(lia) ltac:(lia)) as Q1.
    pose proof (Hmon (1 + kk) (1 + kk) (1 + kk) (g + kk) ltac:(lia) ltac:(lia)) as Q2.
    destruct (IH x0 1 Lx0 Tx0 ltac:(lia) ltac:(lia) ltac:(lia) ltac:(lia)) as [a0 [b0 [Z1 [La0 [Lb0 [Ha0 [Hb0 Ev0]]]]]]]. rewrite Z1. cbn [bind].
    destruct (IH x1 g Lx1 Hx1 G1 ltac:(lia) Gs ltac:(lia)) as [a1 [b1 [Z2 [La1 [Lb1 [Ha1 [Hb1 Ev1]]]]]]]. rewrite Z2. cbn [bind].
    destruct (karmul_ok k x0 x1 1 g Lx0 Lx1 Tx0 Hx1 ltac:(lia) G1) as [t [T1 [T2 [T3 T4]]]]; fold kk; try lia.
    rewrite T1. cbn [bind]. rewrite Z.mul_1_l in T3. rewrite pow2S in T2. fold h in T2, La0, Lb0, La1, Lb1, Ev0, Ev1.
    pose proof (cn_flw a1 Ha1) as Wa1. pose proof (tf_flw1 _ t T3 G1 ltac:(lia)) as Wt.
    assert (Wb0 : Forall (lw 0 (X - 1)) b0). { eapply Forall_impl; [|exact Hb0]. intros w Hw. apply (nb_lw1 c Hff _ _ Hw). lia. }
    rewrite (skipn_app h a0 b0), (skipn_all2 a0), La0, Nat.sub_diag, skipn_O by lia. cbn [app].
    rewrite (firstn_app h a1 b1), (firstn_all2 a1), La1, Nat.sub_diag, firstn_O, app_nil_r by lia.
    rewrite (firstn_app h a0 b0), (firstn_all2 a0), La0, Nat.sub_diag, firstn_O, app_nil_r by lia.
    rewrite (skipn_app h a1 b1), (skipn_all2 a1), La1, Nat.sub_diag, skipn_O by lia. cbn [app].
    assert (Wm : Forall (lw 0 (X - 1)) (b0 ++ a1)) by (apply Forall_app; split; assumption).
    destruct (ffadd_ok c Hff _ _ _ _ _ t Wm Wt ltac:(rewrite app_length; lia) ltac:(lia) ltac:(lia)) as [m [M1 [M2 [M3 M4]]]]. rewrite M1. cbn [bind].
    rewrite app_length in M2.
    destruct (ffadd_ok c Hff _ _ _ _ m t M3 Wt ltac:(lia) ltac:(lia) ltac:(lia)) as [m2 [N1 [N2 [N3 N4]]]]. rewrite N1. cbn [bind].
    rewrite (FV_app c Hff), Lb0 in M4. set (H := R ^ Z.of_nat h) in *. assert (PH : 0 < H) by apply (Rp c Hff).
    assert (EH : R ^ Z.of_nat (2 * h) = H * H) by (replace (2 * h)%nat with (h + h)%nat by lia; apply (RpD c Hff)).
    pose proof (cn_range c Hff x0 Hx0) as Rx0. rewrite Lx0 in Rx0. fold H in Rx0.
    pose proof (tf_range c Hff g x1 Hx1) as Rx1. rewrite Lx1 in Rx1. fold H in Rx1.
    pose proof (cn_range c Hff a0 Ha0) as Ra0. rewrite La0 in Ra0. fold H in Ra0.
    pose proof (cn_range c Hff a1 Ha1) as Ra1. rewrite La1 in Ra1. fold H in Ra1.
    assert (Sq0 : 0 <= FV x0 * FV x0 < H * H) by (apply mul_lt; lia).
    assert (Cr : 0 <= FV x0 * FV x1 < H * (g * H)) by (apply mul_lt; lia).
    assert (Rb0 : 0 <= FV b0 < H).
    { split.
      - clear - Hb0 PR. induction Hb0 as [|w l [_ [_ Hw]] Hl IHl]; [cbn; lia|]. cbn [fval]. unfold bval. assert (0 <= R * FV l) by (apply Z.mul_nonneg_nonneg; lia). lia.
      - apply (Z.mul_lt_mono_pos_l H); lia. }
    assert (Rm : 0 <= FV m2 < (2 * g + 1) * (H * H)).
    { rewrite N4, M4, T4. assert (0 <= H * FV a1 <= H * (H - 1)) by (split; [apply Z.mul_nonneg_nonneg|apply Z.mul_le_mono_nonneg_l]; lia).
      replace ((2 * g + 1) * (H * H)) with (H * H + 2 * (H * (g * H))) by ring. lia. }
    assert (Lm2 : length m2 = (2 * h)%nat) by lia.
    destruct (rnorm_ok c Hff m2 (2 * g + 1)) as [r [R1 [R2 [R3 R4]]]].
    { apply len_ne; lia. }
    { clear - N3 HX HXh. eapply flw_lim; [exact N3| |]; unfold FfBase.lim; lia. }
    { rewrite Lm2, EH. exact Rm. }
    rewrite R1. cbn [bind]. rewrite Lm2 in R2.
    destruct (halves h r R2) as [r0 [r1 [Er [Lr0 [Lr1 _]]]]]. rewrite Er in R3. apply tf_app in R3; [|apply len_ne; lia]. destruct R3 as [Hr0 Hr1].
    exists (a0 ++ r0), (r1 ++ b1). rewrite Er. split; [rewrite !app_assoc; reflexivity|].
    rewrite !app_length, ?pow2S. fold h. split; [lia|]. split; [lia|]. split; [apply Forall_app; auto|]. split.
    + apply Forall_app; split; [|exact Hb1]. apply (Forall_nb_mono (2 * g + 1)); [apply (tf_nb c Hff _ _ Hr1); lia|]. lia.
    + rewrite Ex, !(FV_app c Hff), La0, Lr1, Lx0. rewrite EH. fold H.
      rewrite Er, (FV_app c Hff), Lr0, N4, M4, T4 in R4. fold H in R4.
      replace (FV a0 + H * FV r0 + H * H * (FV r1 + H * FV b1)) with (FV a0 + H * (FV r0 + H * FV r1) + H * H * H * FV b1) by ring.
      rewrite R4. assert (Ea1 : FV a1 = FV x1 * FV x1 - H * FV b1) by lia. assert (Ea0 : FV a0 = FV x0 * FV x0 - H * FV b0) by lia. rewrite Ea0, Ea1. ring.
Qed.

Lemma bmax_eq : bmax c = SL * R.
Proof. unfold bmax. apply (KSR c Hff). Qed.
Lemma cn_wf f : cn f -> big_wf c f. Proof. intros H. apply H. Qed.
Lemma karlow_ok k : forall x y, length x = (2 ^ k)%nat -> length y = (2 ^ k)%nat -> Forall cn x -> Forall cn y -> (1 + Z.of_nat k) * (1 + Z.of_nat k) <= SL ->
  exists z, karmul_lower c k x y = Some z /\ length z = (2 ^ k)%nat /\ Forall (lw 0 (X - 1)) z /\ (k <> O -> Forall cn z)
    /\ FV z mod R ^ Z.of_nat (2 ^ k) = (FV x * FV y) mod R ^ Z.of_nat (2 ^ k).
Proof.
  induction k as [|k IH]; intros x y Lx Ly Hx Hy G.
  - cbn in Lx, Ly. destruct x as [|x [|]]; try discriminate. destruct y as [|y [|]]; try discriminate.
    apply Forall_cons_iff in Hx. apply Forall_cons_iff in Hy. destruct Hx as [Hx _], Hy as [Hy _].
    destruct (smul_spec c Hok x y (cn_wf x Hx) (cn_wf y Hy)) as [z [Z1 [Z2 Z3]]]. cbn [karmul_lower nth]. rewrite Z1. cbn [bind].
    exists [z]. split; [reflexivity|]. split; [reflexivity|]. split; [|split; [congruence|]].
    + constructor; [|constructor]. destruct Z2 as [L W]. split; [exact L|]. eapply Forall_impl; [|exact W]. cbn. intros. lia.
    + change (Z.of_nat (2 ^ 0)) with 1. rewrite Z.pow_1_r. cbn [fval]. unfold bval. rewrite !Z.mul_0_r, !Z.add_0_r, Z3, bmax_eq.
      rewrite (Z.mul_comm SL R), Z.rem_mul_r by lia. rewrite (Z.mul_comm R (_ mod SL)), Z.mod_add, Z.mod_mod by lia. reflexivity.
  - rewrite pow2S in *. set (h := (2 ^ k)%nat) in *. pose proof (pow2pos k) as Hh. fold h in Hh.
    rewrite Nat2Z.inj_succ in *. set (kk := Z.of_nat k) in *. assert (Kk : 0 <= kk) by lia.
    destruct (halves h x Lx) as [x0 [x1 [Ex [Lx0 [Lx1 [F1 [_ F2]]]]]]].
    destruct (halves h y Ly) as [y0 [y1 [Ey [Ly0 [Ly1 [F3 [_ F4]]]]]]].
    cbn [karmul_lower]. fold h. rewrite F1, F2, F3, F4. rewrite Ex in Hx. rewrite Ey in Hy. apply Forall_app in Hx. apply Forall_app in Hy. destruct Hx as [Hx0 Hx1], Hy as [Hy0 Hy1].
    assert (Q : (1 + kk) * (1 + kk) <= (1 + Z.succ kk) * (1 + Z.succ kk)) by (apply Z.mul_le_mono_nonneg; lia).
    assert (Qs : (1 + kk) * 1 <= (1 + kk) * (1 + kk)) by (apply Z.mul_le_mono_nonneg; lia).
    destruct (karmul_ok k x0 y0 1 1 Lx0 Ly0) as [z0 [Z1 [Z2 [Z3 Z4]]]]; fold kk; try lia; try (apply cn_tf; [apply len_ne; lia|assumption]).
    rewrite Z1. cbn [bind]. apply tf_cns in Z3. rewrite pow2S in Z2. fold h in Z2. destruct (halves h z0 Z2) as [p0 [q0 [Ez0 [Lp0 [Lq0 [E1' [E2' _]]]]]]].
    rewrite E1', E2'. rewrite Ez0 in Z3. apply Forall_app in Z3. destruct Z3 as [Hp0 Hq0].
    destruct (IH x1 y0 Lx1 Ly0 Hx1 Hy0 ltac:(lia)) as [t [T1 [T2 [T3 [_ T4]]]]]. rewrite T1. cbn [bind].
    destruct (ffadd_ok c Hff _ _ _ _ _ t (cn_flw q0 Hq0) T3 ltac:(lia) ltac:(lia) ltac:(lia)) as [m [M1 [M2 [M3 M4]]]]. rewrite M1. cbn [bind].
    destruct (IH x0 y1 Lx0 Ly1 Hx0 Hy1 ltac:(lia)) as [t' [U1 [U2 [U3 [_ U4]]]]]. rewrite U1. cbn [bind].
    destruct (ffadd_ok c Hff _ _ _ _ m t' M3 U3 ltac:(lia) ltac:(lia) ltac:(lia)) as [m2 [N1 [N2 [N3 N4]]]]. rewrite N1. cbn [bind].
    destruct (rnorm_tr c Hff m2) as [r [R1 [R2 [R3 R4]]]]; [apply len_ne; lia|eapply flw_lim; [exact N3| |]; unfold FfBase.lim; lia|].
    rewrite R1. cbn [bind]. exists (p0 ++ r). split; [reflexivity|]. split; [rewrite app_length; lia|].
    assert (Hc : Forall cn (p0 ++ r)) by (apply Forall_app; auto). split; [apply cn_flw; exact Hc|]. split; [auto|].
    rewrite (FV_app c Hff), Lp0, R4, N4, M4, N2, M2, Lq0. rewrite Ez0, (FV_app c Hff), Lp0 in Z4.
    rewrite Ex, Ey, !(FV_app c Hff), Lx0, Ly0. replace (2 * h)%nat with (h + h)%nat by lia. rewrite (RpD c Hff).
    fold h in T4, U4. set (H := R ^ Z.of_nat h) in *. assert (PH : 0 < H) by apply (Rp c Hff). clearbody H.
    replace ((FV q0 + FV t + FV t') mod H) with ((FV q0 + FV x1 * FV y0 + FV x0 * FV y1) mod H).
    2:{ rewrite <- (Zplus_mod_idemp_r (FV t')), U4, Zplus_mod_idemp_r.
        rewrite <- !Z.add_assoc, !(Z.add_comm (FV q0)), <- !Z.add_assoc, !(Z.add_comm (FV t)), <- (Zplus_mod_idemp_r (FV t)), T4, Zplus_mod_idemp_r. f_equal. ring. }
    set (w := FV q0 + FV x1 * FV y0 + FV x0 * FV y1).
    replace ((FV x0 + H * FV x1) * (FV y0 + H * FV y1)) with (FV p0 + H * w + (FV x1 * FV y1) * (H * H)).
    2:{ unfold w. replace (FV p0) with (FV x0 * FV y0 - H * FV q0) by lia. ring. }
    rewrite Z.mod_add by lia. rewrite (Z.div_mod w H) at 2 by lia.
    replace (FV p0 + H * (H * (w / H) + w mod H)) with (FV p0 + H * (w mod H) + (w / H) * (H * H)) by ring. rewrite Z.mod_add by lia. reflexivity.
Qed.

(** ** factors whose Bigs may each carry one excess bit *)
Definition pf (f : ff) : Prop := Forall (nb 2) f.
Lemma cn_pf f : Forall cn f -> pf f.
Proof. apply Forall_impl. intros x Hx. apply (nb_mono c Hff 1); [apply (cn_nb c Hff); exact Hx|lia]. Qed.
Lemma pf_flw f : pf f -> Forall (lw 0 (X - 1)) f.
Proof. apply Forall_impl. intros x Hx. apply (nb_lw1 c Hff 2 x Hx); lia. Qed.
Lemma pf_range f : pf f -> 0 <= FV f <= 3 * R ^ Z.of_nat (length f) - 3.
Proof.
  induction f as [|x f IH]; intros H; [cbn; lia|]. apply Forall_cons_iff in H. destruct H as [[_ [_ Hx]] H]. specialize (IH H). cbn [fval length]. unfold bval.
  rewrite (RpS c Hff). pose proof (Rp c Hff (length f)). pose proof (R_big c Hff) as HRb. set (q := R ^ Z.of_nat (length f)) in *.
  assert (R * FV f <= R * (3 * q - 3)) by (apply Z.mul_le_mono_nonneg_l; lia). assert (0 <= R * FV f) by (apply Z.mul_nonneg_nonneg; lia). lia.
Qed.
Lemma half_sum_pf a b : pf a -> pf b -> length a = length b -> b <> [] ->
  exists s0 s, ff_add c a b = Some s0 /\ rnorm c false s0 = Some s /\ length s = length b /\ tf 6 s /\ FV s = FV a + FV b.
Proof.
  intros Ha Hb L Hnb. pose proof (pf_flw a Ha) as Wa. pose proof (pf_flw b Hb) as Wb.
  destruct (ffadd_ok c Hff 0 (X - 1) 0 (X - 1) a b Wa Wb L ltac:(lia) ltac:(lia)) as [s0 [S1 [S2 [S3 S4]]]].
  pose proof (pf_range a Ha) as Ra. pose proof (pf_range b Hb) as Rb. rewrite L in Ra.
  assert (Hne : s0 <> []). { apply len_ne. rewrite S2, L. destruct b; [congruence|cbn; lia]. }
  destruct (rnorm_ok c Hff s0 6) as [s [R1 [R2 [R3 R4]]]].
  { exact Hne. } { eapply flw_lim; [exact S3| |]; unfold FfBase.lim; lia. }
  { rewrite S4, S2, L. lia. }
  exists s0, s. split; [exact S1|]. split; [exact R1|]. split; [lia|]. split; [exact R3|]. lia.
Qed.
Lemma karmul_pp k : forall x y, length x = (2 ^ k)%nat -> length y = (2 ^ k)%nat -> pf x -> pf y ->
  2 * ((6 + Z.of_nat k) * (6 + Z.of_nat k)) <= 5 * SL ->
  exists z, karmul c k x y = Some z /\ length z = (2 ^ S k)%nat /\ tf 9 z /\ FV z = FV x * FV y.
Proof.
  induction k as [|k IH]; intros x y Lx Ly Hx Hy G.
  - cbn in Lx, Ly. destruct x as [|x [|]]; try discriminate. destruct y as [|y [|]]; try discriminate.
    apply Forall_cons_iff in Hx. destruct Hx as [Nx _]. apply Forall_cons_iff in Hy. destruct Hy as [Ny _].
    destruct (leaf_mul c Hff x y 2 2 Nx Ny ltac:(lia) ltac:(lia) ltac:(lia) ltac:(lia) ltac:(lia)) as [z [Z1 [Z2 [Z3 Z4]]]].
    exists z. split; [exact Z1|]. split; [exact Z2|]. split; [apply (tf_mono c Hff (2 * 2)); [exact Z3|lia]|]. cbn [fval]. unfold bval. rewrite !Z.mul_0_r, !Z.add_0_r. exact Z4.
  - rewrite pow2S in Lx, Ly. set (h := (2 ^ k)%nat) in *. pose proof (pow2pos k) as Hh. fold h in Hh.
    rewrite Nat2Z.inj_succ in *. set (kk := Z.of_nat k) in *.
    assert (Kk : 0 <= kk) by lia.
    pose proof (pf_range x Hx) as Rx. pose proof (pf_range y Hy) as Ry. rewrite Lx in Rx. rewrite Ly in Ry.
    destruct (halves h x Lx) as [x0 [x1 [Ex [Lx0 [Lx1 [F1 [_ F2]]]]]]].
    destruct (halves h y Ly) as [y0 [y1 [Ey [Ly0 [Ly1 [F3 [_ F4]]]]]]].
    cbn [karmul]. fold h. rewrite F1, F2, F3, F4.
    assert (Nx1 : x1 <> []) by (apply len_ne; lia). assert (Ny1 : y1 <> []) by (apply len_ne; lia).
    assert (Nx0 : x0 <> []) by (apply len_ne; lia). assert (Ny0 : y0 <> []) by (apply len_ne; lia).
    unfold pf in Hx, Hy. rewrite Ex in Hx. rewrite Ey in Hy. apply Forall_app in Hx. apply Forall_app in Hy. destruct Hx as [Hx0 Hx1], Hy as [Hy0 Hy1].
    destruct (half_sum_pf x0 x1 Hx0 Hx1 ltac:(lia) Nx1) as [xs0 [xs [A1 [A2 [A3 [A4 A5]]]]]]. rewrite A1. cbn [bind]. rewrite A2. cbn [bind].
    destruct (half_sum_pf y0 y1 Hy0 Hy1 ltac:(lia) Ny1) as [ys0 [ys [B1 [B2 [B3 [B4 B5]]]]]]. rewrite B1. cbn [bind]. rewrite B2. cbn [bind].
    assert (Hmon : forall a a' b b', 0 <= a <= a' -> 0 <= b <= b' -> a * b <= a' * b') by (intros; apply Z.mul_le_mono_nonneg; lia).
    pose proof (Hmon (6 + kk) (6 + Z.succ kk) (6 + kk) (6 + Z.succ kk) ltac:(lia) ltac:(lia)) as Q0.
    pose proof (Hmon 6 (6 + kk) (6 + kk) (6 + kk) ltac:(lia) ltac:(lia)) as Q1. pose proof (S_big c Hff) as Sb.
    destruct (karmul_ok k xs ys 6 6 ltac:(lia) ltac:(lia) A4 B4 ltac:(lia) ltac:(lia)) as [t [T1 [T2 [T3 T4]]]]; fold kk; try lia.
    rewrite T1. cbn [bind].
    destruct (IH x0 y0 Lx0 Ly0 Hx0 Hy0 ltac:(lia)) as [z0 [Z1 [Z2 [Z3 Z4]]]].
    rewrite Z1. cbn [bind].
    destruct (IH x1 y1 Lx1 Ly1 Hx1 Hy1 ltac:(lia)) as [z1 [Y1 [Y2 [Y3 Y4]]]].
    rewrite Y1. cbn [bind].
    pose proof (tf_flw1 _ t T3 ltac:(lia) ltac:(lia)) as Wt.
    pose proof (tf_flw1 _ z0 Z3 ltac:(lia) ltac:(lia)) as Wz0. pose proof (tf_flw1 _ z1 Y3 ltac:(lia) ltac:(lia)) as Wz1.
    destruct HXh as [_ [Xe _]].
    rewrite pow2S in T2, Z2, Y2. fold h in T2, Z2, Y2.
    destruct (ffsub_ok c Hff _ _ _ _ t z0 Wt Wz0 ltac:(lia) ltac:(lia) ltac:(lia)) as [t1 [U1 [U2 [U3 U4]]]]. rewrite U1. cbn [bind].
    destruct (ffsub_ok c Hff _ _ _ _ t1 z1 U3 Wz1 ltac:(lia) ltac:(lia) ltac:(lia)) as [t2 [V1 [V2 [V3 V4]]]]. rewrite V1. cbn [bind].
    destruct (halves h z0 Z2) as [p0 [q0 [Ez0 [Lp0 [Lq0 [E1' [E2' _]]]]]]].
    destruct (halves h z1 Y2) as [p1 [q1 [Ez1 [Lp1 [Lq1 [E3' [E4' _]]]]]]].
    rewrite E1', E2', E3', E4'. rewrite Ez0 in Wz0. apply Forall_app in Wz0. destruct Wz0 as [Hp0 Hq0].
    rewrite Ez1 in Wz1. apply Forall_app in Wz1. destruct Wz1 as [Hp1 Hq1].
    assert (Wm : Forall (lw 0 (X - 1)) (q0 ++ p1)) by (apply Forall_app; split; assumption).
    destruct (ffadd_ok c Hff _ _ _ _ _ t2 Wm V3 ltac:(rewrite app_length; lia) ltac:(lia) ltac:(lia)) as [m [M1 [M2 [M3 M4]]]]. rewrite M1. cbn [bind].
    rewrite app_length in M2.
    assert (Wz : Forall (lw (- lim) lim) (p0 ++ m ++ q1)).
    { apply Forall_app; split; [eapply flw_lim; [exact Hp0| |]; unfold FfBase.lim; lia|].
      apply Forall_app; split; [eapply flw_lim; [exact M3| |]; unfold FfBase.lim; lia|].
      eapply flw_lim; [exact Hq1| |]; unfold FfBase.lim; lia. }
    assert (Ev : FV (p0 ++ m ++ q1) = FV x * FV y).
    { rewrite Ex, Ey, !(FV_app c Hff), M4, (FV_app c Hff), V4, U4, T4, A5, B5, Z4, Y4.
      rewrite Ez0, (FV_app c Hff) in Z4. rewrite Ez1, (FV_app c Hff) in Y4.
      assert (LM : length m = (h + h)%nat) by lia. rewrite ?LM, ?Lp0, ?Lq0, ?Lx0, ?Ly0, ?(RpD c Hff).
      rewrite Lp0 in Z4. rewrite Lp1 in Y4.
      assert (Z4' : FV p0 = FV x0 * FV y0 - R ^ Z.of_nat h * FV q0) by lia. rewrite Z4'.
      assert (Y4' : FV p1 = FV x1 * FV y1 - R ^ Z.of_nat h * FV q1) by lia. rewrite Y4'. ring. }
    assert (Lz : length (p0 ++ m ++ q1) = (2 ^ S (S k))%nat) by (rewrite !app_length, !pow2S; fold h; lia).
    destruct (rnorm_ok c Hff (p0 ++ m ++ q1) 9) as [r [R1 [R2 [R3 R4]]]].
    { apply len_ne. rewrite Lz. apply pow2pos. }
    { exact Wz. }
    { rewrite Ev, Lz, !pow2S. fold h. replace (2 * (2 * h))%nat with (2 * h + 2 * h)%nat by lia. rewrite (RpD c Hff).
      replace (9 * (R ^ Z.of_nat (2 * h) * R ^ Z.of_nat (2 * h))) with ((3 * R ^ Z.of_nat (2 * h)) * (3 * R ^ Z.of_nat (2 * h))) by ring.
      apply mul_lt; lia. }
    exists r. split; [exact R1|]. split; [lia|]. split; [exact R3|]. lia.
Qed.
Lemma karlow_pp k : forall x y, length x = (2 ^ k)%nat -> length y = (2 ^ k)%nat -> pf x -> pf y -> 2 * ((6 + Z.of_nat k) * (6 + Z.of_nat k)) <= 5 * SL ->
  exists z, karmul_lower c k x y = Some z /\ length z = (2 ^ k)%nat /\ Forall (lw 0 (X - 1)) z /\ (k <> O -> Forall cn z)
    /\ FV z mod R ^ Z.of_nat (2 ^ k) = (FV x * FV y) mod R ^ Z.of_nat (2 ^ k).
Proof.
  induction k as [|k IH]; intros x y Lx Ly Hx Hy G.
  - cbn in Lx, Ly. destruct x as [|x [|]]; try discriminate. destruct y as [|y [|]]; try discriminate.
    apply Forall_cons_iff in Hx. apply Forall_cons_iff in Hy. destruct Hx as [Hx _], Hy as [Hy _]. pose proof (S_big c Hff) as Sb.
    destruct (smul_spec c Hok x y (nb_wf c Hff 2 x Hx ltac:(lia)) (nb_wf c Hff 2 y Hy ltac:(lia))) as [z [Z1 [Z2 Z3]]]. cbn [karmul_lower nth]. rewrite Z1. cbn [bind].
    exists [z]. split; [reflexivity|]. split; [reflexivity|]. split; [|split; [congruence|]].
    + constructor; [|constructor]. destruct Z2 as [L W]. split; [exact L|]. eapply Forall_impl; [|exact W]. cbn. intros. lia.
    + change (Z.of_nat (2 ^ 0)) with 1. rewrite Z.pow_1_r. cbn [fval]. unfold bval. rewrite !Z.mul_0_r, !Z.add_0_r, Z3, bmax_eq.
      rewrite (Z.mul_comm SL R), Z.rem_mul_r by lia. rewrite (Z.mul_comm R (_ mod SL)), Z.mod_add, Z.mod_mod by lia. reflexivity.
  - rewrite pow2S in *. set (h := (2 ^ k)%nat) in *. pose proof (pow2pos k) as Hh. fold h in Hh.
    rewrite Nat2Z.inj_succ in *. set (kk := Z.of_nat k) in *. assert (Kk : 0 <= kk) by lia.
    destruct (halves h x Lx) as [x0 [x1 [Ex [Lx0 [Lx1 [F1 [_ F2]]]]]]].
    destruct (halves h y Ly) as [y0 [y1 [Ey [Ly0 [Ly1 [F3 [_ F4]]]]]]].
    cbn [karmul_lower]. fold h. rewrite F1, F2, F3, F4. unfold pf in Hx, Hy. rewrite Ex in Hx. rewrite Ey in Hy. apply Forall_app in Hx. apply Forall_app in Hy. destruct Hx as [Hx0 Hx1], Hy as [Hy0 Hy1].
    assert (Q : (6 + kk) * (6 + kk) <= (6 + Z.succ kk) * (6 + Z.succ kk)) by (apply Z.mul_le_mono_nonneg; lia). pose proof (S_big c Hff) as Sb.
    destruct (karmul_pp k x0 y0 Lx0 Ly0 Hx0 Hy0 ltac:(fold kk; lia)) as [z0 [Z1 [Z2 [Z3 Z4]]]].
    rewrite Z1. cbn [bind]. rewrite pow2S in Z2. fold h in Z2. destruct (halves h z0 Z2) as [p0 [q0 [Ez0 [Lp0 [Lq0 [E1' [E2' _]]]]]]].
    rewrite E1', E2'. rewrite Ez0 in Z3. apply tf_app in Z3; [|apply len_ne; lia]. destruct Z3 as [Hp0 Hq0].
    destruct (IH x1 y0 Lx1 Ly0 Hx1 Hy0 ltac:(lia)) as [t [T1 [T2 [T3 [_ T4]]]]]. rewrite T1. cbn [bind].
    destruct (ffadd_ok c Hff _ _ _ _ _ t (tf_flw1 9 q0 Hq0 ltac:(lia) ltac:(lia)) T3 ltac:(lia) ltac:(lia) ltac:(lia)) as [m [M1 [M2 [M3 M4]]]]. rewrite M1. cbn [bind].
    destruct (IH x0 y1 Lx0 Ly1 Hx0 Hy1 ltac:(lia)) as [t' [U1 [U2 [U3 [_ U4]]]]]. rewrite U1. cbn [bind].
    destruct (ffadd_ok c Hff _ _ _ _ m t' M3 U3 ltac:(lia) ltac:(lia) ltac:(lia)) as [m2 [N1 [N2 [N3 N4]]]]. rewrite N1. cbn [bind].
    destruct (rnorm_tr c Hff m2) as [r [R1 [R2 [R3 R4]]]]; [apply len_ne; lia|eapply flw_lim; [exact N3| |]; unfold FfBase.lim; lia|].
    rewrite R1. cbn [bind]. exists (p0 ++ r). split; [reflexivity|]. split; [rewrite app_length; lia|].
    assert (Hc : Forall cn (p0 ++ r)) by (apply Forall_app; auto). split; [apply cn_flw; exact Hc|]. split; [auto|].
    rewrite (FV_app c Hff), Lp0, R4, N4, M4, N2, M2, Lq0. rewrite Ez0, (FV_app c Hff), Lp0 in Z4.
    rewrite Ex, Ey, !(FV_app c Hff), Lx0, Ly0. replace (2 * h)%nat with (h + h)%nat by lia. rewrite (RpD c Hff).
    fold h in T4, U4. set (H := R ^ Z.of_nat h) in *. assert (PH : 0 < H) by apply (Rp c Hff). clearbody H.
    replace ((FV q0 + FV t + FV t') mod H) with ((FV q0 + FV x1 * FV y0 + FV x0 * FV y1) mod H).
    2:{ rewrite <- (Zplus_mod_idemp_r (FV t')), U4, Zplus_mod_idemp_r.
        rewrite <- !Z.add_assoc, !(Z.add_comm (FV q0)), <- !Z.add_assoc, !(Z.add_comm (FV t)), <- (Zplus_mod_idemp_r (FV t)), T4, Zplus_mod_idemp_r. f_equal. ring. }
    set (w := FV q0 + FV x1 * FV y0 + FV x0 * FV y1).
    replace ((FV x0 + H * FV x1) * (FV y0 + H * FV y1)) with (FV p0 + H * w + (FV x1 * FV y1) * (H * H)).
    2:{ unfold w. replace (FV p0) with (FV x0 * FV y0 - H * FV q0) by lia. ring. }
    rewrite Z.mod_add by lia. rewrite (Z.div_mod w H) at 2 by lia.
    replace (FV p0 + H * (H * (w / H) + w mod H)) with (FV p0 + H * (w mod H) + (w / H) * (H * H)) by ring. rewrite Z.mod_add by lia. reflexivity.
Qed.
Lemma gk_ok k : (k <= 3)%nat -> 2 * ((6 + Z.of_nat k) * (6 + Z.of_nat k)) <= 5 * SL.
Proof. intros Hk. pose proof (S_big c Hff). assert ((6 + Z.of_nat k) * (6 + Z.of_nat k) <= 9 * 9) by (apply Z.mul_le_mono_nonneg; lia). lia. Qed.
End F.
