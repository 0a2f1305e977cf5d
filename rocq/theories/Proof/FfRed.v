(** The upper half of a product from its lower half, and Montgomery reduction of an FF. *)
From Verif Require Import Base.Word Model.Big Model.Ff Spec.BigSpec Spec.FfSpec Proof.BigVal Proof.BigShift
  Proof.BigMul Proof.BigSqr Proof.BigMisc Proof.BigMod Proof.BigBytes Proof.BigInv Proof.FfBase Proof.FfLeaf Proof.FfMul.
Open Scope Z_scope.

Section F.
Variable c : cfg.
Hypothesis Hff : ff_ok c.
Notation X := (2 ^ BASEBITS c).
Notation C := (CHUNK c).
Notation R := (bigR c).
Notation FV := (fval c).
Notation cn := (cn c).
Notation nb := (nb c).
Notation lw := (lw c).
Notation tf := (tf c).
Notation SL := (SL c).
Notation lim := (lim c).
Let Hok := Hok c Hff.
Let HX := fX c Hff.
Let HXC := fXC c Hff.
Let PR := R_pos c Hff.
Let HS := S_big c Hff.
Let HXh := Xh c Hff.

Lemma firstn_l {A} h (a b : list A) : length a = h -> firstn h (a ++ b) = a.
Proof. intros L. rewrite firstn_app, L, Nat.sub_diag, firstn_O, app_nil_r. apply firstn_all2. lia. Qed.
Lemma skipn_l {A} h (a b : list A) : length a = h -> skipn h (a ++ b) = b.
Proof. intros L. rewrite skipn_app, L, Nat.sub_diag, skipn_O, skipn_all2 by lia. reflexivity. Qed.

(** the arithmetic of the recovered low product *)
Lemma low_arith H x0 x1 y0 y1 l0 l1 t0 t1 : 0 < H ->
  (l0 + H * l1) mod (H * H) = ((x0 + H * x1) * (y0 + H * y1)) mod (H * H) -> 0 <= x0 * y0 < H * H ->
  t0 + H * t1 = (x0 + x1) * (y0 + y1) - x1 * y1 ->
  (l0 + H * (l1 + l0 - t0)) mod (H * H) = x0 * y0.
Proof.
  intros PH E Rg Et. assert (PHH : 0 < H * H) by (apply Z.mul_pos_pos; lia).
  pose proof (Z.div_mod (l0 + H * l1) (H * H) ltac:(lia)) as D1. pose proof (Z.div_mod ((x0 + H * x1) * (y0 + H * y1)) (H * H) ltac:(lia)) as D2.
  rewrite <- E in D2. set (q1 := (l0 + H * l1) / (H * H)) in *. set (q2 := ((x0 + H * x1) * (y0 + H * y1)) / (H * H)) in *.
  assert (El : l0 = (x0 + H * x1) * (y0 + H * y1) - H * l1 + (q1 - q2) * (H * H)) by lia.
  assert (Et0 : t0 = (x0 + x1) * (y0 + y1) - x1 * y1 - H * t1) by lia.
  symmetry. eapply Z.mod_unique with (q := (q1 - q2) + x1 * y1 + x0 * y1 + x1 * y0 + H * x1 * y1 + (q1 - q2) * H - l1 + t1); [left; lia|].
  rewrite Et0. rewrite El. ring.
Qed.

Lemma karup_ok k z x y : length z = (2 ^ S k)%nat -> length x = (2 ^ S k)%nat -> length y = (2 ^ S k)%nat ->
  Forall cn z -> Forall cn x -> Forall cn y -> (2 + Z.of_nat k) * (2 + Z.of_nat k) <= SL ->
  FV z mod R ^ Z.of_nat (2 ^ S k) = (FV x * FV y) mod R ^ Z.of_nat (2 ^ S k) ->
  exists lo u, karmul_upper c k z x y = Some (lo ++ u) /\ length lo = (2 ^ S k)%nat /\ length u = (2 ^ S k)%nat
    /\ Forall cn lo /\ Forall (lw 0 (X - 1)) u /\ FV lo + R ^ Z.of_nat (2 ^ S k) * FV u = FV x * FV y.
Proof.
  intros Lz Lx Ly Hz Hx Hy G E. rewrite pow2S in *. set (h := (2 ^ k)%nat) in *. pose proof (pow2pos k) as Hh. fold h in Hh.
  set (kk := Z.of_nat k) in *. assert (Kk : 0 <= kk) by lia.
  destruct (halves h x Lx) as [x0 [x1 [Ex [Lx0 [Lx1 [F1 [_ F2]]]]]]].
  destruct (halves h y Ly) as [y0 [y1 [Ey [Ly0 [Ly1 [F3 [_ F4]]]]]]].
  destruct (halves h z Lz) as [l0 [l1 [Ez [Ll0 [Ll1 [F5 [_ F6]]]]]]].
  unfold karmul_upper. fold h. rewrite F1, F2, F3, F4, F5, F6. clear F1 F2 F3 F4 F5 F6.
  rewrite Ex in Hx. rewrite Ey in Hy. rewrite Ez in Hz. apply Forall_app in Hx. apply Forall_app in Hy. apply Forall_app in Hz.
  destruct Hx as [Hx0 Hx1], Hy as [Hy0 Hy1], Hz as [Hl0 Hl1].
  assert (Nx1 : x1 <> []) by (apply len_ne; lia). assert (Ny1 : y1 <> []) by (apply len_ne; lia).
  destruct (half_sum c Hff 1 x0 x1 Hx0 (cn_tf c Hff x1 Nx1 Hx1) ltac:(lia) ltac:(lia) ltac:(lia)) as [xs0 [xs [A1 [A2 [A3 [A4 A5]]]]]]. rewrite A1. cbn [bind].
  destruct (half_sum c Hff 1 y0 y1 Hy0 (cn_tf c Hff y1 Ny1 Hy1) ltac:(lia) ltac:(lia) ltac:(lia)) as [ys0 [ys [B1 [B2 [B3 [B4 B5]]]]]]. rewrite B1. cbn [bind].
  rewrite A2, B2. cbn [bind].
  assert (Hmon : forall a a' b b', 0 <= a <= a' -> 0 <= b <= b' -> a * b <= a' * b') by (intros; apply Z.mul_le_mono_nonneg; lia).
  pose proof (Hmon 1 (2 + kk) (2 + kk) (2 + kk) ltac:(lia) ltac:(lia)) as Q0.
  pose proof (Hmon (1 + kk) (2 + kk) (1 + kk) (2 + kk) ltac:(lia) ltac:(lia)) as Q1.
  destruct (karmul_ok c Hff k ys xs (1 + 1) (1 + 1) ltac:(lia) ltac:(lia) B4 A4) as [t [T1 [T2 [T3 T4]]]]; fold kk; try lia. rewrite T1. cbn [bind].
  destruct (karmul_ok c Hff k x1 y1 1 1 ltac:(lia) ltac:(lia) (cn_tf c Hff x1 Nx1 Hx1) (cn_tf c Hff y1 Ny1 Hy1)) as [zh [Z1 [Z2 [Z3 Z4]]]]; fold kk; try lia. rewrite Z1. cbn [bind].
  apply (tf_cns c Hff) in Z3. rewrite pow2S in T2, Z2. fold h in T2, Z2.
  pose proof (tf_flw1 c Hff _ t T3 ltac:(lia) ltac:(lia)) as Wt. pose proof (cn_flw c zh Z3) as Wzh.
  destruct (ffsub_ok c Hff _ _ _ _ t zh Wt Wzh ltac:(lia) ltac:(lia) ltac:(lia)) as [t1 [U1 [U2 [U3 U4]]]]. rewrite U1. cbn [bind].
  destruct (halves h t1 ltac:(lia)) as [ta [tb [Et1 [Lta [Ltb [E1 _]]]]]]. rewrite E1. clear E1.
  pose proof U3 as U3'. rewrite Et1 in U3'. apply Forall_app in U3'. destruct U3' as [Wta _].
  destruct (ffadd_ok c Hff _ _ _ _ l1 l0 (cn_flw c l1 Hl1) (cn_flw c l0 Hl0) ltac:(lia) ltac:(lia) ltac:(lia)) as [m [M1 [M2 [M3 M4]]]]. rewrite M1. cbn [bind].
  destruct (ffsub_ok c Hff _ _ _ _ m ta M3 Wta ltac:(lia) ltac:(lia) ltac:(lia)) as [m2 [N1 [N2 [N3 N4]]]]. rewrite N1. cbn [bind].
  destruct (rnorm_tr c Hff (l0 ++ m2)) as [zl [R1 [R2 [R3 R4]]]].
  { apply len_ne. rewrite app_length. lia. }
  { apply Forall_app; split; eapply flw_lim; [apply cn_flw; exact Hl0| | |exact N3| |]; unfold FfBase.lim; lia. }
  rewrite R1. cbn [bind]. rewrite app_length in R2.
  replace (length (l0 ++ m2)) with (h + h)%nat in R4 by (rewrite app_length; lia).
  rewrite (RpD c Hff), (FV_app c Hff), Ll0, N4, M4 in R4.
  rewrite Ez, Ex, Ey, !(FV_app c Hff), Ll0, Lx0, Ly0 in E. replace (2 * h)%nat with (h + h)%nat in E by lia. rewrite (RpD c Hff) in E.
  rewrite Et1, (FV_app c Hff), Lta, T4, A5, B5, Z4 in U4.
  pose proof (cn_range c Hff x0 Hx0) as Rx0. rewrite Lx0 in Rx0. pose proof (cn_range c Hff y0 Hy0) as Ry0. rewrite Ly0 in Ry0.
  pose proof (cn_range c Hff x1 Hx1) as Rx1. rewrite Lx1 in Rx1. pose proof (cn_range c Hff y1 Hy1) as Ry1. rewrite Ly1 in Ry1.
  set (H := R ^ Z.of_nat h) in *. assert (PH : 0 < H) by apply (Rp c Hff).
  assert (P00 : 0 <= FV x0 * FV y0 < H * H) by (apply mul_lt; lia).
  assert (P01 : 0 <= FV x0 * FV y1 < H * H) by (apply mul_lt; lia). assert (P10 : 0 <= FV x1 * FV y0 < H * H) by (apply mul_lt; lia).
  rewrite (low_arith H (FV x0) (FV x1) (FV y0) (FV y1) _ _ _ (FV tb) PH E P00) in R4 by lia.
  pose proof (cn_flw c zl R3) as Wzl.
  destruct (ffsub_ok c Hff _ _ _ _ t1 zl U3 Wzl ltac:(lia) ltac:(lia) ltac:(lia)) as [t2 [V1 [V2 [V3 V4]]]]. rewrite V1. cbn [bind].
  destruct (halves h zl ltac:(lia)) as [z0 [z1 [Ezl [Lz0 [Lz1 [E1 [E2 _]]]]]]]. rewrite E1, E2. clear E1 E2.
  destruct (halves h zh Z2) as [h0 [h1 [Ezh [Lh0 [Lh1 [E1 [E2 _]]]]]]]. rewrite E1, E2. clear E1 E2.
  rewrite Ezl in R3. apply Forall_app in R3. destruct R3 as [Hz0 Hz1]. rewrite Ezh in Z3. apply Forall_app in Z3. destruct Z3 as [Hh0 Hh1].
  assert (Hmid : Forall cn (z1 ++ h0)) by (apply Forall_app; auto).
  destruct (ffadd_ok c Hff _ _ _ _ _ t2 (cn_flw c _ Hmid) V3 ltac:(rewrite app_length; lia) ltac:(lia) ltac:(lia)) as [w [W1 [W2 [W3 W4]]]]. rewrite W1. cbn [bind].
  rewrite app_length in W2. pose proof (cn_range c Hff _ Hmid) as Rmid. rewrite app_length, Lz1, Lh0, (RpD c Hff) in Rmid. fold H in Rmid.
  assert (Et2 : FV t2 = FV x0 * FV y1 + FV x1 * FV y0).
  { rewrite V4, R4, Et1, (FV_app c Hff), Lta. fold H. rewrite U4. ring. }
  destruct (rnorm_ok c Hff w 3) as [w' [W'1 [W'2 [W'3 W'4]]]].
  { apply len_ne. lia. }
  { eapply flw_lim; [exact W3| |]; unfold FfBase.lim; lia. }
  { rewrite W4, Et2. replace (length w) with (h + h)%nat by lia. rewrite (RpD c Hff). fold H. lia. }
  rewrite W'1. cbn [bind]. destruct (halves h w' ltac:(lia)) as [w0 [w1 [Ew [Lw0 [Lw1 _]]]]].
  rewrite Ew in W'3. apply tf_app in W'3; [|apply len_ne; lia]. destruct W'3 as [Hw0 Hw1].
  exists (z0 ++ w0), (w1 ++ h1). rewrite Ew. split; [rewrite !app_assoc; reflexivity|]. rewrite !app_length. split; [lia|]. split; [lia|].
  split; [apply Forall_app; auto|]. split.
  { apply Forall_app; split; [|apply cn_flw; exact Hh1]. apply (tf_flw1 c Hff 3 w1 Hw1); lia. }
  rewrite Ex, Ey, !(FV_app c Hff), Lz0, Lw1, Lx0, Ly0. replace (2 * h)%nat with (h + h)%nat by lia. rewrite (RpD c Hff). fold H.
  rewrite Ew, (FV_app c Hff), Lw0, W4, Et2, (FV_app c Hff), Lz1 in W'4. fold H in W'4.
  rewrite Ezl, (FV_app c Hff), Lz0 in R4. fold H in R4. rewrite Ezh, (FV_app c Hff), Lh0 in Z4. fold H in Z4.
  replace (FV z0 + H * FV w0 + H * H * (FV w1 + H * FV h1)) with (FV z0 + H * (FV w0 + H * FV w1) + H * H * H * FV h1) by ring.
  rewrite W'4. replace (FV z0) with (FV x0 * FV y0 - H * FV z1) by lia. replace (FV h0) with (FV x1 * FV y1 - H * FV h1) by lia. ring.
Qed.

Lemma log2_pow k : Nat.log2 (2 ^ k) = k.
Proof. apply Nat.log2_pow2. lia. Qed.

(** ff_reduce: d holds T, ms the (odd) modulus p, md its inverse modulo R^n *)
Lemma reduce_ok k d ms md G : length d = (2 ^ S (S k))%nat -> length ms = (2 ^ S k)%nat -> length md = (2 ^ S k)%nat ->
  tf G d -> Forall cn ms -> pf c md -> (S k <= 3)%nat -> (2 + Z.of_nat k) * (2 + Z.of_nat k) <= SL -> 1 <= G -> 2 * G <= 5 * SL ->
  (FV ms * FV md) mod R ^ Z.of_nat (2 ^ S k) = 1 ->
  exists r m, ff_reduce c d ms md = Some r /\ length r = (2 ^ S k)%nat /\ tf (G + 1) r /\ 0 <= m < R ^ Z.of_nat (2 ^ S k)
    /\ FV r * R ^ Z.of_nat (2 ^ S k) = FV d + FV ms * (R ^ Z.of_nat (2 ^ S k) - m).
Proof.
  intros Ld Ls Lm Hd Hs Hm K3' Gk G1 G5 Inv. unfold ff_reduce. rewrite Ls, log2_pow. rewrite (pow2S (S k)) in Ld. set (n := (2 ^ S k)%nat) in *.
  assert (Hn : (1 <= n)%nat) by apply pow2pos.
  destruct (halves n d Ld) as [d0 [d1 [Ed [Ld0 [Ld1 [F1 [F2 F3]]]]]]].
  unfold sducopy. rewrite Ld. rewrite Nat.leb_refl. cbn [bind]. rewrite F1, F3. rewrite Ed in Hd. apply tf_app in Hd; [|apply len_ne; lia]. destruct Hd as [Hd0 Hd1].
  assert (Hmon : forall a a' b b', 0 <= a <= a' -> 0 <= b <= b' -> a * b <= a' * b') by (intros; apply Z.mul_le_mono_nonneg; lia).
  destruct (karlow_pp c Hff (S k) d0 md Ld0 Lm (cn_pf c Hff d0 Hd0) Hm (gk_ok c Hff (S k) K3')) as [m [M1 [M2 [_ [M3 M4]]]]].
  rewrite M1. cbn [bind]. specialize (M3 ltac:(discriminate)). fold n in M4.
  set (H := R ^ Z.of_nat n) in *. assert (PH : 0 < H) by apply (Rp c Hff).
  pose proof (cn_range c Hff m M3) as Rm. rewrite M2 in Rm. fold n H in Rm.
  assert (Eq : FV d0 mod H = (FV ms * FV m) mod H).
  { rewrite <- Zmult_mod_idemp_r, M4, Zmult_mod_idemp_r. replace (FV ms * (FV d0 * FV md)) with (FV d0 * (FV ms * FV md)) by ring.
    rewrite <- Zmult_mod_idemp_r, Inv, Z.mul_1_r. reflexivity. }
  destruct (karup_ok k d0 ms m Ld0 Ls M2 Hd0 Hs M3 Gk Eq) as [lo [u [K1 [K2 [K3 [K4 [K5 K6]]]]]]]. rewrite K1. cbn [bind]. fold n H in K2, K3, K6.
  rewrite app_length, K2, K3. replace (n + n)%nat with (2 * n)%nat by lia. rewrite Nat.leb_refl. cbn [bind]. rewrite (skipn_l n lo u K2), (firstn_all2 u) by lia.
  pose proof (tf_flw c Hff G d1 Hd1 G1 G5) as Wd. rewrite (h5 c Hff) in Wd. destruct HXh as [_ [Xe _]].
  destruct (ffadd_ok c Hff _ _ _ _ d1 ms Wd (cn_flw c ms Hs) ltac:(lia) ltac:(lia) ltac:(lia)) as [r1 [A1 [A2 [A3 A4]]]]. rewrite A1. cbn [bind].
  destruct (ffsub_ok c Hff _ _ _ _ r1 u A3 K5 ltac:(lia) ltac:(lia) ltac:(lia)) as [r2 [B1 [B2 [B3 B4]]]]. rewrite B1. cbn [bind].
  pose proof (cn_range c Hff lo K4) as Rlo. rewrite K2 in Rlo. fold n H in Rlo. pose proof (cn_range c Hff d0 Hd0) as Rd0. rewrite Ld0 in Rd0. fold H in Rd0.
  pose proof (cn_range c Hff ms Hs) as Rs. rewrite Ls in Rs. fold n H in Rs. pose proof (tf_range c Hff G d1 Hd1) as Rd1. rewrite Ld1 in Rd1. fold H in Rd1.
  assert (Elo : FV lo = FV d0).
  { rewrite <- (Z.mod_small (FV lo) H), <- (Z.mod_small (FV d0) H) by lia. rewrite Eq, <- K6. rewrite (Z.mul_comm H (FV u)), Z.mod_add by lia. reflexivity. }
  assert (Uu : 0 <= FV u <= FV ms).
  { assert (0 <= FV ms * FV m <= FV ms * H) by (split; [apply Z.mul_nonneg_nonneg|apply Z.mul_le_mono_nonneg_l]; lia).
    split; [|apply (Z.mul_le_mono_pos_l _ _ H PH); lia]. assert (- H < H * FV u) by lia. destruct (Z.lt_ge_cases (FV u) 0) as [Q|Q]; [|lia].
    pose proof (Z.mul_le_mono_nonneg_l (FV u) (-1) H ltac:(lia) ltac:(lia)). lia. }
  destruct (rnorm_ok c Hff r2 (G + 1)) as [r [R1 [R2 [R3 R4]]]].
  { apply len_ne. lia. }
  { eapply flw_lim; [exact B3| |]; unfold FfBase.lim; lia. }
  { rewrite B4, A4. replace (length r2) with n by lia. fold H. lia. }
  exists r, (FV m). split; [exact R1|]. split; [lia|]. split; [exact R3|]. split; [exact Rm|].
  rewrite R4, B4, A4, Ed, (FV_app c Hff), Ld0. fold H. replace (FV d0) with (FV ms * FV m - H * FV u) by lia. ring.
Qed.
End F.
