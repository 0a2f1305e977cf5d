(** Montgomery arithmetic of FFs for any number n = 2^k <= 8 of Bigs. *)
From Verif Require Import Base.Word Model.Big Model.Ff Spec.BigSpec Spec.FfSpec Proof.BigVal Proof.BigShift
  Proof.BigMul Proof.BigSqr Proof.BigMisc Proof.BigMod Proof.BigBytes Proof.BigInv Proof.BigMonty Proof.FfBase Proof.FfLeaf Proof.FfMul Proof.FfRed Proof.FfMod.
From Verif Require Import Proof.NumTheory.
From Coq Require Import Znumtheory.
Open Scope Z_scope.

(** the Montgomery radix: one Big uses its full width, several use 2^(8*MODBYTES*n) *)
Definition frad (c : cfg) (n : nat) : Z := if (n =? 1)%nat then bmax c else bigR c ^ Z.of_nat n.

Section F.
Variable c : cfg.
Hypothesis Hff : ff_ok c.
Notation B := (BASEBITS c).
Notation N := (NLEN c).
Notation V := (val (BASEBITS c)).
Notation X := (2 ^ BASEBITS c).
Notation C := (CHUNK c).
Notation T := (FT c).
Notation R := (bigR c).
Notation FV := (fval c).
Notation cn := (cn c).
Notation nb := (nb c).
Notation lw := (lw c).
Notation tf := (tf c).
Notation SL := (SL c).
Notation E1 := (E1 c).
Notation lim := (lim c).
Let Hok := Hok c Hff.
Let HX := fX c Hff.
Let HXC := fXC c Hff.
Let PR := R_pos c Hff.
Let HS := S_big c Hff.
Let HXh := Xh c Hff.
Let HC := fC c Hff.
Let HB16 := fB c Hff.
Let HN := fN c Hff.

(** ** excess *)
Lemma SL_X : 32 * SL <= X.
Proof. rewrite (XS c Hff). pose proof (T_ge c Hff). rewrite Z.mul_comm. apply Z.mul_le_mono_nonneg_l; lia. Qed.
Lemma excess_ok g x : nb g x -> g <= SL -> 0 <= V x / R < g /\ nb (V x / R + 1) x /\ ff_excess c x = Some (V x / R + 1).
Proof.
  intros H G. destruct (nb_last c Hff g x H) as [Hl El]. pose proof H as [L [W Hv]].
  assert (Hq : 0 <= V x / R < g) by (split; [apply Z.div_pos; lia|apply Z.div_lt_upper_bound; lia]).
  split; [exact Hq|]. split.
  { split; [exact L|]. split; [exact W|]. split; [lia|]. pose proof (Z.div_mod (V x) R ltac:(lia)). pose proof (Z.mod_pos_bound (V x) R PR). lia. }
  pose proof (ffok c Hff) as [_ [HT1 HT2]].
  assert (Es : Z.shiftr (Z.land (get x (N - 1)) (Z.shiftl (-1) T)) T = V x / R).
  { rewrite (last_get c Hff x L), Z.shiftr_land, Z.shiftr_shiftl_l, Z.sub_diag, Z.shiftl_0_r by lia. change (-1) with (Z.lnot 0). rewrite Z.lnot_0, Z.land_m1_r.
    pose proof (E1_pos c Hff). pose proof (T_pos c Hff). rewrite Z.shiftr_div_pow2, El, Z.div_div by lia. rewrite (R_eq c Hff). reflexivity. }
  unfold ff_excess. rewrite Es. apply chk_ok. pose proof SL_X. lia.
Qed.
Lemma pexceed_ok gx gy x y : nb gx x -> nb gy y -> gx <= SL -> gy <= SL ->
  exists ea eb, 1 <= ea <= gx /\ 1 <= eb <= gy /\ nb ea x /\ nb eb y /\ pexceed c x y = Some (FEXC c <? (ea + 1) * (eb + 1)).
Proof.
  intros Hx Hy Gx Gy. destruct (excess_ok gx x Hx Gx) as [A1 [A2 A3]]. destruct (excess_ok gy y Hy Gy) as [B1 [B2 B3]].
  exists (V x / R + 1), (V y / R + 1). split; [lia|]. split; [lia|]. split; [exact A2|]. split; [exact B2|].
  unfold pexceed. rewrite A3. cbn [bind]. rewrite B3. cbn [bind]. set (ea := V x / R + 1) in *. set (eb := V y / R + 1) in *. pose proof SL_X as SX.
  rewrite (chk_ok C (ea + 1)) by lia. cbn [bind]. rewrite (chk_ok C (eb + 1)) by lia. cbn [bind]. rewrite chk_ok; [reflexivity|].
  assert (P : 0 <= (ea + 1) * (eb + 1) <= X * X) by (split; [apply Z.mul_nonneg_nonneg; lia|apply Z.mul_le_mono_nonneg; lia]).
  assert (X * X < 2 ^ (2 * C - 1)). { rewrite <- Z.pow_add_r by lia. apply Z.pow_lt_mono_r; lia. } lia.
Qed.
Lemma tf_last g f : tf g f -> 1 <= g -> nb g (last f []) /\ (forall g', nb g' (last f []) -> tf g' f).
Proof.
  intros [a [b [-> [Ha Hb]]]] G. rewrite last_last. split; [exact Hb|]. intros g' H. exists a, b. auto.
Qed.

(** ** one Big *)
Lemma big_tf g x : tf g [x] <-> nb g x.
Proof.
  split; [|intros H; exists [], x; split; [reflexivity|split; [constructor|exact H]]].
  intros [a [b [E [_ H]]]]. destruct a as [|? a]; [injection E as ->; exact H|destruct a; discriminate].
Qed.
Lemma FV1 x : FV [x] = V x. Proof. cbn [fval]. unfold bval. lia. Qed.
Lemma low_limb x : big_wf c x -> get x 0 = V x mod X /\ 0 <= get x 0 < X.
Proof.
  intros [L W]. destruct x as [|a t]; [cbn in L; lia|]. inversion W as [|? ? Ha Ht]; subst. unfold get. cbn [nth val]. split; [|exact Ha].
  rewrite (Z.mul_comm X), Z.mod_add, Z.mod_small by lia. reflexivity.
Qed.
Lemma XR : R = X * 2 ^ (8 * MODBYTES c - B) /\ 0 <= 8 * MODBYTES c - B.
Proof.
  pose proof (bits_eq c Hff) as E. pose proof (ffok c Hff) as [_ [HT1 HT2]].
  assert (0 <= 8 * MODBYTES c - B). { rewrite E. assert (B * 1 <= B * (Z.of_nat N - 1)) by (apply Z.mul_le_mono_nonneg_l; lia). lia. }
  split; [|assumption]. rewrite <- Z.pow_add_r by lia. unfold bigR. f_equal. lia.
Qed.
Lemma mod_sub2 a m k : 0 < m -> 0 < k -> a mod (m * k) = 1 -> 1 < m -> a mod m = 1.
Proof. intros Hm Hk E Hm1. rewrite Z.rem_mul_r in E by lia. pose proof (Z.mod_pos_bound a m Hm). pose proof (Z.mod_pos_bound (a / m) k Hk) as Hq.
  set (q := (a / m) mod k) in *. destruct (Z.eq_dec q 0) as [->|Q]; [lia|]. pose proof (Z.mul_le_mono_nonneg_l 1 q m ltac:(lia) ltac:(lia)). lia. Qed.
Lemma mc_ok p d : cn p -> nb 2 d -> (V p * V d) mod R = 1 ->
  exists mc, ff_mc c [d] = Some mc /\ (get p 0 * mc + 1) mod X = 0.
Proof.
  intros Hp Hd E. destruct (low_limb p (proj1 Hp)) as [Ep Rp']. pose proof (S_big c Hff) as Sb0. destruct (low_limb d (nb_wf c Hff 2 d Hd ltac:(lia))) as [Ed Rd].
  exists (X - get d 0). split; [unfold ff_mc; cbn [nth]; apply chk_ok; lia|].
  destruct XR as [XE Xn]. rewrite XE in E. apply mod_sub2 in E; [|lia|apply pow2_pos; lia|lia].
  rewrite Ep, Ed. rewrite <- Zplus_mod_idemp_l, Zmult_mod_idemp_l.
  replace (V p * (X - V d mod X)) with (V p * X + V p * - (V d mod X)) by ring. 
  replace (V p * X + V p * - (V d mod X)) with (- (V p * (V d mod X)) + V p * X) by ring. rewrite Z.mod_add by lia.
  rewrite Zplus_mod_idemp_l. replace (- (V p * (V d mod X)) + 1) with (1 - V p * (V d mod X)) by ring.
  rewrite Zminus_mod, Zmult_mod_idemp_r, E. rewrite (Z.mod_small 1) by lia. reflexivity.
Qed.
Lemma bmaxE : bmax c = SL * R. Proof. apply (bmax_eq c Hff). Qed.
Lemma bmax_pow : 2 ^ (B * Z.of_nat N) = bmax c. Proof. reflexivity. Qed.
Lemma monty1 p d mc D : cn p -> dbig_wf c d -> (get p 0 * mc + 1) mod X = 0 -> V d < D * (SL * (R * R)) -> 1 <= D -> D + 1 <= SL ->
  exists r q, monty c p mc d = Some r /\ big_wf c r /\ 0 <= q < bmax c /\ V r * bmax c = V d + q * V p.
Proof.
  intros Hp Hd Hmc Hv D1 DS. pose proof (canon_val B p ltac:(lia) (proj2 (proj1 Hp))) as Pp. destruct Hp as [Wp Hp].
  destruct (monty_spec c Hok p d mc Wp Hd Hmc) as [r [q [M1 [M2 [M3 M4]]]]].
  { rewrite !bmax_pow, bmaxE.
    assert ((SL * R - 1) * V p <= SL * R * R) by (apply Z.mul_le_mono_nonneg; lia).
    assert ((D + 1) * (SL * (R * R)) <= SL * (SL * (R * R))). { apply Z.mul_le_mono_nonneg_r; [|lia]. apply Z.mul_nonneg_nonneg; [lia|apply Z.mul_nonneg_nonneg; lia]. }
    replace (SL * R * (SL * R)) with (SL * (SL * (R * R))) by ring.
    replace ((D + 1) * (SL * (R * R))) with (D * (SL * (R * R)) + SL * R * R) in * by ring. lia. }
  rewrite !bmax_pow in M3, M4. exists r, q. auto.
Qed.

(** ** the modulus *)
Variables p nd : ff.
Variable k : nat.
Hypothesis Hk : (k <= 3)%nat.
Hypothesis Lp : length p = (2 ^ k)%nat.
Hypothesis Ln : length nd = (2 ^ k)%nat.
Hypothesis Hp : Forall cn p.
Hypothesis Hnd : pf c nd.
Notation n := (2 ^ k)%nat.
Notation P := (FV p).
Notation RN := (R ^ Z.of_nat (2 ^ k)).
Notation rho := (frad c (2 ^ k)).
Hypothesis Podd : P mod 2 = 1.
Hypothesis Inv : (P * FV nd) mod RN = 1.
Notation F := (FEXC c).

Lemma P_pos : 0 < P < RN.
Proof. pose proof (cn_range c Hff p Hp) as H. rewrite Lp in H. destruct (Z.eq_dec P 0) as [E|]; [rewrite E in Podd; discriminate|lia]. Qed.
Lemma F_eq : 2 * F = SL. Proof. apply (FEXC_eq c Hff). Qed.
Lemma F_ge : 128 <= F. Proof. pose proof F_eq. lia. Qed.
Lemma RN_pos : 0 < RN. Proof. apply (Rp c Hff). Qed.
Lemma rho_pow : exists e, 0 <= e /\ rho = 2 ^ e.
Proof.
  unfold frad. destruct (_ =? 1)%nat; [exists (B * Z.of_nat N); split; [apply Z.mul_nonneg_nonneg; lia|reflexivity]|].
  exists (8 * MODBYTES c * Z.of_nat n). pose proof (cf_M c (cfg_ok_facts c Hok)). split; [apply Z.mul_nonneg_nonneg; lia|]. unfold bigR. rewrite <- Z.pow_mul_r by lia. reflexivity.
Qed.
Lemma rho_pos : 0 < rho. Proof. destruct rho_pow as [e [He ->]]. apply pow2_pos. exact He. Qed.
Lemma rho_coprime : Z.gcd rho P = 1.
Proof.
  destruct rho_pow as [e [He ->]]. apply Zgcd_1_rel_prime. apply rel_prime_sym, Zpow_facts.rel_prime_Zpower_r; [exact He|]. apply rel_prime_sym.
  apply prime_rel_prime; [apply prime_2|]. intros D. apply Z.mod_divide in D; [|lia]. lia.
Qed.
Lemma cancel a b : (a * rho) mod P = (b * rho) mod P -> a mod P = b mod P.
Proof. pose proof P_pos. apply mod_cancel; [lia|apply rho_coprime]. Qed.
Lemma kk3 : 0 <= Z.of_nat k <= 3. Proof. lia. Qed.

Definition stable : Prop := k = O \/ P * (F + 1) <= F * RN.

(** T = product to be reduced, as tf G of twice the length; bound [Bd] of what comes out *)
Lemma k0_cases : k = O \/ exists k', k = S k'. Proof. destruct k; [left; reflexivity|right; eexists; reflexivity]. Qed.
Lemma rmod_x g x : tf g x -> length x = n -> 1 <= g <= SL -> exists r, ff_rmod c x p = Some r /\ length r = n /\ Forall cn r /\ FV r = FV x mod P.
Proof. intros H L G. destruct (rmod_ok c Hff g x p H G Hp ltac:(lia) (proj1 P_pos)) as [r [R1 [R2 [R3 R4]]]]. exists r. rewrite R2, Lp. auto. Qed.


(** the value part of a Montgomery reduction of v *)
Definition mred (v : Z) (r : ff) : Prop := length r = n /\ (FV r * rho) mod P = v mod P /\ FV r * rho <= v + P * rho /\ (k = O -> v = 0 -> FV r = 0).

Lemma fin1 d : k = O -> dbig_wf c d -> V d < SL * (R * R) ->
  exists p0 r, p = [p0] /\ (mc <- ff_mc c nd ;; r <- monty c p0 mc d ;; Some [r]) = Some r /\ tf 2 r /\ mred (V d) r.
Proof.
  intros E0 D2 Bd. pose proof P_pos as PP. pose proof rho_coprime as RC. pose proof rho_pos as RP.
  assert (E1' : n = 1%nat) by (rewrite E0; reflexivity). pose proof Lp as Lp'. pose proof Ln as Ln'.
  assert (Er : RN = R) by (rewrite E1'; apply Z.pow_1_r). assert (Eh : rho = bmax c) by (rewrite E1'; reflexivity). unfold mred. rewrite Eh in *. rewrite Er in *. rewrite E1' in *.
  destruct p as [|p0 [|]] eqn:Ep; try discriminate. destruct nd as [|d0 [|]] eqn:En; try discriminate. exists p0.
  rewrite !FV1 in *. apply Forall_cons_iff in Hp. destruct Hp as [Hp0 _]. apply Forall_cons_iff in Hnd. destruct Hnd as [Hd0 _].
  destruct (mc_ok p0 d0 Hp0 Hd0 Inv) as [mc [M1 M2]]. rewrite M1. cbn [bind].
  destruct (monty1 p0 d mc 1 Hp0 D2 M2) as [r [q [N1 [N2 [N3 N4]]]]]; [lia|lia|lia|].
  rewrite N1. cbn [bind]. exists [r]. rewrite FV1. split; [reflexivity|]. split; [reflexivity|].
  pose proof (canon_val B r ltac:(lia) (proj2 N2)) as Rr. pose proof bmaxE as BE. pose proof (Z.mul_pos_pos SL R ltac:(lia) PR) as PSR.
  assert (Qp : q * V p0 <= bmax c * V p0) by (apply Z.mul_le_mono_nonneg_r; lia).
  split.
  { apply big_tf. split; [apply N2|]. split; [apply (canon_nrm B); apply N2|]. split; [lia|].
    apply (Z.mul_lt_mono_pos_r (bmax c)); [lia|]. rewrite N4.
    assert (bmax c * V p0 < bmax c * R) by (apply Z.mul_lt_mono_pos_l; lia).
    replace (2 * R * bmax c) with (bmax c * R + bmax c * R) by ring.
    assert (SL * (R * R) = bmax c * R) by (rewrite BE; ring). lia. }
  split; [reflexivity|]. split; [rewrite N4; apply Z.mod_add; lia|]. split; [lia|].
  intros _ Z0. rewrite Z0, Z.add_0_l in N4. assert (D : (bmax c | q)).
  { apply (Gauss (bmax c) (V p0) q); [exists (V r); lia|]. apply Zgcd_1_rel_prime. exact RC. }
  assert (q = 0). { destruct D as [w ->]. destruct (Z.eq_dec w 0) as [->|Q]; [reflexivity|]. exfalso. destruct (Z.lt_ge_cases w 0).
    - pose proof (Z.mul_le_mono_nonneg_r w (-1) (bmax c) ltac:(lia) ltac:(lia)). lia.
    - pose proof (Z.mul_le_mono_nonneg_r 1 w (bmax c) ltac:(lia) ltac:(lia)). lia. }
  subst q. rewrite Z.mul_0_l in N4. apply Z.mul_eq_0 in N4. destruct N4; [assumption|lia].
Qed.
Lemma fin2 z G : k <> O -> length z = (2 ^ S k)%nat -> tf G z -> 1 <= G -> 2 * G <= 5 * SL ->
  exists p0 p1 p' r, p = p0 :: p1 :: p' /\ ff_reduce c z p nd = Some r /\ tf (G + 1) r /\ mred (FV z) r.
Proof.
  intros Hk0 Lz Hz G1 G5. destruct k0_cases as [E0|[k' Ek]]; [congruence|]. pose proof P_pos as PP.
  assert (Hn2 : (2 <= n)%nat) by (rewrite Ek, pow2S; pose proof (pow2pos k'); lia).
  assert (Eh : rho = RN) by (unfold frad; destruct (Nat.eqb_spec n 1); [lia|reflexivity]).
  destruct (reduce_ok c Hff k' z p nd G) as [r [m [R1 [R2 [R3 [R4 R5]]]]]]; try assumption; try (rewrite <- Ek; assumption).
  { pose proof (Z.mul_le_mono_nonneg (2 + Z.of_nat k') 4 (2 + Z.of_nat k') 4 ltac:(lia) ltac:(lia) ltac:(lia) ltac:(lia)). lia. }
  rewrite <- Ek in *. assert (Sh : exists p0 p1 p', p = p0 :: p1 :: p').
  { pose proof Lp as Lp'. destruct p as [|p0 [|p1 p']]; cbn [length] in Lp'; try lia. exists p0, p1, p'. reflexivity. }
  destruct Sh as [p0 [p1 [p' Ep]]]. exists p0, p1, p', r.
  split; [exact Ep|]. split; [exact R1|]. split; [exact R3|]. unfold mred. rewrite Eh, R5. split; [exact R2|]. split; [rewrite (Z.mul_comm P), Z.mod_add by lia; reflexivity|]. split.
  { assert (P * (RN - m) <= P * RN) by (apply Z.mul_le_mono_nonneg_l; lia). lia. }
  { intros E. congruence. }
Qed.
Lemma nb_prod gx gy u v : 0 <= u < gx * R -> 0 <= v < gy * R -> gx * gy <= SL -> 0 <= u * v < SL * (R * R).
Proof.
  intros Hu Hv G. assert (Q : 0 <= u * v < (gx * R) * (gy * R)) by (apply mul_lt; assumption). split; [apply Q|]. eapply Z.lt_le_trans; [apply Q|].
  replace (gx * R * (gy * R)) with (gx * gy * (R * R)) by ring. apply Z.mul_le_mono_nonneg_r; [apply Z.mul_nonneg_nonneg; lia|exact G].
Qed.
Lemma one_big x g : k = O -> length x = n -> tf g x -> exists x0, x = [x0] /\ nb g x0.
Proof. intros E0 L H. rewrite E0 in L. destruct x as [|x0 [|]]; try discriminate. exists x0. split; [reflexivity|apply big_tf; exact H]. Qed.

Lemma core_mul x y gx gy : length x = n -> length y = n -> tf gx x -> tf gy y -> 1 <= gx -> 1 <= gy -> gx * gy <= SL ->
   8 * (gy + 3) <= 5 * SL -> gx <= SL - 3 -> 2 * ((gx + 3) * (gy + 3)) <= 5 * SL ->
  exists r, match p with
  | [p0] =>
      d <- mul c (nth 0 x []) (nth 0 y []) ;;
      mc <- ff_mc c nd ;;
      r <- monty c p0 mc d ;; Some [r]
  | _ => d <- ff_mul c x y ;; ff_reduce c d p nd
  end = Some r /\ tf (gx * gy + 1) r /\ (k = O -> tf 2 r) /\ mred (FV x * FV y) r.
Proof.
  intros Lx Ly Hx Hy G1 G2 Gor Gy8 Gx3 G5.
  assert (Hmon : forall a a' b b', 0 <= a <= a' -> 0 <= b <= b' -> a * b <= a' * b') by (intros; apply Z.mul_le_mono_nonneg; lia).
  assert (Pg : 1 <= gx * gy) by (pose proof (Hmon 1 gx 1 gy ltac:(lia) ltac:(lia)); lia).
  destruct (Nat.eq_dec k 0) as [E0|Hk0].
  - destruct (one_big x gx E0 Lx Hx) as [x0 [-> Nx]]. destruct (one_big y gy E0 Ly Hy) as [y0 [-> Ny]]. rewrite !FV1. cbn [nth].
    destruct (mul_spec c Hok x0 y0 (nb_wf c Hff _ _ Nx ltac:(lia)) (nb_wf c Hff _ _ Ny ltac:(lia))) as [d [D1 [D2 D3]]].
    destruct (fin1 d E0 D2) as [p0 [r [Ep [R1 [R2 R3]]]]].
    { rewrite D3. apply (nb_prod gx gy); [apply Nx|apply Ny|exact Gor]. }
    rewrite Ep, D1. cbn [bind]. exists r. rewrite D3 in R3. split; [exact R1|]. split; [apply (tf_mono c Hff 2); [exact R2|lia]|]. split; [auto|exact R3].
  - pose proof kk3 as K3. destruct (karmul_ok c Hff k x y gx gy Lx Ly Hx Hy G1 G2 ltac:(lia) ltac:(lia)) as [z [Z1 [Z2 [Z3 Z4]]]].
    { pose proof (Hmon (gx + Z.of_nat k) (gx + 3) (gy + Z.of_nat k) (gy + 3) ltac:(lia) ltac:(lia)). lia. }
    pose proof (Hmon gx (gx + 3) gy (gy + 3) ltac:(lia) ltac:(lia)).
    destruct (fin2 z (gx * gy) Hk0 Z2 Z3 Pg ltac:(lia)) as [p0 [p1 [p' [r [Ep [R1 [R2 R3]]]]]]].
    rewrite Ep in *. exists r. rewrite <- Z4. unfold ff_mul. rewrite Lx, Nat.log2_pow2 by lia. rewrite Z1. cbn [bind]. split; [exact R1|]. split; [exact R2|]. split; [congruence|exact R3].
Qed.
Lemma core_sqr x g : length x = n -> tf g x -> 1 <= g -> (g + 1) * (g + 1) <= SL -> 
  exists r, match p with
  | [p0] =>
      d <- sqr c (nth 0 x []) ;;
      mc <- ff_mc c nd ;;
      r <- monty c p0 mc d ;; Some [r]
  | _ => d <- ff_sqr c x ;; d <- ff_norm c d ;; ff_reduce c d p nd
  end = Some r /\ tf (g * g + 1) r /\ mred (FV x * FV x) r.
Proof.
  intros Lx Hx G1 Gs.
  assert (Hmon : forall a a' b b', 0 <= a <= a' -> 0 <= b <= b' -> a * b <= a' * b') by (intros; apply Z.mul_le_mono_nonneg; lia).
  pose proof (Hmon 1 g 1 g ltac:(lia) ltac:(lia)) as Pg. pose proof (Hmon 1 g g g ltac:(lia) ltac:(lia)) as Pg2.
  destruct (Nat.eq_dec k 0) as [E0|Hk0].
  - destruct (one_big x g E0 Lx Hx) as [x0 [-> Nx]]. rewrite !FV1. cbn [nth].
    destruct (sqr_spec c Hok x0 (nb_wf c Hff _ _ Nx ltac:(lia))) as [d [D1 [D2 D3]]].
    destruct (fin1 d E0 D2) as [p0 [r [Ep [R1 [R2 R3]]]]].
    { rewrite D3. apply (nb_prod g g); [apply Nx|apply Nx|lia]. }
    rewrite Ep, D1. cbn [bind]. exists r. rewrite D3 in R3. split; [exact R1|]. split; [apply (tf_mono c Hff 2); [exact R2|lia]|exact R3].
  - pose proof kk3 as K3. destruct (karsqr_ok c Hff k x g Lx Hx G1 ltac:(lia) ltac:(lia)) as [a [b [Z1 [La [Lb [Ha [Hb Z4]]]]]]].
    { pose proof (Hmon (1 + Z.of_nat k) 4 (g + Z.of_nat k) (g + 3) ltac:(lia) ltac:(lia)).
      destruct (Z.le_gt_cases g 8) as [Q|Q]; [lia|]. pose proof (Hmon 8 g g g ltac:(lia) ltac:(lia)). lia. }
    assert (Lz : length (a ++ b) = (2 ^ S k)%nat) by (rewrite app_length, pow2S; lia).
    pose proof (tf_range c Hff g x Hx) as Rx. rewrite Lx in Rx.
    assert (Ev : FV (a ++ b) = FV x * FV x) by (rewrite (FV_app c Hff), La; exact Z4).
    destruct (rnorm_ok c Hff (a ++ b) (g * g)) as [z [W1 [W2 [W3 W4]]]].
    { apply len_ne. rewrite Lz. apply pow2pos. }
    { apply Forall_app; split; [eapply (flw_lim c); [apply cn_flw; exact Ha| |]; unfold FfBase.lim; lia|].
      eapply (flw_lim c); [eapply Forall_impl; [|exact Hb]; intros w Hw; apply (nb_lw1 c Hff _ _ Hw); lia| |]; unfold FfBase.lim; lia. }
    { rewrite Ev, Lz, pow2S. replace (2 * 2 ^ k)%nat with (2 ^ k + 2 ^ k)%nat by lia. rewrite (RpD c Hff).
      replace (g * g * (RN * RN)) with ((g * RN) * (g * RN)) by ring. apply mul_lt; lia. }
    destruct (fin2 z (g * g) Hk0 ltac:(lia) W3 Pg ltac:(lia)) as [p0 [p1 [p' [r [Ep [R1 [R2 R3]]]]]]].
    rewrite Ep in *. exists r. rewrite <- Ev, <- W4. unfold ff_sqr. rewrite Lx, Nat.log2_pow2 by lia. rewrite Z1. cbn [bind]. unfold ff_norm. rewrite W1. cbn [bind]. split; [exact R1|]. split; [exact R2|exact R3].
Qed.

Lemma modmul_ok x y gx gy : length x = n -> length y = n -> tf gx x -> tf gy y -> 1 <= gx -> 1 <= gy -> 8 * (gx + 3) <= 5 * SL -> 8 * (gy + 3) <= 5 * SL ->
  exists r, ff_modmul c x y p nd = Some r /\ length r = n /\ tf (Z.max F (gy + 1)) r /\ (stable -> gy <= F -> tf F r)
    /\ (FV r * rho) mod P = (FV x * FV y) mod P /\ (k = O -> FV x = 0 \/ FV y = 0 -> FV r = 0).
Proof.
  intros Lx Ly Hx Hy G1 G2 Gx Gy. pose proof F_eq as FE. pose proof P_pos as PP.
  destruct (tf_last gx x Hx G1) as [Nx Tx]. destruct (tf_last gy y Hy G2) as [Ny Ty].
  destruct (pexceed_ok gx gy _ _ Nx Ny ltac:(lia) ltac:(lia)) as [ea [eb [A1 [A2 [A3 [A4 A5]]]]]]. apply Tx in A3. apply Ty in A4.
  assert (Hmon : forall a a' b b', 0 <= a <= a' -> 0 <= b <= b' -> a * b <= a' * b') by (intros; apply Z.mul_le_mono_nonneg; lia).
  unfold ff_modmul. rewrite A5. cbn [bind]. destruct (Z.ltb_spec F ((ea + 1) * (eb + 1))) as [Q|Q].
  - destruct (rmod_x gx x Hx Lx ltac:(lia)) as [x1 [X1 [X2 [X3 X4]]]]. rewrite X1. cbn [bind].
    assert (T1 : tf 1 x1) by (apply (cn_tf c Hff); [apply len_ne; rewrite X2; apply pow2pos|exact X3]).
    destruct (core_mul x1 y 1 gy X2 Ly T1 Hy ltac:(lia) G2 ltac:(lia) Gy ltac:(lia) ltac:(lia)) as [r [R1 [R2 [R2' [R3 [R4 [R5 R6]]]]]]].
    exists r. split; [exact R1|]. split; [exact R3|]. split; [apply (tf_mono c Hff _ _ _ R2); lia|]. split.
    + intros [E0|St] Gf; [apply (tf_mono c Hff 2); [apply R2'; exact E0|lia]|].
      apply (tf_val c Hff _ F r R2). rewrite R3. pose proof rho_pos as RP.
      destruct (Nat.eq_dec k 0) as [E0|Hk0].
      { specialize (R2' E0). pose proof (tf_range c Hff 2 r R2') as Rr. rewrite R3 in Rr. pose proof RN_pos. pose proof (Z.mul_le_mono_nonneg_r 2 F RN ltac:(lia) ltac:(lia)). lia. }
      assert (Eh : rho = RN). { unfold frad. destruct (Nat.eqb_spec n 1) as [E|]; [|reflexivity]. exfalso. apply Hk0. destruct k; [reflexivity|]. rewrite pow2S in E. pose proof (pow2pos n). lia. }
      rewrite Eh in *. pose proof (Z.mod_pos_bound (FV x) P ltac:(lia)) as Mx. rewrite <- X4 in Mx. pose proof (tf_range c Hff gy y Hy) as Ry. rewrite Ly in Ry.
      assert (FV x1 * FV y <= P * (gy * RN)) by (apply Hmon; lia).
      apply (Z.mul_lt_mono_pos_r RN); [lia|]. 
      assert (FV x1 * FV y < P * (gy * RN)).
      { destruct (Z.eq_dec (FV x1) 0) as [->|]; [rewrite Z.mul_0_l; apply Z.mul_pos_pos; [lia|apply Z.mul_pos_pos; lia]|]. apply Z.mul_lt_mono_nonneg; lia. }
      assert (P * (gy + 1) <= P * (F + 1)) by (apply Z.mul_le_mono_nonneg_l; lia).
      assert (P * (gy + 1) * RN <= F * RN * RN) by (apply Z.mul_le_mono_nonneg_r; lia).
      replace (P * (gy + 1) * RN) with (P * (gy * RN) + P * RN) in * by ring. lia.
    + split; [rewrite R4, X4, Zmult_mod_idemp_l; reflexivity|]. intros E0 Hz. apply R6; [exact E0|]. rewrite X4. destruct Hz as [->| ->]; [rewrite Z.mod_0_l by lia; reflexivity|apply Z.mul_0_r].
  - cbn [bind]. replace ((ea + 1) * (eb + 1)) with (ea * eb + ea + eb + 1) in Q by ring.
    destruct (core_mul x y ea eb Lx Ly A3 A4 ltac:(lia) ltac:(lia) ltac:(lia) ltac:(lia) ltac:(lia)) as [r [R1 [R2 [R2' [R3 [R4 [R5 R6]]]]]]].
    { replace ((ea + 3) * (eb + 3)) with (ea * eb + 3 * ea + 3 * eb + 9) by ring. lia. }
    exists r. split; [exact R1|]. split; [exact R3|]. assert (tf F r) by (apply (tf_mono c Hff _ _ _ R2); lia).
    split; [apply (tf_mono c Hff F); [assumption|lia]|]. split; [auto|]. split; [exact R4|].
    intros E0 [Z0|Z0]; apply R6; auto; rewrite Z0; [reflexivity|apply Z.mul_0_r].
Qed.
Lemma modsqr_ok x g : length x = n -> tf g x -> 1 <= g -> 8 * (g + 3) <= 5 * SL ->
  exists r, ff_modsqr c x p nd = Some r /\ length r = n /\ tf F r
    /\ (FV r * rho) mod P = (FV x * FV x) mod P /\ (k = O -> FV x = 0 -> FV r = 0).
Proof.
  intros Lx Hx G1 Gx. pose proof F_eq as FE. pose proof P_pos as PP. destruct (tf_last g x Hx G1) as [Nx Tx].
  destruct (pexceed_ok g g _ _ Nx Nx ltac:(lia) ltac:(lia)) as [ea [eb [A1 [A2 [A3 [A4 A5]]]]]].
  assert (Eab : ea = eb \/ True) by auto. 
  unfold ff_modsqr, sexceed. 
  destruct (excess_ok g _ Nx ltac:(lia)) as [B1 [B2 B3]]. set (e := V (last x []) / R + 1) in *.
  assert (A6 : pexceed c (last x []) (last x []) = Some (F <? (e + 1) * (e + 1))).
  { unfold pexceed in *. rewrite B3 in *. cbn [bind] in *. destruct (chk C (e + 1)) as [e1|] eqn:Ee; [|discriminate A5]. cbn [bind] in *.
    assert (e1 = e + 1). { unfold chk in Ee. destruct (in_s C (e + 1)); congruence. } subst e1.
    destruct (chk (2 * C) ((e + 1) * (e + 1))) as [pp|] eqn:Epp; [|discriminate A5]. cbn [bind]. unfold chk in Epp. destruct (in_s (2 * C) _); congruence. }
  rewrite A6. cbn [bind]. clear A5 Eab A1 A2 A3 A4 ea eb. destruct (Z.ltb_spec F ((e + 1) * (e + 1))) as [Q|Q].
  - destruct (rmod_x g x Hx Lx ltac:(lia)) as [x1 [X1 [X2 [X3 X4]]]]. rewrite X1. cbn [bind].
    assert (T1 : tf 1 x1) by (apply (cn_tf c Hff); [apply len_ne; rewrite X2; apply pow2pos|exact X3]).
    destruct (core_sqr x1 1 X2 T1 ltac:(lia) ltac:(lia)) as [r [R1 [R2 [R3 [R4 [R5 R6]]]]]].
    exists r. split; [exact R1|]. split; [exact R3|]. split; [apply (tf_mono c Hff _ _ _ R2); lia|].
    split; [rewrite R4, X4, <- Zmult_mod; reflexivity|]. intros E0 Hz. apply R6; [exact E0|]. rewrite X4, Hz, Z.mod_0_l by lia. reflexivity.
  - cbn [bind]. apply Tx in B2. destruct (core_sqr x e Lx B2 ltac:(lia) ltac:(lia)) as [r [R1 [R2 [R3 [R4 [R5 R6]]]]]].
    exists r. split; [exact R1|]. split; [exact R3|]. split; [apply (tf_mono c Hff _ _ _ R2); lia|]. split; [exact R4|]. intros E0 Hz. apply R6; [exact E0|]. rewrite Hz. reflexivity.
Qed.

(** ** into and out of Montgomery form *)
Lemma nres_ok s : length s = n -> Forall cn s -> exists r, ff_nres c s p = Some r /\ length r = n /\ Forall cn r /\ FV r = (FV s * rho) mod P.
Proof.
  intros Ls Hs. pose proof P_pos as PP. destruct (Nat.eq_dec k 0) as [E0|Hk0].
  - destruct (one_big p 1 E0 Lp (cn_tf c Hff p ltac:(apply len_ne; rewrite Lp; apply pow2pos) Hp)) as [p0 [Ep Np]].
    destruct (one_big s 1 E0 Ls (cn_tf c Hff s ltac:(apply len_ne; rewrite Ls; apply pow2pos) Hs)) as [s0 [-> Ns]].
    apply (cn_nb c Hff) in Np. apply (cn_nb c Hff) in Ns. unfold ff_nres. rewrite Ep in *. cbn [nth]. rewrite FV1 in *.
    assert (Eh : rho = bmax c) by (rewrite E0; reflexivity). rewrite E0 in *. cbn [Nat.pow] in *. rewrite Eh.
    destruct (scopy_spec c Hok s0 (proj1 Ns)) as [W1 W2]. unfold dshl. rewrite (proj1 W1). unfold DNLEN.
    rewrite (Z.div_mul (Z.of_nat N) B), Nat2Z.id by lia. destruct (Nat.leb_spec (N + 2) (2 * N)); [|lia].
    pose proof (canon_val B s0 ltac:(lia) (proj2 (proj1 Ns))) as Ps. pose proof bmaxE as BE. pose proof (Z.mul_pos_pos SL R ltac:(lia) PR) as PSR.
    assert (Ls' : V s0 < bmax c) by (rewrite BE; destruct Ns as [_ Q]; pose proof (Z.mul_le_mono_nonneg_r 1 SL R ltac:(lia) ltac:(lia)); lia).
    destruct (shl_spec c ltac:(lia) HC (scopy c s0) (Z.of_nat N * B)) as [d [D1 [D2 [D3 D4]]]].
    { apply Z.mul_nonneg_nonneg; lia. }
    { apply W1. }
    { rewrite (proj1 W1). unfold DNLEN. lia. }
    { rewrite (proj1 W1). unfold DNLEN. rewrite Nat2Z.inj_mul, (Z.mul_comm B). apply Z.mul_lt_mono_pos_r; lia. }
    { rewrite (proj1 W1), W2. unfold DNLEN. replace (B * Z.of_nat (2 * N)) with (B * Z.of_nat N + B * Z.of_nat N) by lia. rewrite Z.pow_add_r by (apply Z.mul_nonneg_nonneg; lia).
      rewrite (Z.mul_comm (Z.of_nat N)), !bmax_pow. apply Z.mul_lt_mono_pos_r; lia. }
    rewrite D1. cbn [bind]. rewrite W2, (Z.mul_comm (Z.of_nat N)), bmax_pow in D2.
    destruct (dmod_spec c Hok d p0) as [r [R1 [R2 R3]]]; [split; [rewrite D4; apply W1|exact D3]|apply Np|lia|]. rewrite R1. cbn [bind].
    exists [r]. rewrite !FV1, R3, D2. split; [reflexivity|]. split; [reflexivity|]. split; [|reflexivity].
    constructor; [|constructor]. split; [exact R2|]. rewrite R3. pose proof (Z.mod_pos_bound (V d) (V p0) ltac:(lia)). destruct Np. lia.
  - assert (Hn2 : (2 <= n)%nat). { destruct k; [congruence|]. rewrite pow2S. pose proof (pow2pos n). lia. }
    assert (Eh : rho = RN) by (unfold frad; destruct (Nat.eqb_spec n 1); [lia|reflexivity]).
    destruct (nres2_ok c Hff s p) as [r [R1 [R2 [R3 R4]]]]; try lia; auto.
    exists r. rewrite Eh. rewrite Lp in R2, R4. auto.
Qed.
Lemma redc_ok s g : length s = n -> tf g s -> 1 <= g <= SL -> exists r, ff_redc c s p nd = Some r /\ length r = n /\ Forall cn r /\ 0 <= FV r <= P
  /\ (FV r * rho) mod P = FV s mod P /\ (k <> O -> FV r < P) /\ (k = O -> FV s = 0 -> FV r = 0).
Proof.
  intros Ls Hs G. pose proof P_pos as PP. destruct (Nat.eq_dec k 0) as [E0|Hk0].
  - destruct (one_big s g E0 Ls Hs) as [s0 [-> Ns]]. destruct (scopy_spec c Hok s0 (nb_wf c Hff g s0 Ns ltac:(lia))) as [W1 W2].
    assert (Ps : 0 <= V s0 < SL * R). { destruct Ns as [_ [_ Q]]. pose proof (Z.mul_le_mono_nonneg_r g SL R ltac:(lia) ltac:(lia)). lia. }
    destruct (fin1 (scopy c s0) E0 W1) as [p0 [r [Ep [R1 [R2 [R3 [R4 [R5 R6]]]]]]]].
    { rewrite W2. pose proof (Z.mul_le_mono_nonneg_l 1 R (SL * R) ltac:(lia) ltac:(lia)). lia. }
    exists r. unfold ff_redc. rewrite Ep in *. cbn [nth]. rewrite W2, <- FV1 in *. rewrite FV1 in Ps. split; [exact R1|]. split; [exact R3|].
    assert (Eh : rho = SL * R) by (rewrite E0; cbn [Nat.pow]; unfold frad; cbn [Nat.eqb]; apply bmaxE). rewrite Eh in R5.
    pose proof (tf_range c Hff 2 r R2) as Rr. rewrite !FV1 in *.
    assert (Le : FV r <= V p0).
    { destruct (Z.le_gt_cases (FV r) (V p0)) as [Q|Q]; [exact Q|]. pose proof (Z.mul_le_mono_nonneg_r (V p0 + 1) (FV r) (SL * R) ltac:(lia) ltac:(lia)). lia. }
    split. { apply (tf_cns c Hff). apply (tf_val c Hff 2 1 r R2). rewrite R3. lia. }
    split; [lia|]. split; [exact R4|]. split; [congruence|]. intros E. apply (R6 E).
  - destruct k0_cases as [E0|[k' Ek]]; [congruence|].
    assert (Hn2 : (2 <= n)%nat) by (rewrite Ek, pow2S; pose proof (pow2pos k'); lia).
    assert (Eh : rho = RN) by (unfold frad; destruct (Nat.eqb_spec n 1); [lia|reflexivity]).
    destruct (redc2_ok c Hff k' s p nd g) as [r [R1 [R2 [R3 [R4 R5]]]]]; try lia; auto.
    { rewrite Lp, Ek. reflexivity. }
    { pose proof (Z.mul_le_mono_nonneg (2 + Z.of_nat k') 4 (2 + Z.of_nat k') 4 ltac:(lia) ltac:(lia) ltac:(lia) ltac:(lia)). lia. }
    { rewrite Lp. exact Inv. }
    rewrite Lp in R2, R5. exists r. rewrite Eh. split; [exact R1|]. split; [exact R2|]. split; [exact R3|].
    pose proof (cn_range c Hff r R3). split; [lia|]. split; [exact R5|]. split; [auto|congruence].
Qed.
End F.
