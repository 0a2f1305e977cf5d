(** FP2::sqrt (fp2.rs:275-310): which elements get a root, and that the root is one. *)
From Verif Require Import Base.Word Model.Big Model.Roms Model.Fp Model.Fp2 Model.Ecp Spec.Bytes Spec.BigSpec Spec.RomSpec Spec.FpSpec Spec.JacobiSpec Spec.TowerSpec Spec.SswuSpec Spec.Sswu2Spec
  Proof.NumTheory Proof.BigVal Proof.BigShift Proof.BigMod Proof.BigMul Proof.BigMonty Proof.BigMontyW Proof.Reciprocity Proof.BigJacobi Proof.FpBase Proof.FpRed Proof.FpOps Proof.FpPow Proof.FpExp Proof.FpSqrt Proof.FpIv Proof.FpWide Proof.EcpCodec
  Proof.Fp2Ops Proof.TowerInv Proof.SswuMath Proof.SswuFp.
From Coq Require Import Lia Znumtheory.

Section M.
Variable p : Z.
Hypothesis Hp : prime p.
Hypothesis H34 : p mod 4 = 3.
Let P3 : 3 <= p. Proof. pose proof (prime_ge_2 p Hp). destruct (Z.eq_dec p 2) as [->|]; [discriminate H34|lia]. Qed.
Notation h := ((p - 1) / 2).
Notation hf := ((p + 1) / 2).
Notation is_sq := (Sswu2Spec.is_sq p).
Lemma cdiv a b : a mod p = b mod p <-> (p | a - b).
Proof.
  split; intros H.
  - apply Z.mod_divide; [lia|]. rewrite Zminus_mod, H, Z.sub_diag. apply Z.mod_0_l. lia.
  - destruct H as [k H]. replace a with (b + k * p) by lia. apply Z.mod_add. lia.
Qed.
Lemma hf2 : 2 * hf = p + 1.
Proof. pose proof (Z.div_mod p 4 ltac:(lia)) as D. rewrite H34 in D. rewrite D. replace (4 * (p / 4) + 3 + 1) with ((2 * (p / 4) + 2) * 2) by ring. rewrite Z.div_mul by lia. ring. Qed.
Lemma h_odd : Z.odd h = true.
Proof. pose proof (Z.div_mod p 4 ltac:(lia)) as D. rewrite H34 in D. rewrite D. replace (4 * (p / 4) + 3 - 1) with ((2 * (p / 4) + 1) * 2) by ring. rewrite Z.div_mul by lia. rewrite Z.odd_add, Z.odd_mul. reflexivity. Qed.
Lemma nsq_pow a : a mod p <> 0 -> ~ is_sq a -> (a ^ h) mod p = (-1) mod p.
Proof.
  intros Ha Hn. destruct (sq_cases p Hp H34 a) as [[E _]|[_ [_ E]]]; [|exact E]. exfalso. apply Hn. exists (sqrt_3mod4 p a). apply (root_sq p Hp H34). exact E.
Qed.
Lemma sq_pow a : a mod p <> 0 -> is_sq a -> (a ^ h) mod p = 1.
Proof. intros Ha [s Hs]. apply (euler_res p s a Hp); [lia|exact Hs|exact Ha]. Qed.
Lemma one_ne : (-1) mod p <> 1.
Proof. rewrite (pm1 p Hp H34). lia. Qed.
(** minus a non-zero square is not a square *)
Lemma neg_sq b : b mod p <> 0 -> ((- (b * b)) ^ h) mod p = (-1) mod p.
Proof.
  intros Hb. pose proof (h0 p Hp H34) as H0. pose proof (h2 p H34) as H2. rewrite Z.pow_opp_odd by (apply Z.odd_spec; exact h_odd). rewrite Z.pow_mul_l, <- Z.pow_add_r, <- H2 by lia.
  pose proof (fermat p b Hp Hb) as F. replace (- b ^ (p - 1)) with (0 - b ^ (p - 1)) by ring. rewrite Zminus_mod, F, Z.mod_0_l by lia. reflexivity.
Qed.
Lemma two_nonsq a b c : a mod p <> 0 -> b mod p <> 0 -> ~ is_sq a -> ~ is_sq b -> c mod p <> 0 -> (a * b) mod p = (- (c * c)) mod p -> False.
Proof.
  intros Ha Hb Na Nb Hc E. pose proof (h0 p Hp H34) as H0. pose proof (neg_sq c Hc) as Q. rewrite <- (pow_cg p Hp H34 (a * b) _ h H0 E), Z.pow_mul_l, Z.mul_mod, nsq_pow, nsq_pow, <- Z.mul_mod in Q by (assumption || lia).
  change (-1 * -1) with 1 in Q. rewrite Z.mod_1_l in Q by lia. symmetry in Q. exact (one_ne Q).
Qed.
(** the number the code halves: (a+s)/2 and (a-s)/2 *)
Lemma halves_mul a b s : (s * s) mod p = (a * a + b * b) mod p -> ((a + s) * hf * ((a - s) * hf)) mod p = (- ((b * hf) * (b * hf))) mod p.
Proof.
  intros E. apply cdiv in E. apply cdiv. replace ((a + s) * hf * ((a - s) * hf) - - (b * hf * (b * hf))) with ((s * s - (a * a + b * b)) * - (hf * hf)) by ring. apply Z.divide_mul_l. exact E.
Qed.
Lemma halves_add a s : ((a + s) * hf + (a - s) * hf) mod p = a mod p.
Proof. apply cdiv. exists a. replace ((a + s) * hf + (a - s) * hf) with (a * (2 * hf)) by ring. rewrite hf2. ring. Qed.
Lemma hf_nz b : b mod p <> 0 -> (b * hf) mod p <> 0.
Proof.
  intros Hb E. apply (prime_mul_zero p _ _ Hp) in E. destruct E as [E|E]; [exact (Hb E)|]. pose proof hf2 as H2. apply Z.mod_divide in E; [|lia]. destruct E as [k E].
  assert (D : (p | 1)). { exists (2 * k - 1). lia. } apply Z.divide_1_r_nonneg in D; lia.
Qed.
(** the root *)
Lemma root2 a b W W' t i : (t * t) mod p = W mod p -> (W + W') mod p = a mod p -> (W * W') mod p = (- ((b * hf) * (b * hf))) mod p -> (2 * t * i) mod p = 1 ->
  eq2 p (mul2 (t, b * i) (t, b * i)) (a, b).
Proof.
  intros E1 E2 E3 E4. replace 1 with (1 mod p) in E4 by (apply Z.mod_1_l; lia). apply cdiv in E1, E2, E3, E4. assert (E5 : (p | 2 * hf - 1)) by (exists 1; pose proof hf2; lia).
  unfold eq2, mul2. cbn [fst snd]. split; apply cdiv.
  - replace (t * t - b * i * (b * i) - a) with ((t * t - W) * (1 - 4 * i * i * W') + (W + W' - a) * 1 + (W * W' - - (b * hf * (b * hf))) * (- (4 * i * i)) + (2 * t * i - 1) * ((2 * t * i + 1) * W') + (2 * hf - 1) * (i * i * b * b * (2 * hf + 1))) by ring.
    repeat apply Z.divide_add_r; apply Z.divide_mul_l; assumption.
  - replace (t * (b * i) + b * i * t - b) with ((2 * t * i - 1) * b) by ring. apply Z.divide_mul_l. exact E4.
Qed.
(** squares have square norms, and a non-zero real element is always a square *)
Lemma norm_sq v : (exists w, eq2 p (mul2 w w) v) -> is_sq (norm2 v).
Proof.
  intros [[x y] [E1 E2]]. cbn [fst snd mul2] in *. destruct v as [a b]. cbn [fst snd] in *. exists (x * x + y * y). unfold norm2. cbn [fst snd]. apply cdiv in E1, E2. apply cdiv.
  replace ((x * x + y * y) * (x * x + y * y) - (a * a + b * b)) with ((x * x - y * y - a) * (x * x - y * y + a) + (x * y + y * x - b) * (x * y + y * x + b)) by ring.
  apply Z.divide_add_r; apply Z.divide_mul_l; assumption.
Qed.
Lemma real_sq a : exists w, eq2 p (mul2 w w) (a, 0).
Proof.
  destruct (Z.eq_dec (a mod p) 0) as [Ea|Ea]. { exists (0, 0). unfold eq2, mul2. cbn [fst snd]. rewrite Ea. rewrite Z.mod_0_l by lia. split; reflexivity. }
  destruct (sq_cases p Hp H34 a) as [[E _]|[_ [_ E]]].
  - exists (sqrt_3mod4 p a, 0). unfold eq2, mul2. cbn [fst snd]. split; [rewrite Z.sub_0_r; apply (root_sq p Hp H34); exact E|f_equal; ring].
  - exists (0, sqrt_3mod4 p (- a)). unfold eq2, mul2. cbn [fst snd]. split; [|f_equal; ring]. change (0 * 0) with 0.
    assert (Q : is_square_b p (- a) = true).
    { unfold is_square_b. cbv zeta. rewrite Z.pow_opp_odd by (apply Z.odd_spec; exact h_odd). replace (- a ^ h) with (0 - a ^ h) by ring. rewrite Zminus_mod, E, <- Zminus_mod. change (0 - -1) with 1. rewrite Z.mod_1_l by lia. reflexivity. }
    apply (root_sq p Hp H34) in Q. apply cdiv in Q. apply cdiv. replace (0 - sqrt_3mod4 p (- a) * sqrt_3mod4 p (- a) - a) with (- (sqrt_3mod4 p (- a) * sqrt_3mod4 p (- a) - - a)) by ring. apply Z.divide_opp_r. exact Q.
Qed.
End M.

Section W.
Variable r : rom.
Hypothesis Hf : fp_ok r.
Hypothesis Hs : special r = false.
Notation c := (r_cfg r).
Notation X := (2 ^ BASEBITS (r_cfg r)).
Notation V := (val (BASEBITS (r_cfg r))).
Notation p := (pmod r).
Hypothesis Hp : prime p.
Hypothesis H34 : p mod 4 = 3.
Hypothesis H8 : r_MOD8 r <> 5.
Let HM : MX r = FEXCESS r. Proof. unfold MX. unfold special in Hs. destruct (r_MODTYPE r); try reflexivity; discriminate. Qed.
Let Hp0 : 0 < p := p_pos r Hf.
Let Hmg : 4 <= maxg r := maxg_ge r Hf.
Let FF := fp_ok_facts r Hf.
Let Hok := ff_ok r FF.
Let Hfp : fpow_ok r. Proof. intros E. congruence. Qed.

Lemma scopyw x : length x = NLEN c -> Forall (fun z => 0 <= z <= 2 * (X - 1)) x ->
  (length (scopy c x) = DNLEN c /\ Forall (fun z => 0 <= z <= 2 * (X - 1)) (scopy c x)) /\ V (scopy c x) = V x.
Proof.
  intros Hl Hc. pose proof (cfg_ok_facts _ Hok) as CF. pose proof (cf_B _ CF) as HB. pose proof (cf_N _ CF) as HN. unfold scopy.
  assert (HX : 2 <= X) by (replace X with (2 * 2 ^ (BASEBITS c - 1)) by (rewrite <- Z.pow_succ_r by lia; f_equal; lia); pose proof (pow2_pos (BASEBITS c - 1) ltac:(lia)); lia).
  assert (Hg : 0 <= get x (NLEN c - 1) <= 2 * (X - 1)) by (rewrite Forall_forall in Hc; apply Hc; unfold get; apply nth_In; lia).
  rewrite bmask_land by lia. rewrite Z.shiftr_div_pow2 by lia.
  assert (Ex : x = firstn (NLEN c - 1) x ++ [get x (NLEN c - 1)]).
  { rewrite <- (firstn_skipn (NLEN c - 1) x) at 1. f_equal. rewrite get_nth by lia. f_equal. apply skipn_all2. lia. }
  set (y := get x (NLEN c - 1)) in *. pose proof (Z.mod_pos_bound y X ltac:(lia)) as Hm. pose proof (Z.div_mod y X ltac:(lia)) as Dm.
  assert (Hd : 0 <= y / X <= 2). { split; [apply Z.div_pos; lia|]. apply Z.lt_succ_r. apply Z.div_lt_upper_bound; lia. }
  split; [split|].
  - rewrite app_length. cbn [length]. rewrite repeat_length, firstn_length_le by lia. unfold DNLEN. lia.
  - apply Forall_app. split; [rewrite Ex in Hc; apply Forall_app in Hc; tauto|]. constructor; [lia|]. constructor; [lia|]. apply Forall_forall. intros z Hz. apply repeat_spec in Hz. lia.
  - rewrite Ex at 2. rewrite !val_app by lia. f_equal. f_equal. cbn [val]. rewrite val_repeat0 by lia. lia.
Qed.
(** redc of an element whose limbs are a sum of two: the column sums of the Montgomery step still fit *)
Lemma redcw e f u : frep r 0 2 e f u -> exists x, fp_redc r f = Some x /\ big_wf c x /\ V x mod p = u mod p.
Proof.
  intros [[L W] [[He1 He2] [HV Hd]]]. unfold fp_redc. rewrite Hs. unfold den, fK in Hd. rewrite Hs in Hd. unfold bval in *.
  unfold fp_modulo. pose proof (ff_red r FF) as Hr. unfold rom_red in Hr. pose proof Hs as Es. unfold special in Es. destruct (r_MODTYPE r) eqn:Et; try discriminate; [|contradiction].
  destruct Hr as [_ [Hmc _]]. pose proof (SHp_lt r Hf) as HS. pose proof (SH_pos r Hf) as HS1.
  assert (HVR : V (fx f) < 2 ^ r_SH r * p). { unfold FEXCESS in *. assert (fxes f * p <= 2 ^ r_SH r * p) by (apply Z.mul_le_mono_nonneg_r; lia). lia. }
  assert (H2 : 2 * p < bmax c). { assert (2 * p <= 2 ^ r_SH r * p) by (apply Z.mul_le_mono_nonneg_r; lia). lia. }
  pose proof (cfg_ok_facts _ Hok) as CF. pose proof (cf_B _ CF) as HB.
  destruct (scopyw (fx f) L ltac:(eapply Forall_impl; [|exact W]; intros z Hz; cbv beta in Hz; lia)) as [W2 V2].
  destruct (montyw_spec c Hok (r_MODULUS r) (scopy c (fx f)) (r_MCONST r) (ff_wf r FF) W2 Hmc) as [x [q [R1 [R2 [R3 R4]]]]].
  { change (val (BASEBITS c) (r_MODULUS r)) with p. rewrite V2. assert (2 * p * bmax c <= bmax c * bmax c) by (apply Z.mul_le_mono_nonneg_r; lia).
    pose proof (prime_ge_2 p Hp). assert (p * bmax c >= 2 * bmax c) by (apply Z.le_ge; apply Z.mul_le_mono_nonneg_r; lia). unfold bmax in *. lia. }
  exists x. change (val (BASEBITS c) (r_MODULUS r)) with p in R4. rewrite V2 in R4. change (2 ^ (BASEBITS c * Z.of_nat (NLEN c))) with (bmax c) in R3, R4.
  split; [exact R1|]. split; [exact R2|]. apply (mod_cancel _ _ (bmax c)); [lia| |]. - pose proof (gcd_K r Hf) as G. unfold fK, special in G. rewrite Et in G. exact G. - rewrite R4, Z.mod_add by lia. exact Hd.
Qed.
Lemma jacw e f u : frep r 0 2 e f u -> exists s, fp_jacobi r f = Some s /\ is_legendre p u s.
Proof.
  intros H. destruct (redcw e f u H) as [x [E1 [W E2]]]. unfold fp_jacobi. rewrite E1. cbn [bind].
  pose proof (p_odd r Hf Hp) as Ho. pose proof (prime_ge_2 p Hp) as P2. exists (Reciprocity.jac (V x) p). split; [apply (jacobi_spec c Hok x (r_MODULUS r) W (ff_wf r FF)); [change (1 < p); lia|exact Ho]|].
  pose proof (jac_is_legendre p (V x) Hp Ho) as J. unfold is_legendre in *. rewrite E2 in J. exact J.
Qed.

(** the square root comes out of a final reduction, so its excess is one *)
Lemma reduce_xes f f' : fp_reduce r f = Some f' -> fxes f' = 1.
Proof.
  unfold fp_reduce. destruct (norm c (fx f)) as [x|]; cbn [bind]; [|discriminate].
  match goal with |- bind ?a ?k = _ -> _ => destruct a as [xs|]; cbn [bind]; [|discriminate] end.
  intros H. repeat (match type of H with bind ?a ?k = _ => destruct a; cbn [bind] in H; [|discriminate H] | (let _ := _ in _) = _ => cbv zeta in H | (let '(_, _) := ?a in _) = _ => destruct a end). injection H as <-. reflexivity.
Qed.
Lemma sqrt_xes f f' : fp_sqrt r f = Some f' -> fxes f' = 1.
Proof.
  unfold fp_sqrt. destruct (fp_reduce r f) as [f1|]; cbn [bind]; [|discriminate]. destruct (Z.eqb_spec (r_MOD8 r) 5); [contradiction|]. rewrite Hs.
  intros H. repeat (match type of H with bind ?a ?k = _ => destruct a; cbn [bind] in H; [|discriminate H] end). unfold fp_pow in H.
  repeat (match type of H with bind ?a ?k = _ => destruct a; cbn [bind] in H; [|discriminate H] | (let _ := _ in _) = _ => cbv zeta in H end).
  cbv zeta in H. repeat (match type of H with bind ?a ?k = _ => destruct a; cbn [bind] in H; [|discriminate H] end).
  match type of H with match ?l with _ => _ end = _ => destruct l; [discriminate H|] end.
  repeat (match type of H with bind ?a ?k = _ => destruct a; cbn [bind] in H; [|discriminate H] end). exact (reduce_xes _ _ H).
Qed.
Lemma isqrt1 lo hi e f u : 0 <= lo -> 1 <= hi -> hi <= maxg r -> lo + 1 <= maxg r -> frep r lo hi e f u -> exists f', fp_sqrt r f = Some f' /\ frep r 0 1 1 f' (u ^ ((p + 1) / 4)).
Proof.
  intros H1 H2 H3 H4 H. destruct (isqrt r Hf Hs H8 lo hi e f u H1 H2 H3 H4 H) as [f' [E [A [B0 D]]]]. exists f'. split; [exact E|]. split; [exact A|]. split; [|exact D]. rewrite (sqrt_xes _ _ E) in *. lia.
Qed.

Variable hh : Z.
Hypothesis Hh : 1 <= hh <= 2.
Hypothesis Hw : wide_ok c hh hh.
Hypothesis Hw1 : wide_ok c hh 1.
Notation FE := (FEXCESS r).
Lemma frepFE lo hi e f u : frep r lo hi e f u -> frep r lo hi FE f u.
Proof. intros [A [B0 D]]. split; [exact A|]. split; [lia|exact D]. Qed.

(** the last three steps *)
Lemma finish e x v w2 W W' : rep2 r 0 hh e x v -> frep r 0 1 FE w2 W -> W mod p <> 0 -> is_sq p W -> (W + W') mod p = fst v mod p ->
  (W * W') mod p = (- ((snd v * ((p + 1) / 2)) * (snd v * ((p + 1) / 2)))) mod p ->
  exists z w, (w1 <- fp_sqrt r w2 ;; w3 <- fp_dbl r w1 ;; w3 <- fp_inverse r w3 ;; b <- fp_mul r (f2b x) w3 ;; Some (true, mkfp2 w1 b)) = Some (true, z)
    /\ rep2 r 0 1 2 z w /\ eq2 p (mul2 w w) v /\ ~ real_nonres p v.
Proof.
  intros [A1 A2] HW Wnz Wsq E2 E3. destruct (isqrt1 0 1 FE w2 W ltac:(lia) ltac:(lia) ltac:(lia) ltac:(lia) HW) as [t [T1 T2]]. rewrite T1. cbn [bind].
  pose proof (root_3 r Hf W Hp H8 Wsq) as E1. cbv zeta in E1. set (tv := W ^ ((p + 1) / 4)) in *.
  destruct (idbl r Hf 0 1 1 t tv ltac:(lia) ltac:(lia) ltac:(lia) ltac:(lia) T2) as [d [D1 D2]]. rewrite D1. cbn [bind].
  destruct (iinv r Hf (2 * 0) (2 * 1) (2 * 1) d _ Hs ltac:(lia) ltac:(lia) ltac:(lia) ltac:(lia) D2) as [i [I1 I2]]. rewrite I1. cbn [bind].
  assert (Nz : (2 * tv) mod p <> 0).
  { intros E. apply (prime_mul_zero p _ _ Hp) in E. destruct E as [E|E].
    - pose proof (prime_ge_2 p Hp). destruct (Z.eq_dec p 2) as [Q|Q]; [rewrite Q in H34; discriminate|]. rewrite Z.mod_small in E by lia. discriminate.
    - apply Wnz. rewrite <- E1, Z.mul_mod, E by lia. apply Z.mod_0_l. lia. }
  destruct (imulw r Hf hh 1 0 hh e 0 1 1 (f2b x) i (snd v) _ HM Hw1 ltac:(lia) ltac:(lia) ltac:(lia) ltac:(lia) ltac:(lia) ltac:(lia) A2 I2) as [b [B1 B2]]. rewrite B1. cbn [bind].
  exists (mkfp2 t b), (tv, snd v * (2 * tv) ^ (p - 2)). split; [reflexivity|]. split; [split; cbn [f2a f2b fst snd]; [apply (frep_mono r Hf 0 1 1); [lia|lia|lia|exact T2]|exact B2]|].
  destruct v as [va vb]. cbn [fst snd] in *. split; [apply (root2 p Hp H34 va vb W W' tv ((2 * tv) ^ (p - 2)) E1 E2 E3); apply fermat_inv; assumption|].
  intros [R1 R2]. cbn [fst snd] in R1, R2. apply R2. assert (Z0 : (W * W') mod p = 0).
  { rewrite E3. apply Z.mod_divide; [lia|]. apply Z.divide_opp_r. apply Z.mod_divide in R1; [|lia]. apply Z.divide_mul_l. apply Z.divide_mul_l. exact R1. }
  apply (prime_mul_zero p _ _ Hp) in Z0. destruct Z0 as [Z0|Z0]; [contradiction|]. rewrite Z.add_mod, Z0, Z.add_0_r, Z.mod_mod in E2 by lia. destruct Wsq as [s0 Hs0]. exists s0. rewrite Hs0. exact E2.
Qed.

Theorem sqrt2_ok e x v : rep2 r 0 hh e x v ->
  exists b z, fp2_sqrt r x = Some (b, z)
    /\ (b = true -> ~ real_nonres p v /\ exists w, (rep2 r 0 1 2 z w \/ (eq2 p v zero2 /\ eq2 p w zero2 /\ z = x)) /\ eq2 p (mul2 w w) v)
    /\ (b = false -> z = fp2_new r /\ ((~ is_sq p (norm2 v)) \/ real_nonres p v)).
Proof.
  intros HX. pose proof HX as [A1 A2]. unfold fp2_sqrt.
  rewrite (iszilch2_ok r Hf 0 hh e x v ltac:(lia) ltac:(lia) ltac:(lia) ltac:(lia) HX). cbn [bind].
  destruct ((fst v mod p =? 0) && (snd v mod p =? 0))%bool eqn:Ez.
  { apply Bool.andb_true_iff in Ez. destruct Ez as [Z1 Z2]. apply Z.eqb_eq in Z1, Z2. exists true, x. split; [reflexivity|]. split; [|discriminate]. intros _. split; [intros [_ R2]; apply R2; exists 0; rewrite Z1; apply Z.mod_0_l; lia|]. exists (0, 0).
    split; [|unfold eq2, mul2; cbn [fst snd]; rewrite Z1, Z2, Z.mod_0_l by lia; split; reflexivity]. right. split; [|split; [split; reflexivity|reflexivity]]. unfold eq2, zero2. cbn [fst snd]. rewrite Z1, Z2, Z.mod_0_l by lia. split; reflexivity. }
  assert (Vnz : norm2 v mod p <> 0).
  { intros E. destruct (norm2_zero p Hp v H34 E) as [Z1 Z2]. cbn [zero2 fst snd] in Z1, Z2. rewrite Z.mod_0_l in Z1, Z2 by lia. rewrite Z1, Z2 in Ez. discriminate. }
  destruct (isqrw r Hf hh 0 hh e (f2b x) _ HM Hw ltac:(lia) ltac:(lia) ltac:(lia) ltac:(lia) A2) as [b2 [E Q1]]. rewrite E. cbn [bind]. clear E.
  destruct (isqrw r Hf hh 0 hh e (f2a x) _ HM Hw ltac:(lia) ltac:(lia) ltac:(lia) ltac:(lia) A1) as [a2 [E Q2]]. rewrite E. cbn [bind]. clear E.
  destruct (iadd r Hf 0 1 2 0 1 2 b2 a2 _ _ ltac:(lia) ltac:(lia) ltac:(lia) ltac:(lia) ltac:(lia) ltac:(lia) ltac:(lia) Q1 Q2) as [n [E Qn]]. rewrite E. cbn [bind]. clear E Q1 Q2.
  replace (snd v * snd v + fst v * fst v) with (norm2 v) in Qn by (unfold norm2; ring).
  destruct (jacw (2 + 2) n _ Qn) as [j [E J]]. rewrite E. cbn [bind]. clear E.
  destruct J as [[J _]|[[_ [Jsq ->]]|[_ [Jn ->]]]]; [contradiction| |].
  2:{ exists false, (fp2_new r). split; [reflexivity|]. split; [discriminate|]. intros _. split; [reflexivity|]. left. exact Jn. }
  change (negb (1 =? 1)) with false. cbv iota.
  destruct (isqrt r Hf Hs H8 (0 + 0) (1 + 1) (2 + 2) n _ ltac:(lia) ltac:(lia) ltac:(lia) ltac:(lia) Qn) as [s [E Qs]]. rewrite E. cbn [bind]. clear E.
  pose proof (root_3 r Hf (norm2 v) Hp H8 Jsq) as Es. cbv zeta in Es. set (sv := norm2 v ^ ((p + 1) / 4)) in *.
  set (W1 := (fst v + sv) * ((p + 1) / 2)). set (W2 := (fst v - sv) * ((p + 1) / 2)).
  assert (D1 : (2 * W1) mod p = (fst v + sv) mod p) by (unfold W1; apply (cdiv p Hp H34); exists (fst v + sv); replace (2 * ((fst v + sv) * ((p + 1) / 2))) with ((fst v + sv) * (2 * ((p + 1) / 2))) by ring; rewrite (hf2 p H34); ring).
  assert (D2 : (2 * W2) mod p = (fst v - sv) mod p) by (unfold W2; apply (cdiv p Hp H34); exists (fst v - sv); replace (2 * ((fst v - sv) * ((p + 1) / 2))) with ((fst v - sv) * (2 * ((p + 1) / 2))) by ring; rewrite (hf2 p H34); ring).
  pose proof (halves_mul p Hp H34 (fst v) (snd v) sv Es) as HMul. fold W1 W2 in HMul. pose proof (halves_add p Hp H34 (fst v) sv) as HAdd. fold W1 W2 in HAdd.
  destruct (iadd r Hf 0 hh e 0 1 FE (f2a x) s _ _ ltac:(lia) ltac:(lia) ltac:(lia) ltac:(lia) ltac:(lia) ltac:(lia) ltac:(lia) A1 Qs) as [w [E Qw]]. rewrite E. cbn [bind]. clear E.
  destruct (inorm r Hf (0 + 0) (hh + 1) (e + FE) w _ ltac:(lia) ltac:(lia) ltac:(lia) ltac:(lia) Qw) as [w' [E Qw']]. rewrite E. cbn [bind]. clear E Qw.
  destruct (idiv2 r Hf _ w' _ W1 Qw' D1) as [w2 [E Qw2]]. rewrite E. cbn [bind]. clear E Qw'. apply frepFE in Qw2.
  destruct (jacw FE w2 W1) as [j1 [E J1]]; [apply (frep_mono r Hf 0 1 FE); [lia|lia|lia|exact Qw2]|]. rewrite E. cbn [bind]. clear E.
  assert (C1 : W1 mod p <> 0 /\ is_sq p W1 /\ j1 = 1 \/ (j1 <> 1 /\ (W1 mod p = 0 \/ ~ is_sq p W1))).
  { destruct J1 as [[J1 ->]|[[K1 [J1 ->]]|[K1 [J1 ->]]]]; [right; split; [discriminate|left; exact J1]|left; auto|right; split; [discriminate|right; exact J1]]. }
  destruct C1 as [[N1 [S1 ->]]|[C1 C1']].
  { change (negb (1 =? 1)) with false. cbv iota. cbn [bind]. destruct (finish e x v w2 W1 W2 HX Qw2 N1 S1 HAdd HMul) as [z [zw [F1 [F2 [F3 F4]]]]]. rewrite F1.
    exists true, z. split; [reflexivity|]. split; [|discriminate]. intros _. split; [exact F4|]. exists zw. split; [left; exact F2|exact F3]. }
  replace (negb (j1 =? 1)) with true by (symmetry; apply Bool.negb_true_iff; apply Z.eqb_neq; exact C1).
  destruct (isub r Hf 0 hh e 0 1 FE (f2a x) s _ _ ltac:(lia) ltac:(lia) ltac:(lia) ltac:(lia) ltac:(lia) ltac:(lia) A1 Qs) as [y [E Qy]]. rewrite E. cbn [bind]. clear E.
  destruct (inorm r Hf (0 + 1) (hh + 0 + 1) (e + 4 * FE) y _ ltac:(lia) ltac:(lia) ltac:(lia) ltac:(lia) Qy) as [y' [E Qy']]. rewrite E. cbn [bind]. clear E Qy.
  destruct (idiv2 r Hf _ y' _ W2 Qy' D2) as [y2 [E Qy2]]. rewrite E. cbn [bind]. clear E Qy'. apply frepFE in Qy2.
  destruct (jacw FE y2 W2) as [j2 [E J2]]; [apply (frep_mono r Hf 0 1 FE); [lia|lia|lia|exact Qy2]|]. rewrite E. cbn [bind]. clear E.
  assert (C2 : W2 mod p <> 0 /\ is_sq p W2 /\ j2 = 1 \/ (j2 <> 1 /\ (W2 mod p = 0 \/ ~ is_sq p W2))).
  { destruct J2 as [[J2 ->]|[[K1 [J2 ->]]|[K1 [J2 ->]]]]; [right; split; [discriminate|left; exact J2]|left; auto|right; split; [discriminate|right; exact J2]]. }
  destruct C2 as [[N2 [S2 ->]]|[C2 C2']].
  { change (negb (1 =? 1)) with false. cbv iota. rewrite Z.add_comm in HAdd. rewrite Z.mul_comm in HMul. destruct (finish e x v y2 W2 W1 HX Qy2 N2 S2 HAdd HMul) as [z [zw [F1 [F2 [F3 F4]]]]]. rewrite F1.
    exists true, z. split; [reflexivity|]. split; [|discriminate]. intros _. split; [exact F4|]. exists zw. split; [left; exact F2|exact F3]. }
  replace (negb (j2 =? 1)) with true by (symmetry; apply Bool.negb_true_iff; apply Z.eqb_neq; exact C2). cbv iota.
  exists false, (fp2_new r). split; [reflexivity|]. split; [discriminate|]. intros _. split; [reflexivity|]. right.
  destruct (Z.eq_dec (snd v mod p) 0) as [Eb|Eb].
  - split; [exact Eb|]. intros Sa.
    assert (Ea : fst v mod p <> 0) by (intros Q; rewrite Q, Eb in Ez; discriminate).
    assert (PM : ((sv - fst v) * (sv + fst v)) mod p = 0).
    { apply Z.mod_divide; [lia|]. apply (cdiv p Hp H34) in Es. apply Z.mod_divide in Eb; [|lia]. unfold norm2 in Es. replace ((sv - fst v) * (sv + fst v)) with (sv * sv - (fst v * fst v + snd v * snd v) + snd v * snd v) by ring.
      apply Z.divide_add_r; [exact Es|]. apply Z.divide_mul_l. exact Eb. }
    assert (Tr : forall W, W mod p = fst v mod p -> W mod p = 0 \/ ~ is_sq p W -> False).
    { intros W EW [Q|Q]; [apply Ea; rewrite <- EW; exact Q|]. apply Q. destruct Sa as [s0 Hs0]. exists s0. rewrite EW. exact Hs0. }
    apply (prime_mul_zero p _ _ Hp) in PM. destruct PM as [Q|Q]; apply Z.mod_divide in Q; try lia; destruct Q as [k Q].
    + apply (Tr W1); [|exact C1']. apply (cdiv p Hp H34). pose proof (hf2 p H34). exists (fst v + k * ((p + 1) / 2)). unfold W1. replace sv with (fst v + k * p) by lia.
      replace ((fst v + (fst v + k * p)) * ((p + 1) / 2)) with (fst v * (2 * ((p + 1) / 2)) + k * p * ((p + 1) / 2)) by ring. rewrite H. ring.
    + apply (Tr W2); [|exact C2']. apply (cdiv p Hp H34). pose proof (hf2 p H34). exists (fst v - k * ((p + 1) / 2)). unfold W2. replace sv with (- fst v + k * p) by lia.
      replace ((fst v - (- fst v + k * p)) * ((p + 1) / 2)) with (fst v * (2 * ((p + 1) / 2)) - k * p * ((p + 1) / 2)) by ring. rewrite H. ring.
  - exfalso. pose proof (hf_nz p Hp H34 _ Eb) as Hb. set (bh := snd v * ((p + 1) / 2)) in *.
    assert (Pn : (W1 * W2) mod p <> 0).
    { rewrite HMul. intros Q. apply Z.mod_divide in Q; [|lia]. apply Z.divide_opp_r in Q. rewrite Z.opp_involutive in Q. apply Z.mod_divide in Q; [|lia]. apply (prime_mul_zero p _ _ Hp) in Q. tauto. }
    assert (M1 : W1 mod p <> 0) by (intros Q; apply Pn; rewrite Z.mul_mod, Q by lia; apply Z.mod_0_l; lia).
    assert (M2 : W2 mod p <> 0) by (intros Q; apply Pn; rewrite Z.mul_mod, Q, Z.mul_0_r by lia; apply Z.mod_0_l; lia).
    apply (two_nonsq p Hp H34 W1 W2 bh M1 M2); tauto.
Qed.
End W.
