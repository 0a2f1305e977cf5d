(** The Big layer as seen from ff.rs: rnorm, shifts, comparison, the wide split. *)
From Verif Require Import Base.Word Model.Big Model.Ff Spec.BigSpec Spec.FfSpec Proof.BigVal Proof.BigShift
  Proof.BigMul Proof.BigSqr Proof.BigMisc Proof.BigMod Proof.BigBytes Proof.BigInv.
Open Scope Z_scope.

Lemma pow2nat_pos k : (0 < 2 ^ k)%nat. Proof. induction k; cbn; lia. Qed.

Section F.
Variable c : cfg.
Hypothesis Hff : ff_ok c.
Notation B := (BASEBITS c).
Notation C := (CHUNK c).
Notation N := (NLEN c).
Notation X := (2 ^ BASEBITS c).
Notation V := (val (BASEBITS c)).
Notation T := (FT c).
Notation R := (bigR c).
Notation FV := (fval c).

Lemma ffok : cfg_ok c /\ 5 <= T /\ T + 8 <= B.
Proof. pose proof Hff as H. unfold ff_ok, ff_okb in H. rewrite !andb_true_iff, !Z.leb_le in H. unfold cfg_ok. tauto. Qed.
Definition Hok : cfg_ok c := proj1 ffok.
Let HT := proj2 ffok.
Let F := cfg_ok_facts c Hok.
Lemma fB : 16 <= B. Proof. exact (cf_B c F). Qed.
Lemma fC : B + 3 <= C. Proof. exact (cf_C c F). Qed.
Lemma fN : (2 <= N)%nat. Proof. exact (cf_N c F). Qed.
Let HB : 8 <= B. Proof. pose proof fB. lia. Qed.
Let HB0 : 0 <= B. Proof. lia. Qed.
Let HC := fC.
Let HN := fN.
Lemma fX : 65536 <= X. Proof. change 65536 with (2 ^ 16). apply pow2_le. pose proof fB. lia. Qed.
Let HX := fX.
Lemma fXC : 4 * X <= 2 ^ (C - 1).
Proof. change 4 with (2 ^ 2). rewrite <- Z.pow_add_r by (pose proof fB; lia). apply pow2_le. pose proof fB. lia. Qed.
Let HXC := fXC.
Lemma fMlim : 4 * X - 4 <= Mlim c.
Proof.
  unfold Mlim. assert (E : 2 ^ (C - 1) = X * 2 ^ (C - 1 - B)) by (rewrite <- Z.pow_add_r by lia; f_equal; lia).
  rewrite E. assert (4 <= 2 ^ (C - 1 - B)) by (change 4 with (2 ^ 2); apply pow2_le; lia).
  set (q := 2 ^ (C - 1 - B)) in *. assert ((X - 1) * 4 <= (X - 1) * q) by (apply Z.mul_le_mono_nonneg_l; lia). lia.
Qed.

Lemma Xh : X = 4 * (X / 4) /\ X = 2 * (X / 2) /\ X / 2 = 2 * (X / 4).
Proof.
  assert (Q : X = 2 ^ (B - 2) * 4) by (change 4 with (2 ^ 2); rewrite <- Z.pow_add_r by lia; f_equal; lia).
  assert (X / 4 = 2 ^ (B - 2)) by (rewrite Q, Z.div_mul by lia; reflexivity).
  assert (X / 2 = 2 * 2 ^ (B - 2)) by (rewrite Q; replace (2 ^ (B - 2) * 4) with ((2 * 2 ^ (B - 2)) * 2) by ring; rewrite Z.div_mul by lia; reflexivity). lia.
Qed.

(** 8*MODBYTES = B*(N-1) + T *)
Lemma bits_eq : 8 * MODBYTES c = B * (Z.of_nat N - 1) + T.
Proof.
  pose proof (cf_Nz c F) as E. unfold NLENz in E. unfold FT.
  assert (D := Z.div_mod (8 * MODBYTES c) B ltac:(lia)).
  assert (M := Z.mod_pos_bound (8 * MODBYTES c) B ltac:(lia)). fold (FT c) in D, M.
  assert (Eq : (8 * MODBYTES c - 1) / B = 8 * MODBYTES c / B).
  { symmetry. apply (Z.div_unique _ _ _ (T - 1)); lia. }
  rewrite Eq in E. rewrite <- E. fold (FT c). lia.
Qed.
Definition E1 : Z := 2 ^ (B * (Z.of_nat N - 1)).
Lemma E1_pos : 0 < E1. Proof. apply pow2_pos. apply Z.mul_nonneg_nonneg; lia. Qed.
Lemma R_eq : R = E1 * 2 ^ T.
Proof. unfold bigR, E1. rewrite bits_eq, Z.pow_add_r; [reflexivity|apply Z.mul_nonneg_nonneg; lia|lia]. Qed.
Lemma T_pos : 0 < 2 ^ T. Proof. apply pow2_pos. lia. Qed.
Lemma T_ge : 32 <= 2 ^ T. Proof. change 32 with (2 ^ 5). apply pow2_le. lia. Qed.
Lemma R_pos : 0 < R. Proof. apply pow2_pos. pose proof (cf_M c F). lia. Qed.
Lemma R_big : 32 <= R. Proof. rewrite R_eq. pose proof E1_pos. pose proof T_ge. nia. Qed.
(** spare bits *)
Definition SL : Z := 2 ^ (B - T).
Lemma S_big : 256 <= SL. Proof. unfold SL. change 256 with (2 ^ 8). apply pow2_le. lia. Qed.
Lemma XS : X = SL * 2 ^ T. Proof. unfold SL. rewrite <- Z.pow_add_r by lia. f_equal. lia. Qed.
Lemma K_eq : 2 ^ (B * Z.of_nat N) = E1 * X.
Proof. unfold E1. rewrite <- Z.pow_add_r; [f_equal; lia|apply Z.mul_nonneg_nonneg; lia|lia]. Qed.
Lemma KSR : 2 ^ (B * Z.of_nat N) = SL * R. Proof. rewrite K_eq, XS, R_eq. ring. Qed.
Lemma FEXC_eq : 2 * FEXC c = SL.
Proof.
  unfold FEXC, SL. replace (B * Z.of_nat N - 8 * MODBYTES c - 1) with (B - T - 1) by (rewrite bits_eq; lia).
  rewrite <- (Z.pow_1_r 2) at 1. rewrite <- Z.pow_add_r by lia. f_equal. lia.
Qed.

(** a reduced Big; a normalised Big below g*R *)
Definition cn (x : list Z) : Prop := big_wf c x /\ V x < R.
Definition nb (g : Z) (x : list Z) : Prop := length x = N /\ nrm B x /\ 0 <= V x < g * R.
Definition lw (lo hi : Z) (x : list Z) : Prop := length x = N /\ within lo hi x.

Lemma cn_nb x : cn x <-> nb 1 x.
Proof.
  split.
  - intros [[L W] H]. split; [exact L|]. split; [apply canon_nrm; exact W|]. pose proof (canon_val B x HB0 W). lia.
  - intros [L [W H]]. split; [split; [exact L|]|lia]. apply (nrm_canon B x N HB0 W L). rewrite KSR.
    pose proof S_big. pose proof R_pos. split; [lia|]. apply Z.lt_le_trans with (1 * R); [lia|]. apply Z.mul_le_mono_nonneg_r; lia.
Qed.
Lemma nb_mono g g' x : nb g x -> g <= g' -> nb g' x.
Proof. intros [L [W H]] G. split; [exact L|]. split; [exact W|]. pose proof R_pos. assert (g * R <= g' * R) by (apply Z.mul_le_mono_nonneg_r; lia). lia. Qed.
Lemma nb_wf g x : nb g x -> g <= SL -> big_wf c x.
Proof.
  intros [L [W H]] G. split; [exact L|]. apply (nrm_canon B x N HB0 W L). rewrite KSR. pose proof R_pos.
  assert (g * R <= SL * R) by (apply Z.mul_le_mono_nonneg_r; lia). lia.
Qed.
Lemma nb_last g x : nb g x -> 0 <= last x 0 < g * 2 ^ T /\ last x 0 = V x / E1.
Proof.
  intros [L [W H]]. assert (Ne : x <> []) by (intros ->; cbn in L; lia).
  assert (E : last x 0 = V x / E1).
  { rewrite (nrm_last B x HB0 W Ne), L. unfold E1. rewrite Nat2Z.inj_sub by lia. reflexivity. }
  split; [|exact E]. rewrite E. pose proof E1_pos. split; [apply Z.div_pos; lia|].
  apply Z.div_lt_upper_bound; [lia|]. rewrite R_eq in H. lia.
Qed.
Lemma nrm_within w hi : nrm B w -> w <> [] -> X <= hi -> 0 <= last w 0 <= hi - 1 -> within 0 (hi - 1) w.
Proof.
  intros W Ne Hh. revert W Ne. induction w as [|x t IH]; intros W Ne L; [congruence|].
  destruct t as [|y t]; [cbn in L; repeat constructor; lia|].
  destruct W as [Wx W]. constructor; [lia|]. apply IH; [exact W|discriminate|exact L].
Qed.
(** 2*g <= j*SL bounds the limbs by j/2 * X *)
Lemma nb_lw g j x : nb g x -> 2 <= j -> 2 * g <= j * SL -> lw 0 (j * X / 2 - 1) x.
Proof.
  intros H Hj Hg. destruct (nb_last g x H) as [Hl _]. destruct H as [L [W H]]. split; [exact L|].
  destruct Xh as [_ [E2 _]].
  assert (Ex : j * X / 2 = j * (X / 2)).
  { rewrite E2 at 1. replace (j * (2 * (X / 2))) with (j * (X / 2) * 2) by ring. apply Z.div_mul. lia. }
  apply nrm_within; [exact W|intros ->; cbn in L; lia| |].
  - rewrite Ex, E2 at 1. apply Z.mul_le_mono_nonneg_r; lia.
  - split; [lia|]. rewrite Ex. assert (2 * (g * 2 ^ T) <= 2 * (j * (X / 2))).
    { replace (2 * (j * (X / 2))) with (j * (2 * (X / 2))) by ring. rewrite <- E2, XS. pose proof T_pos.
      replace (2 * (g * 2 ^ T)) with ((2 * g) * 2 ^ T) by ring. rewrite Z.mul_assoc. apply Z.mul_le_mono_nonneg_r; lia. }
    lia.
Qed.
Lemma nb_lw1 g x : nb g x -> g <= SL -> lw 0 (X - 1) x.
Proof. intros H G. destruct (nb_wf g x H G) as [L W]. split; [exact L|apply canon_within; exact W]. Qed.
Lemma cn_lw x : cn x -> lw 0 (X - 1) x.
Proof. intros [[L W] _]. split; [exact L|apply canon_within; exact W]. Qed.

(** ** xortop *)
Lemma lxor_top t k : 0 <= k -> Z.lxor t (Z.shiftl (Z.shiftr t k) k) = t mod 2 ^ k.
Proof.
  intros Hk. rewrite <- Z.land_ones by lia. apply Z.bits_inj'. intros n Hn.
  rewrite Z.lxor_spec, Z.land_spec, Z.shiftl_spec by lia. destruct (Z.lt_ge_cases n k) as [Q|Q].
  - rewrite (Z.testbit_neg_r (Z.shiftr t k)) by lia. rewrite Z.ones_spec_low by lia. destruct (Z.testbit t n); reflexivity.
  - rewrite Z.shiftr_spec by lia. replace (n - k + k) with n by lia. rewrite Z.ones_spec_high by lia. rewrite andb_false_r. apply xorb_nilpotent.
Qed.
Lemma last_get (w : list Z) : length w = N -> get w (N - 1) = last w 0.
Proof.
  intros L. unfold get. rewrite <- L. clear L. induction w as [|x t IH]; [reflexivity|].
  destruct t as [|y t]; [reflexivity|]. change (last (x :: y :: t) 0) with (last (y :: t) 0). rewrite <- IH. cbn [length].
  replace (S (S (length t)) - 1)%nat with (S (S (length t) - 1)) by lia. reflexivity.
Qed.
Lemma split_last (w : list Z) : length w = N -> w = firstn (N - 1) w ++ [last w 0].
Proof.
  intros L. rewrite <- (last_get w L). rewrite <- (firstn_skipn (N - 1) w) at 1. f_equal.
  rewrite (get_nth w (N - 1)) by lia. rewrite skipn_all2 by lia. reflexivity.
Qed.
Lemma nrm_low w : nrm B w -> length w = N -> canon B (firstn (N - 1) w).
Proof.
  intros W L. rewrite (split_last w L) in W at 1. set (a := firstn (N - 1) w) in *. clearbody a. clear L.
  induction a as [|x a IH]; [constructor|]. cbn [app] in W. destruct (a ++ [last w 0]) as [|y t] eqn:E; [destruct a; discriminate|].
  destruct W as [Wx W]. constructor; [exact Wx|]. apply IH. exact W.
Qed.
Lemma val_last w : length w = N -> V w = V (firstn (N - 1) w) + E1 * last w 0.
Proof.
  intros L. rewrite (split_last w L) at 1. rewrite val_app by exact HB0. cbn [val]. rewrite firstn_length, L.
  replace (Z.of_nat (Nat.min (N - 1) N)) with (Z.of_nat N - 1) by lia. fold E1. lia.
Qed.
Lemma low_range w : nrm B w -> length w = N -> 0 <= V (firstn (N - 1) w) < E1.
Proof.
  intros W L. pose proof (canon_val B _ HB0 (nrm_low w W L)) as H. rewrite firstn_length, L in H.
  replace (Z.of_nat (Nat.min (N - 1) N)) with (Z.of_nat N - 1) in H by lia. exact H.
Qed.
Lemma nrm_build a t : canon B a -> nrm B (a ++ [t]).
Proof. induction 1 as [|x a Hx Ha IH]; [exact I|]. cbn [app]. destruct a; cbn [app] in *; split; assumption. Qed.

Lemma top_ok y : nrm B y -> length y = N -> - 2 ^ (C - 1) <= last y 0 < 2 ^ (C - 1) ->
  excess_of c y = V y / R /\ cn (xortop c y (wrap C (Z.shiftl (excess_of c y) T))) /\ V (xortop c y (wrap C (Z.shiftl (excess_of c y) T))) = V y mod R.
Proof.
  intros W L Hl. pose proof (low_range y W L) as Lr. pose proof (val_last y L) as Ev. pose proof E1_pos as P1. pose proof T_pos as PT.
  assert (Ee : excess_of c y = last y 0 / 2 ^ T) by (unfold excess_of; fold (FT c); rewrite Z.shiftr_div_pow2 by lia; reflexivity).
  assert (Eq : V y / R = last y 0 / 2 ^ T).
  { rewrite R_eq, <- Z.div_div by lia. f_equal. symmetry. apply (Z.div_unique _ _ _ (V (firstn (N - 1) y))); lia. }
  split; [congruence|].
  assert (Ex : xortop c y (wrap C (Z.shiftl (excess_of c y) T)) = firstn (N - 1) y ++ [last y 0 mod 2 ^ T]).
  { unfold xortop. rewrite (last_get y L). do 2 f_equal.
    assert (Es : Z.shiftl (excess_of c y) T = last y 0 - last y 0 mod 2 ^ T).
    { rewrite Ee, Z.shiftl_mul_pow2 by lia. pose proof (Z.div_mod (last y 0) (2 ^ T) ltac:(lia)). lia. }
    pose proof (Z.mod_pos_bound (last y 0) (2 ^ T) PT).
    rewrite wrap_id; [|lia|].
    - unfold excess_of. fold (FT c). apply lxor_top. lia.
    - rewrite Es. split; [|lia].
      assert (Q : 2 ^ (C - 1) = 2 ^ T * 2 ^ (C - 1 - T)) by (rewrite <- Z.pow_add_r by lia; f_equal; lia).
      pose proof (Z.div_mod (last y 0) (2 ^ T) ltac:(lia)).
      assert (- 2 ^ (C - 1 - T) <= last y 0 / 2 ^ T) by (apply Z.div_le_lower_bound; lia).
      assert (2 ^ T * - 2 ^ (C - 1 - T) <= 2 ^ T * (last y 0 / 2 ^ T)) by (apply Z.mul_le_mono_nonneg_l; lia). lia. }
  rewrite Ex. pose proof (Z.mod_pos_bound (last y 0) (2 ^ T) PT) as Mt.
  assert (Hlen : length (firstn (N - 1) y) = (N - 1)%nat) by (rewrite firstn_length; lia).
  assert (Ev2 : V (firstn (N - 1) y ++ [last y 0 mod 2 ^ T]) = V y mod R).
  { rewrite val_app by exact HB0. rewrite Hlen. cbn [val]. rewrite Nat2Z.inj_sub by lia. change (Z.of_nat 1) with 1. fold E1.
    rewrite R_eq, Z.rem_mul_r by lia. rewrite Ev at 1 2.
    rewrite !(Z.mul_comm E1 (last y 0)), Z.mod_add, Z.div_add, (Z.mod_small (V _)), (Z.div_small (V _)) by lia.
    rewrite Z.mul_0_r, !Z.add_0_r, Z.add_0_l. reflexivity. }
  split; [|exact Ev2]. split; [split|].
  - rewrite app_length, Hlen. cbn. lia.
  - apply canon_app; [apply nrm_low; assumption|]. constructor; [|constructor]. pose proof XS. pose proof S_big. nia.
  - rewrite Ev2. apply Z.mod_pos_bound. apply R_pos.
Qed.

(** ** norm of a loose Big *)
Lemma within_val M w : 0 <= M -> within (- M) M w -> Z.abs (V w) * (X - 1) <= M * (2 ^ (B * Z.of_nat (length w)) - 1).
Proof.
  intros HM H. induction H as [|x t Hx Ht IH]; [cbn [val length]; rewrite Z.mul_0_r, Z.pow_0_r; cbn; lia|].
  cbn [val length]. replace (B * Z.of_nat (S (length t))) with (B + B * Z.of_nat (length t)) by lia.
  rewrite Z.pow_add_r by lia. set (q := 2 ^ (B * Z.of_nat (length t))) in *. assert (0 < q) by (apply pow2_pos; lia).
  assert (Z.abs (x + X * V t) <= M + X * Z.abs (V t)).
  { eapply Z.le_trans; [apply Z.abs_triangle|]. rewrite Z.abs_mul, (Z.abs_eq X) by lia. lia. }
  assert (Z.abs (x + X * V t) * (X - 1) <= (M + X * Z.abs (V t)) * (X - 1)) by (apply Z.mul_le_mono_nonneg_r; lia).
  assert (X * (Z.abs (V t) * (X - 1)) <= X * (M * (q - 1))) by (apply Z.mul_le_mono_nonneg_l; lia). lia.
Qed.
(** limbs up to 3.5 X plus a carry of X/4 *)
Definition lim : Z := 3 * X + X / 2.
Lemma norm_loose x carry : lw (- lim) lim x -> - (X / 4) <= carry <= X / 4 ->
  exists x1 y, add_low c x carry = Some x1 /\ norm c x1 = Some y /\ length y = N /\ nrm B y /\ V y = V x + carry
    /\ - 2 ^ (C - 1) <= last y 0 < 2 ^ (C - 1) /\ - (X / 4) <= V y / R <= X / 4.
Proof.
  intros [L W] Hc. destruct x as [|a x]; [cbn in L; lia|]. apply Forall_cons_iff in W. destruct W as [Wa W].
  pose proof Xh as [Q4 [Q2 Q24]]. pose proof fMlim as HM. pose proof (Mlim_le c HC) as HM2. unfold lim in *.
  unfold add_low. rewrite chk_ok by lia. cbn [bind]. exists ((a + carry) :: x).
  assert (Wx : within (- (3 * X + X / 2 + X / 4)) (3 * X + X / 2 + X / 4) ((a + carry) :: x)).
  { constructor; [lia|]. eapply Forall_impl; [|exact W]. cbn. lia. }
  destruct (norm_total c HB HC ((a + carry) :: x)) as [y [N1 [N2 [N3 N4]]]].
  { apply (within_small c (- (3 * X + X / 2 + X / 4)) (3 * X + X / 2 + X / 4)); [exact Wx|lia|lia]. }
  exists y. cbn [length] in L, N4. split; [reflexivity|]. split; [exact N1|]. split; [lia|]. split; [exact N3|].
  split; [rewrite N2; cbn [val]; lia|].
  assert (Hl : - (4 * X) <= last y 0 < 4 * X).
  { assert (Ly : length y = N) by lia. assert (Ne : y <> []) by (intros ->; cbn in Ly; lia).
    pose proof (within_val (3 * X + X / 2 + X / 4) _ ltac:(lia) Wx) as Hv. rewrite <- N2 in Hv. cbn [length] in Hv. rewrite L in Hv.
    rewrite K_eq in Hv. pose proof E1_pos as P1. rewrite (nrm_last B y HB0 N3 Ne), Ly, Nat2Z.inj_sub by lia. change (Z.of_nat 1) with 1. fold E1.
    assert (Hb : Z.abs (V y) < E1 * (4 * X)).
    { apply (Z.mul_lt_mono_pos_r (X - 1)); [lia|]. eapply Z.le_lt_trans; [exact Hv|].
      set (M := 3 * X + X / 2 + X / 4) in *. assert (M * (E1 * X - 1) < M * (E1 * X)) by (apply Z.mul_lt_mono_pos_l; lia).
      assert (M * (E1 * X) <= E1 * (4 * X) * (X - 1)); [|lia].
      replace (M * (E1 * X)) with ((E1 * X) * M) by ring. replace (E1 * (4 * X) * (X - 1)) with ((E1 * X) * (4 * (X - 1))) by ring.
      apply Z.mul_le_mono_nonneg_l; [nia|]. unfold M. lia. }
    split; [apply Z.div_le_lower_bound; lia|apply Z.div_lt_upper_bound; lia]. }
  split; [lia|].
  pose proof (top_ok y N3 ltac:(lia) ltac:(lia)) as [Te _]. unfold excess_of in Te. fold (FT c) in Te. rewrite <- Te, Z.shiftr_div_pow2 by lia.
  pose proof T_ge. split; [apply Z.div_le_lower_bound; [lia|]; nia|]. apply Z.lt_le_incl. apply Z.div_lt_upper_bound; [lia|]. nia.
Qed.

(** ** values of FFs *)
Lemma FV_app a b : FV (a ++ b) = FV a + R ^ Z.of_nat (length a) * FV b.
Proof.
  induction a as [|x a IH]; [cbn [app fval length]; change (Z.of_nat 0) with 0; rewrite Z.pow_0_r; lia|]. cbn [app fval length]. rewrite IH, Nat2Z.inj_succ, Z.pow_succ_r by lia. ring.
Qed.
Lemma Rp n : 0 < R ^ Z.of_nat n. Proof. apply Z.pow_pos_nonneg; [apply R_pos|lia]. Qed.
Lemma RpS n : R ^ Z.of_nat (S n) = R * R ^ Z.of_nat n. Proof. rewrite Nat2Z.inj_succ, Z.pow_succ_r by lia. reflexivity. Qed.
Lemma RpD n m : R ^ Z.of_nat (n + m) = R ^ Z.of_nat n * R ^ Z.of_nat m. Proof. rewrite Nat2Z.inj_add, Z.pow_add_r by lia. reflexivity. Qed.
Lemma cn_range f : Forall cn f -> 0 <= FV f < R ^ Z.of_nat (length f).
Proof.
  induction 1 as [|x f [[L W] Hx] Hf IH]; [cbn; lia|]. cbn [fval length]. rewrite RpS. unfold bval.
  pose proof (canon_val B x HB0 W). pose proof R_pos.
  assert (R * (FV f + 1) <= R * R ^ Z.of_nat (length f)) by (apply Z.mul_le_mono_nonneg_l; lia).
  assert (0 <= R * FV f) by (apply Z.mul_nonneg_nonneg; lia). lia.
Qed.
Lemma cn_inj a b : Forall cn a -> Forall cn b -> length a = length b -> FV a = FV b -> a = b.
Proof.
  intros Ha. revert b. induction Ha as [|x a [[L W] Hx] Ha IH]; intros b Hb Hl E; destruct b as [|y b]; cbn in Hl; try discriminate; [reflexivity|].
  apply Forall_cons_iff in Hb. destruct Hb as [[[L' W'] Hy] Hb]. cbn [fval] in E. unfold bval in E.
  pose proof (canon_val B x HB0 W). pose proof (canon_val B y HB0 W'). pose proof R_pos.
  assert (Q : FV a = FV b).
  { assert (E2 : (V x + R * FV a) / R = (V y + R * FV b) / R) by congruence.
    rewrite !(Z.mul_comm R), !Z.div_add, (Z.div_small (V x)), (Z.div_small (V y)) in E2 by lia. lia. }
  f_equal; [|apply IH; [exact Hb|lia|exact Q]]. apply (nrm_inj B); [exact HB0|apply canon_nrm; exact W|apply canon_nrm; exact W'|lia|]. rewrite Q in E. lia.
Qed.

(** ** rnorm *)
Lemma rnorm_loop_ok tr f : f <> [] -> Forall (lw (- lim) lim) f -> forall carry, - (X / 4) <= carry <= X / 4 ->
  exists r, rnorm_loop c tr f carry = Some r /\ length r = length f /\
    if tr then Forall cn r /\ FV r = (FV f + carry) mod R ^ Z.of_nat (length f)
    else exists a b, r = a ++ [b] /\ Forall cn a /\ length b = N /\ nrm B b /\ FV r = FV f + carry.
Proof.
  intros Ne Hf. induction Hf as [|x f Hx Hf IH]; [congruence|]. intros carry Hc. clear Ne.
  destruct (norm_loose x carry Hx Hc) as [x1 [y [A1 [A2 [A3 [A4 [A5 [A6 A7]]]]]]]].
  destruct (top_ok y A4 A3 A6) as [T1 [T2 T3]]. cbn [rnorm_loop]. rewrite A1. cbn [bind]. rewrite A2. cbn [bind].
  pose proof R_pos as PR. pose proof (Z.div_mod (V y) R ltac:(lia)) as DM.
  destruct f as [|z f].
  - destruct tr.
    + eexists. split; [reflexivity|]. split; [reflexivity|]. split; [constructor; [exact T2|constructor]|].
      cbn [fval length]. unfold bval. rewrite T3, A5, !Z.mul_0_r, !Z.add_0_r. rewrite Z.pow_1_r. reflexivity.
    + eexists. split; [reflexivity|]. split; [reflexivity|]. exists [], y. split; [reflexivity|]. split; [constructor|]. split; [exact A3|]. split; [exact A4|].
      cbn [fval]. unfold bval. lia.
  - rewrite T1. destruct (IH ltac:(discriminate) (V y / R) A7) as [r [R1 [R2 R3]]]. rewrite T1 in T2, T3. rewrite R1. cbn [bind].
    eexists. split; [reflexivity|]. split; [cbn [length] in *; lia|]. destruct tr.
    + destruct R3 as [R3 R4]. split; [constructor; assumption|]. set (g := z :: f) in *. cbn [fval length]. rewrite R4, RpS. unfold bval. rewrite T3.
      rewrite Z.rem_mul_r; [|lia|pose proof (Rp (length g)); lia].
      replace (V x + R * FV g + carry) with ((V x + carry) + FV g * R) by ring.
      rewrite Z.mod_add, Z.div_add by lia. rewrite <- A5. rewrite (Z.add_comm (V y / R)). reflexivity.
    + destruct R3 as [a [b [E [Ha [Hb [Hn Hv]]]]]]. exists (xortop c y (wrap C (Z.shiftl (V y / R) T)) :: a), b.
      split; [rewrite E; reflexivity|]. split; [constructor; assumption|]. split; [exact Hb|]. split; [exact Hn|].
      set (g := z :: f) in *. cbn [fval]. unfold bval. rewrite Hv, T3. lia.
Qed.

(** a list of reduced Bigs whose last one may reach g*R *)
Definition tf (g : Z) (f : ff) : Prop := exists a b, f = a ++ [b] /\ Forall cn a /\ nb g b.
Lemma tf_range g f : tf g f -> 0 <= FV f < g * R ^ Z.of_nat (length f).
Proof.
  intros [a [b [-> [Ha [L [W H]]]]]]. rewrite FV_app, app_length. cbn [length fval]. rewrite Z.mul_0_r, Z.add_0_r. unfold bval.
  pose proof (cn_range a Ha) as Ra. rewrite RpD. change (Z.of_nat 1) with 1. rewrite Z.pow_1_r. pose proof (Rp (length a)) as P.
  set (q := R ^ Z.of_nat (length a)) in *. assert (q * (V b + 1) <= q * (g * R)) by (apply Z.mul_le_mono_nonneg_l; lia).
  assert (0 <= q * V b) by (apply Z.mul_nonneg_nonneg; lia). split; [lia|]. replace (g * (q * R)) with (q * (g * R)) by ring. lia.
Qed.
Lemma tf_cn f : f <> [] -> (tf 1 f <-> Forall cn f).
Proof.
  intros Ne. split.
  - intros [a [b [-> [Ha Hb]]]]. apply Forall_app. split; [exact Ha|]. constructor; [apply cn_nb; exact Hb|constructor].
  - intros H. destruct (exists_last Ne) as [a [b E]]. subst f. apply Forall_app in H. destruct H as [Ha Hb]. apply Forall_cons_iff in Hb. destruct Hb as [Hb _].
    exists a, b. split; [reflexivity|]. split; [exact Ha|apply cn_nb; exact Hb].
Qed.
Lemma tf_mono g g' f : tf g f -> g <= g' -> tf g' f.
Proof. intros [a [b [E [Ha Hb]]]] G. exists a, b. split; [exact E|]. split; [exact Ha|]. eapply nb_mono; eassumption. Qed.
Lemma tf_val g g' f : tf g f -> FV f < g' * R ^ Z.of_nat (length f) -> tf g' f.
Proof.
  intros [a [b [-> [Ha [L [W H]]]]]] Hv. exists a, b. split; [reflexivity|]. split; [exact Ha|]. split; [exact L|]. split; [exact W|]. split; [lia|].
  rewrite FV_app, app_length in Hv. cbn [length fval] in Hv. rewrite Z.mul_0_r, Z.add_0_r in Hv. unfold bval in Hv.
  pose proof (cn_range a Ha) as Ra. rewrite RpD in Hv. change (Z.of_nat 1) with 1 in Hv. rewrite Z.pow_1_r in Hv. pose proof (Rp (length a)) as P.
  set (q := R ^ Z.of_nat (length a)) in *. apply (Z.mul_lt_mono_pos_l q); [exact P|]. replace (q * (g' * R)) with (g' * (q * R)) by ring. lia.
Qed.
Lemma tf_nb g f : tf g f -> 1 <= g -> Forall (nb g) f.
Proof.
  intros [a [b [-> [Ha Hb]]]] G. apply Forall_app. split; [|constructor; [exact Hb|constructor]].
  eapply Forall_impl; [|exact Ha]. cbn. intros x Hx. apply cn_nb in Hx. eapply nb_mono; eassumption.
Qed.
Lemma tf_ne g f : tf g f -> f <> []. Proof. intros [a [b [-> _]]] E. destruct a; discriminate. Qed.

Lemma rnorm_ok f g : f <> [] -> Forall (lw (- lim) lim) f -> 0 <= FV f < g * R ^ Z.of_nat (length f) ->
  exists r, rnorm c false f = Some r /\ length r = length f /\ tf g r /\ FV r = FV f.
Proof.
  intros Ne Hf Hv. destruct (rnorm_loop_ok false f Ne Hf 0) as [r [R1 [R2 [a [b [E [Ha [Hb [Hn Hr]]]]]]]]]; [pose proof Xh; lia|].
  exists r. split; [unfold rnorm; destruct f; [congruence|exact R1]|]. split; [exact R2|]. rewrite Z.add_0_r in Hr. split; [|exact Hr].
  exists a, b. split; [exact E|]. split; [exact Ha|]. split; [exact Hb|]. split; [exact Hn|].
  rewrite <- Hr in Hv. rewrite <- R2 in Hv. rewrite E in Hv. rewrite FV_app, app_length in Hv. cbn [length fval] in Hv. rewrite Z.mul_0_r, Z.add_0_r in Hv. unfold bval in Hv.
  pose proof (cn_range a Ha) as Ra. rewrite RpD in Hv. change (Z.of_nat 1) with 1 in Hv. rewrite Z.pow_1_r in Hv. pose proof (Rp (length a)) as P.
  set (q := R ^ Z.of_nat (length a)) in *. split.
  - destruct (Z.lt_ge_cases (V b) 0) as [Q|Q]; [|exact Q]. exfalso. assert (q * (V b + 1) <= q * 0) by (apply Z.mul_le_mono_nonneg_l; lia). lia.
  - apply (Z.mul_lt_mono_pos_l q); [exact P|]. replace (q * (g * R)) with (g * (q * R)) by ring. lia.
Qed.
Lemma rnorm_tr f : f <> [] -> Forall (lw (- lim) lim) f ->
  exists r, rnorm c true f = Some r /\ length r = length f /\ Forall cn r /\ FV r = FV f mod R ^ Z.of_nat (length f).
Proof.
  intros Ne Hf. destruct (rnorm_loop_ok true f Ne Hf 0) as [r [R1 [R2 [R3 R4]]]]; [pose proof Xh; lia|].
  exists r. split; [unfold rnorm; destruct f; [congruence|exact R1]|]. rewrite Z.add_0_r in R4. auto.
Qed.

(** ** Big-wise loops *)
Lemma lw_mono lo hi lo' hi' x : lw lo hi x -> lo' <= lo -> hi <= hi' -> lw lo' hi' x.
Proof. intros [L W] ? ?. split; [exact L|]. eapply within_weaken; eassumption. Qed.
Lemma flw_mono lo hi lo' hi' f : Forall (lw lo hi) f -> lo' <= lo -> hi <= hi' -> Forall (lw lo' hi') f.
Proof. intros H ? ?. eapply Forall_impl; [|exact H]. intros. eapply lw_mono; eassumption. Qed.
Lemma ffadd_ok l1 h1 l2 h2 a b : Forall (lw l1 h1) a -> Forall (lw l2 h2) b -> length a = length b ->
  - 2 ^ (C - 1) <= l1 + l2 -> h1 + h2 < 2 ^ (C - 1) ->
  exists r, ff_add c a b = Some r /\ length r = length a /\ Forall (lw (l1 + l2) (h1 + h2)) r /\ FV r = FV a + FV b.
Proof.
  intros Ha. revert b. induction Ha as [|x a [Lx Wx] Ha IH]; intros b Hb Hl Q1 Q2; destruct b as [|y b]; cbn in Hl; try discriminate.
  - exists []. cbn. auto.
  - apply Forall_cons_iff in Hb. destruct Hb as [[Ly Wy] Hb]. destruct (IH b Hb ltac:(lia) Q1 Q2) as [r [R1 [R2 [R3 R4]]]].
    destruct (add_total c HB HC l1 h1 l2 h2 x y Wx Wy ltac:(lia) Q1 Q2) as [s [S1 S2]]. destruct (add_val c x y s S1 ltac:(lia)) as [S3 S4].
    unfold ff_add in *. cbn [ffmap2]. rewrite S1. cbn [bind]. rewrite R1. cbn [bind]. eexists. split; [reflexivity|].
    split; [cbn; lia|]. split; [constructor; [split; [lia|exact S2]|exact R3]|]. cbn [fval]. rewrite R4. unfold bval. rewrite S3. ring.
Qed.
Lemma ffsub_ok l1 h1 l2 h2 a b : Forall (lw l1 h1) a -> Forall (lw l2 h2) b -> length a = length b ->
  - 2 ^ (C - 1) <= l1 - h2 -> h1 - l2 < 2 ^ (C - 1) ->
  exists r, ff_sub c a b = Some r /\ length r = length a /\ Forall (lw (l1 - h2) (h1 - l2)) r /\ FV r = FV a - FV b.
Proof.
  intros Ha. revert b. induction Ha as [|x a [Lx Wx] Ha IH]; intros b Hb Hl Q1 Q2; destruct b as [|y b]; cbn in Hl; try discriminate.
  - exists []. cbn. auto.
  - apply Forall_cons_iff in Hb. destruct Hb as [[Ly Wy] Hb]. destruct (IH b Hb ltac:(lia) Q1 Q2) as [r [R1 [R2 [R3 R4]]]].
    destruct (sub_total c HB HC l1 h1 l2 h2 x y Wx Wy ltac:(lia) Q1 Q2) as [s [S1 S2]]. destruct (sub_val c x y s S1 ltac:(lia)) as [S3 S4].
    unfold ff_sub in *. cbn [ffmap2]. rewrite S1. cbn [bind]. rewrite R1. cbn [bind]. eexists. split; [reflexivity|].
    split; [cbn; lia|]. split; [constructor; [split; [lia|exact S2]|exact R3]|]. cbn [fval]. rewrite R4. unfold bval. rewrite S3. ring.
Qed.
End F.
