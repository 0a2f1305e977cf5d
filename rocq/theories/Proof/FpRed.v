(** logb2, modular reduction of the excess (FP::reduce) and the common form of the double-length reduction. *)
From Verif Require Import Base.Word Model.Big Model.Roms Model.Fp Spec.BigSpec Spec.RomSpec Spec.FpSpec Spec.Bytes
  Proof.BigVal Proof.BigShift Proof.BigBytes Proof.BigMul Proof.BigSqr Proof.BigMonty Proof.BigMod Proof.BigInv Proof.BigMisc Proof.NumTheory Proof.FpBase.
From Coq Require Import Psatz Zpow_facts Znumtheory.

(** ** logb2 *)
Definition blen (x : Z) : Z := if x =? 0 then 0 else Z.log2 x + 1.
Definition smeared (k m v : Z) : Prop := 0 <= v < 2 ^ (k + 1) /\ forall i, 0 <= i -> k - m < i <= k -> Z.testbit v i = true.
Lemma smear_step k m v : 0 <= k -> 0 < m -> smeared k m v -> smeared k (2 * m) (smear v m).
Proof.
  intros Hk Hm [Hv Hb]. unfold smear. split.
  - apply lor_range; [lia|exact Hv|]. rewrite Z.shiftr_div_pow2 by lia. split; [apply Z.div_pos; [lia|apply pow2_pos; lia]|].
    apply Z.div_lt_upper_bound; [apply pow2_pos; lia|]. assert (1 * 2 ^ (k + 1) <= 2 ^ m * 2 ^ (k + 1)); [|lia].
    apply Z.mul_le_mono_nonneg_r; [lia|]. pose proof (pow2_pos m ltac:(lia)). lia.
  - intros i Hi Hr. rewrite Z.lor_spec. destruct (Z.ltb_spec (k - m) i) as [L|L].
    + rewrite Hb by lia. reflexivity.
    + rewrite Z.shiftr_spec by lia. rewrite (Hb (i + m)) by lia. apply orb_true_r.
Qed.
Lemma popcount_ones_sweep : forallb (fun k => popcount32 (2 ^ (Z.of_nat k + 1) - 1) =? Z.of_nat k + 1) (seq 0 32) = true.
Proof. vm_compute. reflexivity. Qed.
Lemma logb2_spec w : 0 <= w < 2 ^ 32 -> logb2 w = blen w.
Proof.
  intros Hw. unfold blen. destruct (Z.eqb_spec w 0) as [->|Hn]; [reflexivity|].
  set (k := Z.log2 w). assert (Hk : 0 <= k) by (apply Z.log2_nonneg).
  pose proof (Z.log2_spec w ltac:(lia)) as S. fold k in S. rewrite <- Z.add_1_r in S.
  assert (Hk32 : k < 32). { apply Z.log2_lt_pow2; lia. }
  assert (S0 : smeared k 1 w). { split; [lia|]. intros i Hi Hr. replace i with k by lia. apply Z.bit_log2. lia. }
  pose proof (smear_step k 16 _ Hk ltac:(lia) (smear_step k 8 _ Hk ltac:(lia) (smear_step k 4 _ Hk ltac:(lia)
    (smear_step k 2 _ Hk ltac:(lia) (smear_step k 1 w Hk ltac:(lia) S0))))) as [Hr Hb].
  unfold logb2. set (v := smear _ 16) in *.
  assert (Ev : v = 2 ^ (k + 1) - 1).
  { replace (2 ^ (k + 1) - 1) with (Z.ones (k + 1)) by (rewrite Z.ones_equiv; lia).
    apply Z.bits_inj'. intros i Hi. destruct (Z.ltb_spec i (k + 1)) as [L|L].
    - rewrite Z.ones_spec_low by lia. apply Hb; lia.
    - rewrite Z.ones_spec_high by lia. rewrite <- (Z.mod_small v (2 ^ (k + 1))) by exact Hr. apply Z.mod_pow2_bits_high. lia. }
  rewrite Ev. pose proof popcount_ones_sweep as W. rewrite forallb_forall in W. specialize (W (Z.to_nat k)).
  rewrite Z2Nat.id in W by lia. apply Z.eqb_eq. apply W. apply in_seq. lia.
Qed.
Lemma blen_spec x : 0 <= x -> 0 <= blen x /\ x < 2 ^ blen x /\ (x <> 0 -> 2 ^ (blen x - 1) <= x).
Proof.
  intros H. unfold blen. destruct (Z.eqb_spec x 0) as [->|E]; [cbn; lia|].
  pose proof (Z.log2_spec x ltac:(lia)) as S. pose proof (Z.log2_nonneg x). rewrite <- Z.add_1_r in S.
  replace (Z.log2 x + 1 - 1) with (Z.log2 x) by lia. lia.
Qed.
Lemma blen_le x k : 0 <= k -> 0 <= x < 2 ^ k -> blen x <= k.
Proof.
  intros Hk H. unfold blen. destruct (Z.eqb_spec x 0) as [->|E]; [exact Hk|].
  assert (Z.log2 x < k) by (apply Z.log2_lt_pow2; lia). lia.
Qed.

Section Fp.
Variable r : rom.
Hypothesis Hf : fp_ok r.
Notation c := (r_cfg r).
Notation B := (BASEBITS (r_cfg r)).
Notation C := (CHUNK (r_cfg r)).
Notation N := (NLEN (r_cfg r)).
Notation X := (2 ^ BASEBITS (r_cfg r)).
Notation V := (val (BASEBITS (r_cfg r))).
Notation p := (pmod r).
Notation R := (bmax (r_cfg r)).
Notation E0 := (E0 r).
Let FF := fp_ok_facts r Hf.
Let Hok : cfg_ok c. Proof. exact (ff_ok r FF). Qed.
Let F := cfg_ok_facts c Hok.
Let HB16 : 16 <= B. Proof. exact (cf_B c F). Qed.
Let HC : B + 3 <= C. Proof. exact (cf_C c F). Qed.
Let HN2 : (2 <= N)%nat. Proof. exact (cf_N c F). Qed.
Let HX : 65536 <= X.
Proof. change 65536 with (2 ^ 16). apply pow2_le. lia. Qed.
Let HXC : 4 * X <= 2 ^ (C - 1).
Proof. change 4 with (2 ^ 2). rewrite <- Z.pow_add_r by lia. apply pow2_le. lia. Qed.
Let HM : 3 * X <= Mlim c. Proof. apply Mlim_ge; lia. Qed.

Lemma MX_le : MX r <= FEXCESS r.
Proof. unfold MX. destruct (r_MODTYPE r); lia. Qed.
Lemma MX_ge : 31 <= MX r.
Proof.
  pose proof (SH_pos r Hf). unfold MX. destruct (r_MODTYPE r) eqn:Ht; try (unfold FEXCESS; lia).
  pose proof (proj2 Hf) as Hc. unfold fp_okb in Hc. rewrite Ht in Hc. rewrite !andb_true_iff in Hc.
  destruct Hc as [_ [[[[_ G2] _] _] _]]. apply Z.leb_le in G2. unfold MX in G2. rewrite Ht in G2. lia.
Qed.

Lemma modulo_ns d : special r = false -> dbig_wf c d -> V d < p * R ->
  exists x, fp_modulo r d = Some x /\ big_wf c x /\ V x < 2 * p /\ (V x * R) mod p = V d mod p.
Proof.
  intros Hs Hd Hlt. pose proof (ff_red r FF) as Hr. unfold rom_red in Hr. unfold special in Hs. unfold fp_modulo.
  destruct (r_MODTYPE r); try discriminate; [|contradiction]. destruct Hr as [_ [Hmc _]].
  pose proof (p_pos r Hf). pose proof (SHp_lt r Hf). pose proof (SH_pos r Hf).
  assert (H2 : 2 * p < R). { assert (2 * p <= 2 ^ r_SH r * p) by (apply Z.mul_le_mono_nonneg_r; lia). lia. }
  destruct (monty_spec c Hok (r_MODULUS r) d (r_MCONST r) (ff_wf r FF) Hd Hmc) as [x [q [R1 [R2 [R3 R4]]]]].
  { change (val B (r_MODULUS r)) with p. assert (2 * p * R <= R * R) by (apply Z.mul_le_mono_nonneg_r; lia). fold R. unfold bmax in *. lia. }
  change (val B (r_MODULUS r)) with p in R4. exists x. split; [exact R1|]. split; [exact R2|].
  change (2 ^ (B * Z.of_nat N)) with R in R3, R4. split.
  - assert (q * p <= R * p) by (apply Z.mul_le_mono_nonneg_r; lia). apply (Z.mul_lt_mono_pos_r R); lia.
  - rewrite R4. apply Z.mod_add. lia.
Qed.
Lemma modulo_spec d : dbig_wf c d -> V d < MX r * p * p ->
  exists x, fp_modulo r d = Some x /\ big_wf c x /\ V x < 2 * p /\ (V x * fK r) mod p = V d mod p.
Proof.
  intros Hd Hlt. pose proof (p_pos r Hf) as Hp. pose proof (SHp_lt r Hf) as HS. pose proof MX_le as HM1. pose proof MX_ge as HM2. unfold FEXCESS in HM1.
  assert (Hpp : 0 <= p * p) by (apply Z.mul_nonneg_nonneg; lia).
  assert (HMS : MX r * p * p <= 2 ^ r_SH r * p * p) by (rewrite <- !Z.mul_assoc; apply Z.mul_le_mono_nonneg_r; lia).
  destruct (special r) eqn:Hs; unfold fK; rewrite Hs.
  - assert (G : exists x, fp_modulo r d = Some x /\ big_wf c x /\ V x < 2 * p /\ V x mod p = V d mod p).
    { unfold special in Hs. destruct (r_MODTYPE r) eqn:Ht; try discriminate.
      - apply (modulo_pm r Hf d Ht Hd). lia.
      - apply (modulo_gm r Hf d Ht Hd). exact Hlt. }
    destruct G as [x [G1 [G2 [G3 G4]]]]. exists x. rewrite Z.mul_1_r. auto.
  - apply modulo_ns; [exact Hs|exact Hd|].
    assert (2 ^ r_SH r * p * p <= R * p) by (apply Z.mul_le_mono_nonneg_r; lia). lia.
Qed.

(** ** quotient estimate *)
Lemma nrm_prefix_canon l t : nrm B (l ++ [t]) -> canon B l.
Proof.
  induction l as [|x l IH]; intros H; [constructor|]. constructor.
  - cbn [app] in H. destruct l; cbn [app nrm] in H; tauto.
  - apply IH. apply (nrm_tail B x). exact H.
Qed.
Lemma top_two w sh : length w = N -> nrm B w -> 0 <= sh <= B ->
  last w 0 * 2 ^ sh + get w (N - 2) / 2 ^ (B - sh) = V w / 2 ^ (B * (Z.of_nat N - 1) - sh) /\ 0 <= get w (N - 2) < X.
Proof.
  intros Hl Hn Hsh. destruct (split_top r Hf w Hl) as [l [t [E1 [Ll [Et Vt]]]]].
  pose proof (top_get r Hf w Hl) as Eg. rewrite <- Et in Eg. rewrite <- Eg.
  assert (Hc : canon B l) by (apply (nrm_prefix_canon l t); rewrite <- E1; exact Hn).
  destruct (exists_last (l := l)) as [l' [y E2]]. { intros E. rewrite E in Ll. cbn in Ll. lia. }
  assert (Hc' : canon B l' /\ 0 <= y < X). { rewrite E2 in Hc. apply Forall_app in Hc. destruct Hc as [A1 A2]. apply Forall_cons_iff in A2. tauto. }
  destruct Hc' as [Hc' Hy].
  assert (Ll' : length l' = (N - 2)%nat). { rewrite E2, app_length in Ll. cbn [length] in Ll. lia. }
  assert (Ey : get w (N - 2) = y). { rewrite E1, E2. unfold get. rewrite <- app_assoc. rewrite app_nth2 by lia. rewrite Ll', Nat.sub_diag. reflexivity. }
  rewrite Ey. split; [|exact Hy].
  pose proof (canon_val B l' ltac:(lia) Hc') as Rl. rewrite Ll' in Rl. set (E1' := 2 ^ (B * Z.of_nat (N - 2))) in *.
  assert (HE1 : 0 < E1') by (apply pow2_pos; apply Z.mul_nonneg_nonneg; lia).
  assert (EE : E0 = E1' * X).
  { unfold FpBase.E0, E1'. rewrite <- Z.pow_add_r; [f_equal; rewrite Nat2Z.inj_sub by lia; ring|apply Z.mul_nonneg_nonneg; lia|lia]. }
  assert (Ew : V w = V l' + (y + t * X) * E1').
  { rewrite Vt, E2, val_app by lia. cbn [val]. rewrite Ll'. fold E1'. rewrite EE. ring. }
  replace (B * (Z.of_nat N - 1) - sh) with (B * Z.of_nat (N - 2) + (B - sh)) by (rewrite Nat2Z.inj_sub by lia; ring).
  rewrite Z.pow_add_r by (try apply Z.mul_nonneg_nonneg; lia). fold E1'.
  rewrite <- Z.div_div by (try apply pow2_pos; lia). rewrite Ew, Z.div_add, (Z.div_small (V l')) by lia. rewrite Z.add_0_l.
  replace (t * X) with (t * 2 ^ sh * 2 ^ (B - sh)).
  - rewrite Z.div_add by (pose proof (pow2_pos (B - sh) ltac:(lia)); lia). ring.
  - rewrite <- Z.mul_assoc, <- Z.pow_add_r by lia. do 2 f_equal. lia.
Qed.
Lemma quo_spec x : length x = N -> nrm B x -> 0 <= V x < 2 ^ (r_SH r + 1) * p ->
  exists q, fp_quo r x (r_MODULUS r) = Some q /\ 0 <= q < 2 ^ (r_SH r + 1) /\ 0 <= V x - q * p < 4 * p.
Proof.
  intros Hl Hn Hv. unfold fp_quo.
  pose proof (p_pos r Hf) as Hp. pose proof (ff_lo r FF) as Hlo. pose proof (ff_hi r FF) as Hhi. pose proof (E0_pos r Hf) as HE0. pose proof (MB_E0 r Hf) as EM.
  pose proof (ff_T1 r FF) as HT1. pose proof (ff_TS r FF) as HTS. pose proof (ff_S5 r FF) as HS5. pose proof (ff_hb r FF) as Hhb. pose proof (ff_S2 r FF) as HS2.
  pose proof (ff_hT r FF) as HhT. pose proof (ff_hB r FF) as HhB. pose proof (ff_MB r FF) as EMB.
  set (hb := C / 2) in *. set (m := r_MODULUS r) in *.
  assert (Hm : length m = N /\ nrm B m). { pose proof (ff_wf r FF) as [A1 A2]. split; [exact A1|apply canon_nrm; exact A2]. } destruct Hm as [Lm Nm].
  change (V m) with p in *.
  (* generic estimate *)
  assert (G : forall s, 0 < s -> 2 ^ (hb - 1) <= p / s ->
     let q := (V x / s) / (p / s + 1) in 0 <= q < 2 ^ (r_SH r + 1) /\ 0 <= V x - q * p < 4 * p).
  { intros s Hs Hden q. set (den := p / s) in *. set (num := V x / s) in *.
    assert (P1 : 0 < 2 ^ (hb - 1)) by (apply pow2_pos; lia).
    assert (Hq0 : 0 <= q) by (apply Z.div_pos; [apply Z.div_pos; lia|lia]).
    pose proof (Z.mul_div_le num (den + 1) ltac:(lia)) as Q1. fold q in Q1.
    pose proof (Z.mul_succ_div_gt num (den + 1) ltac:(lia)) as Q2. fold q in Q2.
    pose proof (Z.mul_div_le (V x) s Hs) as Q3. fold num in Q3. pose proof (Z.mul_succ_div_gt (V x) s Hs) as Q4. fold num in Q4.
    pose proof (Z.mul_div_le p s Hs) as Q5. fold den in Q5. pose proof (Z.mul_succ_div_gt p s Hs) as Q6. fold den in Q6.
    assert (A1 : q * p <= V x).
    { assert (q * p <= q * (s * (den + 1))) by (apply Z.mul_le_mono_nonneg_l; lia).
      assert (s * ((den + 1) * q) <= s * num) by (apply Z.mul_le_mono_nonneg_l; lia). lia. }
    assert (A2 : q < 2 ^ (r_SH r + 1)). { apply (Z.mul_lt_mono_pos_r p); lia. }
    assert (A3 : V x < (q + 1) * (p + s)).
    { assert (s * (num + 1) <= s * ((den + 1) * (q + 1))) by (apply Z.mul_le_mono_nonneg_l; lia).
      assert ((q + 1) * (s * den + s) <= (q + 1) * (p + s)) by (apply Z.mul_le_mono_nonneg_l; lia). lia. }
    assert (A4 : (q + 1) * s <= p).
    { assert ((q + 1) * s <= 2 ^ (r_SH r + 1) * s) by (apply Z.mul_le_mono_nonneg_r; lia).
      assert (2 ^ (r_SH r + 1) * s <= 2 ^ (hb - 1) * s) by (apply Z.mul_le_mono_nonneg_r; [lia|apply pow2_le; lia]).
      assert (2 ^ (hb - 1) * s <= den * s) by (apply Z.mul_le_mono_nonneg_r; lia). lia. }
    lia. }
  rewrite !(top_get r Hf) by assumption.
  destruct (Z.ltb_spec (TBITS r) hb) as [L|L].
  - set (sh := hb - TBITS r) in *.
    destruct (top_two x sh Hl Hn ltac:(lia)) as [T1 T1b]. destruct (top_two m sh Lm Nm ltac:(lia)) as [T2 T2b]. change (V m) with p in T2.
    set (s := 2 ^ (B * (Z.of_nat N - 1) - sh)) in *.
    assert (HshB : sh <= B * (Z.of_nat N - 1)). { assert (B * 1 <= B * (Z.of_nat N - 1)) by (apply Z.mul_le_mono_nonneg_l; lia). lia. }
    assert (Hs : 0 < s) by (apply pow2_pos; lia).
    assert (Es : E0 = s * 2 ^ sh). { unfold s, FpBase.E0. rewrite <- Z.pow_add_r by lia. f_equal. lia. }
    assert (EMs : 2 ^ r_MODBITS r = s * 2 ^ hb). { rewrite EM, Es. replace hb with (TBITS r + sh) by lia. rewrite Z.pow_add_r by lia. ring. }
    assert (EMs1 : 2 ^ (r_MODBITS r - 1) = s * 2 ^ (hb - 1)).
    { assert (2 * 2 ^ (r_MODBITS r - 1) = 2 * (s * 2 ^ (hb - 1))); [|lia].
      rewrite <- pow2_S by lia. replace (r_MODBITS r - 1 + 1) with (r_MODBITS r) by lia. rewrite EMs. replace hb with (hb - 1 + 1) at 1 by lia. rewrite pow2_S by lia. ring. }
    assert (Hden : 2 ^ (hb - 1) <= p / s) by (apply Z.div_le_lower_bound; lia).
    assert (Hden2 : p / s < 2 ^ hb) by (apply Z.div_lt_upper_bound; lia).
    assert (HhbC : 2 ^ hb * 2 ^ (hb - 1) = 2 ^ (C - 1)). { rewrite <- Z.pow_add_r by lia. f_equal. lia. }
    assert (P1 : 0 < 2 ^ (hb - 1)) by (apply pow2_pos; lia). assert (P2 : 0 < 2 ^ hb) by (apply pow2_pos; lia).
    assert (Hnum : 0 <= V x / s < 2 ^ (C - 1)).
    { split; [apply Z.div_pos; lia|]. apply Z.div_lt_upper_bound; [lia|].
      assert (2 ^ (r_SH r + 1) * p <= 2 ^ (hb - 1) * p) by (apply Z.mul_le_mono_nonneg_r; [lia|apply pow2_le; lia]).
      assert (2 ^ (hb - 1) * p <= 2 ^ (hb - 1) * (s * 2 ^ hb)) by (apply Z.mul_le_mono_nonneg_l; lia). lia. }
    assert (HhbC1 : 2 ^ hb <= 2 ^ (C - 2)) by (apply pow2_le; lia). assert (HC2 : 2 ^ (C - 1) = 2 * 2 ^ (C - 2)) by (rewrite <- pow2_S by lia; f_equal; lia).
    assert (P3 : 0 < 2 ^ sh) by (apply pow2_pos; lia).
    assert (Hdx : forall y, 0 <= y < X -> 0 <= y / 2 ^ (B - sh) < 2 ^ sh).
    { intros y Hy. assert (0 < 2 ^ (B - sh)) by (apply pow2_pos; lia). split; [apply Z.div_pos; lia|]. apply Z.div_lt_upper_bound; [lia|].
      rewrite <- Z.pow_add_r by lia. replace (B - sh + sh) with B by lia. lia. }
    pose proof (Hdx _ T1b) as D1. pose proof (Hdx _ T2b) as D2.
    assert (Lx0 : 0 <= last x 0). { rewrite (nrm_top r Hf x Hl Hn). apply Z.div_pos; lia. }
    assert (Lm0 : 0 <= last m 0). { rewrite (nrm_top r Hf m Lm Nm). apply Z.div_pos; [change (V m) with p; lia|lia]. }
    assert (0 <= last x 0 * 2 ^ sh) by (apply Z.mul_nonneg_nonneg; lia). assert (0 <= last m 0 * 2 ^ sh) by (apply Z.mul_nonneg_nonneg; lia).
    rewrite !Z.shiftl_mul_pow2 by lia. rewrite !wrap_id by lia. rewrite !Z.shiftr_div_pow2 by lia.
    rewrite !(lor_disjoint' _ _ sh) by lia. rewrite (Z.add_comm _ (last x 0 * _)), (Z.add_comm _ (last m 0 * _)), T1, T2.
    rewrite chk_ok by lia. cbn [bind]. destruct (Z.eqb_spec (p / s + 1) 0) as [E|_]; [lia|].
    rewrite Z.quot_div_nonneg by lia. eexists. split; [reflexivity|]. apply G; assumption.
  - rewrite (nrm_top r Hf x Hl Hn), (nrm_top r Hf m Lm Nm). change (V m) with p.
    assert (Hden : 2 ^ (hb - 1) <= p / E0).
    { apply Z.div_le_lower_bound; [lia|]. assert (2 ^ (hb - 1) <= 2 ^ (TBITS r - 1)) by (apply pow2_le; lia).
      assert (E0 * 2 ^ (hb - 1) <= E0 * 2 ^ (TBITS r - 1)) by (apply Z.mul_le_mono_nonneg_l; lia).
      assert (E0 * 2 ^ (TBITS r - 1) = 2 ^ (r_MODBITS r - 1)); [|lia].
      unfold FpBase.E0. rewrite <- Z.pow_add_r; [f_equal; lia|apply Z.mul_nonneg_nonneg; lia|lia]. }
    assert (Hden2 : p / E0 < X).
    { apply Z.div_lt_upper_bound; [lia|]. rewrite EM in Hhi. assert (E0 * 2 ^ TBITS r <= E0 * X) by (apply Z.mul_le_mono_nonneg_l; [lia|apply pow2_le; lia]). lia. }
    assert (P1 : 0 < 2 ^ (hb - 1)) by (apply pow2_pos; lia).
    rewrite chk_ok by lia. cbn [bind]. destruct (Z.eqb_spec (p / E0 + 1) 0) as [E|_]; [lia|].
    rewrite Z.quot_div_nonneg; [|apply Z.div_pos; lia|lia]. eexists. split; [reflexivity|]. apply G; assumption.
Qed.

(** ** shift-and-subtract loop *)
Lemma red_loop_spec sb : forall x m, (sb <= 4)%nat -> length x = N -> length m = N -> nrm B x -> nrm B m ->
  V m = p * 2 ^ Z.of_nat sb -> 0 <= V x < p * 2 ^ Z.of_nat sb ->
  exists y, red_loop r sb x m = Some y /\ big_wf c y /\ V y = V x mod p.
Proof.
  pose proof (p_pos r Hf) as Hp. pose proof (SHp_lt r Hf) as HS. pose proof (SH_pos r Hf) as HS2. pose proof (E0_pos r Hf) as HE0. pose proof (R_E0 r Hf) as ER.
  induction sb as [|sb IH]; intros x m Hsb Lx Lm Nx Nm Vm Hv.
  - change (2 ^ Z.of_nat 0) with 1 in Hv. exists x. split; [reflexivity|].
    assert (p < R). { assert (1 * p <= 2 ^ r_SH r * p) by (apply Z.mul_le_mono_nonneg_r; lia). lia. }
    split; [|rewrite Z.mod_small by lia; reflexivity]. split; [exact Lx|]. apply (nrm_canon B x N); [lia|exact Nx|exact Lx|]. change (2 ^ (B * Z.of_nat N)) with R. lia.
  - assert (E2 : 2 ^ Z.of_nat (S sb) = 2 * 2 ^ Z.of_nat sb) by (rewrite Nat2Z.inj_succ, Z.pow_succ_r by lia; reflexivity).
    assert (P2 : 1 <= 2 ^ Z.of_nat sb) by (pose proof (pow2_pos (Z.of_nat sb) ltac:(lia)); lia).
    assert (H16 : p * 2 ^ Z.of_nat (S sb) < R).
    { assert (p * 2 ^ Z.of_nat (S sb) <= p * 2 ^ r_SH r); [|lia]. apply Z.mul_le_mono_nonneg_l; [lia|].
      apply pow2_le. pose proof (ff_S5 r FF). lia. }
    assert (Lx' : 0 <= last x 0 <= X). { rewrite (nrm_top r Hf x Lx Nx). split; [apply Z.div_pos; lia|]. apply Z.div_le_upper_bound; lia. }
    assert (Lm' : 0 <= last m 0 <= X). { rewrite (nrm_top r Hf m Lm Nm). split; [apply Z.div_pos; lia|]. apply Z.div_le_upper_bound; lia. }
    destruct (ssn_spec c Hok x m Lx Lm Nx Nm ltac:(lia) ltac:(lia)) as [t [m1 [s [H1 [H2 [H3 [H4 [H5 [H6 [H7 H8]]]]]]]]]].
    assert (Em : V m / 2 = p * 2 ^ Z.of_nat sb). { rewrite Vm, E2. replace (p * (2 * 2 ^ Z.of_nat sb)) with (p * 2 ^ Z.of_nat sb * 2) by ring. apply Z.div_mul. lia. }
    rewrite Em in H6, H7, H8. cbn [red_loop]. rewrite H1. cbn [bind].
    set (Y := p * 2 ^ Z.of_nat sb) in *. assert (HY2 : V x < 2 * Y) by (unfold Y in *; rewrite E2 in Hv; lia).
    rewrite (cmove_spec c Hok) by (try lia; subst s; destruct (_ <? _); lia). cbn [bind].
    destruct (Z.ltb_spec (V x) Y) as [L|L]; subst s; cbn [Z.sub Z.eqb Z.add Z.opp Z.pos_sub].
    + apply IH; try assumption; try lia.
    + destruct (IH t m1) as [y [Y1 [Y2 Y3]]]; try assumption; try lia. exists y. split; [exact Y1|]. split; [exact Y2|]. rewrite Y3, H7.
      unfold Y. rewrite Z.mul_comm. replace (V x - 2 ^ Z.of_nat sb * p) with (V x + - 2 ^ Z.of_nat sb * p) by ring. apply Z.mod_add. lia.
Qed.

Lemma reduce_spec f g : length (fx f) = N -> 1 <= g -> g * X <= 2 ^ (C - 1) -> graded r g (fx f) ->
  1 <= fxes f <= 2 ^ (r_SH r + 1) -> 0 <= V (fx f) < fxes f * p ->
  exists y, fp_reduce r f = Some (mkfp y 1) /\ big_wf c y /\ V y = V (fx f) mod p.
Proof.
  intros Hl Hg HgX Hgr Hx Hv. unfold fp_reduce.
  pose proof (p_pos r Hf) as Hp. pose proof (SHp_lt r Hf) as HS. pose proof (SH_pos r Hf) as HS2. pose proof (E0_pos r Hf) as HE0. pose proof (R_E0 r Hf) as ER.
  pose proof (ff_S5 r FF) as HS5. pose proof (ff_S2 r FF) as HSS. pose proof (ff_hB r FF) as HhB.
  assert (ES : 2 ^ (r_SH r + 1) = 2 * 2 ^ r_SH r) by (apply pow2_S; lia).
  destruct (norm_graded c Hok g (fx f) Hg HgX Hgr) as [x [N1 [N2 [N3 N4]]]]. rewrite N1. cbn [bind]. rewrite <- N2 in Hv |- *. rewrite Hl in N4. clear N1 N2.
  assert (HvS : V x < 2 ^ (r_SH r + 1) * p). { assert (fxes f * p <= 2 ^ (r_SH r + 1) * p) by (apply Z.mul_le_mono_nonneg_r; lia). lia. }
  assert (Hmid : exists x' sb, (if 16 <? fxes f then
           q <- fp_quo r x (r_MODULUS r) ;;
           cr <- pmul c (r_MODULUS r) q ;;
           rr <- add_limb r (snd cr) (N - 1) (wrap C (Z.shiftl (fst cr) B)) ;;
           x1 <- sub c x rr ;;
           x2 <- norm c x1 ;;
           Some (x2, 2)
         else e <- chk 32 (fxes f - 1) ;; Some (x, logb2 (wrapu 32 e))) = Some (x', sb) /\ 0 <= sb <= 4 /\ length x' = N /\ nrm B x' /\
         0 <= V x' < p * 2 ^ sb /\ V x' mod p = V x mod p).
  { destruct (Z.ltb_spec 16 (fxes f)) as [L|L].
    - destruct (quo_spec x N4 N3 ltac:(lia)) as [q [Q1 [Q2 Q3]]]. rewrite Q1. cbn [bind].
      assert (HqX : q < X). { assert (2 ^ (r_SH r + 1) <= X) by (apply pow2_le; lia). lia. }
      destruct (pmul_spec c Hok (r_MODULUS r) q (ff_wf r FF) ltac:(lia)) as [t [rr [P1 [P2 [P3 P4]]]]]. change (V (r_MODULUS r)) with p in P4.
      rewrite P1. cbn [bind fst snd].
      pose proof (wf_range c Hok N rr P2) as Rr. change (cap c N) with R in Rr.
      assert (Ht : t <= 1). { assert (R * t < R * 2); [|apply (Z.mul_lt_mono_pos_l R) in H; lia]. lia. }
      assert (HtX : 0 <= t * X <= X). { split; [apply Z.mul_nonneg_nonneg; lia|]. assert (t * X <= 1 * X) by (apply Z.mul_le_mono_nonneg_r; lia). lia. }
      rewrite Z.shiftl_mul_pow2 by lia. rewrite wrap_id by lia. unfold add_limb.
      pose proof (canon_get B rr (N - 1) ltac:(lia) (proj2 P2)) as Gt. rewrite chk_ok by lia. cbn [bind].
      set (rr' := set_limb rr (N - 1) (get rr (N - 1) + t * X)).
      assert (Vr : V rr' = p * q).
      { unfold rr'. rewrite set_limb_val; [|lia|rewrite (proj1 P2); lia]. replace (2 ^ (B * Z.of_nat (N - 1))) with E0 by (unfold FpBase.E0; f_equal; f_equal; lia).
        rewrite ER in P4. lia. }
      assert (Lr : length rr' = N) by (unfold rr'; rewrite set_limb_length; [exact (proj1 P2)|rewrite (proj1 P2); lia]).
      assert (Wr : within 0 (2 * X - 1) rr'). { unfold rr'. apply set_limb_within; [|lia]. eapply within_weaken; [apply canon_within; exact (proj2 P2)|lia|lia]. }
      assert (Wx : within 0 (2 * X - 1) x).
      { assert (Lx : 0 <= last x 0 <= 2 * X - 1).
        { rewrite (nrm_top r Hf x N4 N3). split; [apply Z.div_pos; lia|]. assert (V x / E0 < 2 * X); [|lia]. apply Z.div_lt_upper_bound; lia. }
        destruct (split_top r Hf x N4) as [l [tt [Ex [Ll [Et _]]]]]. rewrite (top_get r Hf x N4) in Et.
        rewrite Ex. apply Forall_app. split.
        - eapply within_weaken; [apply canon_within; apply (nrm_prefix_canon l tt); rewrite <- Ex; exact N3|lia|lia].
        - constructor; [lia|constructor]. }
      destruct (sub_total c ltac:(lia) HC 0 (2 * X - 1) 0 (2 * X - 1) x rr' Wx Wr ltac:(lia) ltac:(lia) ltac:(lia)) as [x1 [S1 S2]].
      rewrite S1. cbn [bind]. destruct (sub_val c x rr' x1 S1 ltac:(lia)) as [S3 S4].
      destruct (norm_total c ltac:(lia) HC x1) as [x2 [M1 [M2 [M3 M4]]]]. { apply (within_small c _ _ _ S2); lia. }
      rewrite M1. cbn [bind]. exists x2, 2. split; [reflexivity|]. split; [lia|]. split; [lia|]. split; [exact M3|].
      change (2 ^ 2) with 4. rewrite M2, S3, Vr. split; [lia|].
      replace (V x - p * q) with (V x + (- q) * p) by ring. apply Z.mod_add. lia.
    - rewrite chk_ok by (change (2 ^ (32 - 1)) with 2147483648; lia). cbn [bind].
      rewrite wrapu_id by (change (2 ^ 32) with 4294967296; lia). rewrite logb2_spec by (change (2 ^ 32) with 4294967296; lia).
      exists x, (blen (fxes f - 1)). split; [reflexivity|].
      pose proof (blen_spec (fxes f - 1) ltac:(lia)) as [B1 [B2 _]]. pose proof (blen_le (fxes f - 1) 4 ltac:(lia) ltac:(change (2 ^ 4) with 16; lia)).
      split; [lia|]. split; [exact N4|]. split; [exact N3|]. split; [|reflexivity].
      assert (fxes f * p <= 2 ^ blen (fxes f - 1) * p) by (apply Z.mul_le_mono_nonneg_r; lia). lia. }
  destruct Hmid as [x' [sb [E [Hsb [Lx [Nx [Vx Cx]]]]]]]. rewrite E. cbn [bind fst snd].
  assert (Lmod : last (r_MODULUS r) 0 * 2 ^ sb < 2 ^ (C - 1)).
  { pose proof (ff_wf r FF) as [A1 A2]. rewrite (nrm_top r Hf _ A1 (canon_nrm _ _ A2)). change (V (r_MODULUS r)) with p.
    assert (p / E0 < 2 ^ TBITS r). { apply Z.div_lt_upper_bound; [lia|]. rewrite Z.mul_comm, <- (MB_E0 r Hf). exact (ff_hi r FF). }
    assert (p / E0 * 2 ^ sb <= 2 ^ TBITS r * 2 ^ r_SH r).
    { apply Z.mul_le_mono_nonneg; [apply Z.div_pos; lia|lia|apply Z.lt_le_incl, pow2_pos; lia|apply pow2_le; lia]. }
    pose proof (ff_T1 r FF). pose proof (ff_TS r FF). rewrite <- Z.pow_add_r in H0 by lia. assert (2 ^ (TBITS r + r_SH r) <= X) by (apply pow2_le; lia). lia. }
  destruct (fshl_spec c ltac:(lia) HC (r_MODULUS r) sb ltac:(lia)) as [m2 [M1 [M2 [M3 M4]]]].
  { rewrite (proj1 (ff_wf r FF)). lia. } { apply canon_nrm. exact (proj2 (ff_wf r FF)). }
  { split; [|exact Lmod]. apply Z.mul_nonneg_nonneg; [|apply Z.lt_le_incl, pow2_pos; lia].
    pose proof (canon_last c ltac:(lia) (r_MODULUS r) (proj2 (ff_wf r FF))). lia. }
  rewrite M1. cbn [bind]. change (V (r_MODULUS r)) with p in M2.
  destruct (red_loop_spec (Z.to_nat sb) x' m2) as [y [Y1 [Y2 Y3]]]; try assumption; try lia.
  - rewrite M4. exact (proj1 (ff_wf r FF)).
  - rewrite Z2Nat.id by lia. exact M2.
  - rewrite Z2Nat.id by lia. exact Vx.
  - rewrite Y1. cbn [bind]. exists y. split; [reflexivity|]. split; [exact Y2|]. congruence.
Qed.
End Fp.
