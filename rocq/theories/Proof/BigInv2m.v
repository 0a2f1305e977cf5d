(** Newton iteration for the inverse modulo 2^BIGBITS (Big::invmod2m), for
    configurations in which 8*MODBYTES is a power of two below the capacity. *)
From Verif Require Import Base.Word Model.Big Spec.BigSpec Spec.Bytes Proof.BigVal Proof.BigShift Proof.BigBytes Proof.BigMul Proof.BigSqr Proof.BigMod Proof.BigInv Proof.BigMisc.
From Coq Require Import Psatz Zpow_facts Znumtheory.

Lemma newton D E h u s b s1 t1 : 0 < D -> (E | D) -> s = b + D * s1 -> u * b = 1 + D * h ->
  (E | t1 + (h + u * s1) * u) -> (D * E | (u + D * t1) * s - 1).
Proof.
  intros HD [d Hd] Es Eb [k Hk].
  assert (Eu : u * s = 1 + D * (h + u * s1)) by (rewrite Es; rewrite Z.mul_add_distr_l, Eb; ring).
  (* (u + D t1) s - 1 = D*(h + u s1) + D t1 s;  t1 = kE - (h+us1)u *)
  exists (k * s - d * (h + u * s1) * (h + u * s1)).
  replace ((u + D * t1) * s - 1) with (u * s - 1 + D * (t1 * s)) by ring.
  replace (t1 * s) with (k * E * s - (h + u * s1) * (u * s)).
  - rewrite Eu. replace (D * (k * E * s - (h + u * s1) * (1 + D * (h + u * s1)))) with (D * (k * E * s) - D * (h + u * s1) - D * (d * E) * ((h + u * s1) * (h + u * s1))) by (rewrite <- Hd; ring).
    ring.
  - rewrite <- Hk. ring.
Qed.
Lemma mod_div_sub a b m n : 0 < m -> (m | n) -> a mod n = b mod n -> (m | a - b).
Proof.
  intros Hm [d Hd] E. destruct (Z.eq_dec n 0) as [->|Hn]; [rewrite !Zmod_0_r in E; subst; exists 0; ring|].
  exists (d * (a / n - b / n)). pose proof (Z.div_mod a n Hn). pose proof (Z.div_mod b n Hn). 
  replace (a - b) with (n * (a / n - b / n)) by lia. set (w := a / n - b / n). rewrite Hd. ring.
Qed.

Section WithCfg.
Variable c : cfg.
Hypothesis Hok : cfg_ok c.
Notation B := (BASEBITS c).
Notation C := (CHUNK c).
Notation N := (NLEN c).
Notation X := (2 ^ BASEBITS c).
Notation V := (val (BASEBITS c)).
Notation K := (2 ^ (BASEBITS c * Z.of_nat (NLEN c))).
Let F := cfg_ok_facts c Hok.
Let HB16 : 16 <= B. Proof. exact (cf_B c F). Qed.
Let HB : 8 <= B. Proof. lia. Qed.
Let HB0 : 0 <= B. Proof. lia. Qed.
Let HC : B + 3 <= C. Proof. exact (cf_C c F). Qed.
Let HN2 : (2 <= N)%nat. Proof. exact (cf_N c F). Qed.
Let HX : 65536 <= X.
Proof. change 65536 with (2 ^ 16). apply pow2_le. lia. Qed.
Let HXC : 4 * X <= 2 ^ (C - 1).
Proof. change 4 with (2 ^ 2). rewrite <- Z.pow_add_r by lia. apply pow2_le. lia. Qed.
Let HM : 3 * X <= Mlim c. Proof. apply Mlim_ge; assumption. Qed.
Let HBN : 0 <= B * Z.of_nat N. Proof. apply Z.mul_nonneg_nonneg; lia. Qed.

(** un-normalised sum of two well-formed numbers *)
Definition sum_wf (w : list Z) := length w = N /\ within 0 (2 * X - 2) w.

Lemma sum_norm w : sum_wf w -> V w < K -> exists r, norm c w = Some r /\ big_wf c r /\ V r = V w.
Proof.
  intros [Hl Hw] Hv. destruct (norm_total c HB HC w) as [r [N1 [N2 [N3 N4]]]].
  { apply (within_small c 0 (2 * X - 2)); [exact Hw|lia|lia]. }
  exists r. split; [exact N1|]. split; [|exact N2]. assert (Lr : length r = N) by lia. split; [exact Lr|].
  apply (nrm_canon B r N HB0 N3 Lr). rewrite N2. split; [|exact Hv].
  clear - Hw HB0. induction w as [|x w IH]; cbn [val]; [lia|]. apply Forall_cons_iff in Hw. destruct Hw as [Hx Hw].
  specialize (IH Hw). assert (0 < X) by (apply pow2_pos; lia). assert (0 <= X * V w) by (apply Z.mul_nonneg_nonneg; lia). lia.
Qed.

Lemma add_sum a b : big_wf c a -> big_wf c b -> exists s, add c a b = Some s /\ sum_wf s /\ V s = V a + V b.
Proof.
  intros Ha Hb. destruct (add_total c HB HC 0 (X - 1) 0 (X - 1) a b) as [s [A1 A2]].
  { apply canon_within; exact (proj2 Ha). } { apply canon_within; exact (proj2 Hb). }
  { rewrite (proj1 Ha), (proj1 Hb); reflexivity. } { lia. } { lia. }
  pose proof (add_val c a b s A1 ltac:(rewrite (proj1 Ha), (proj1 Hb); reflexivity)) as [A3 A4].
  exists s. split; [exact A1|]. split; [split; [rewrite A4; exact (proj1 Ha)|]|exact A3].
  eapply within_weaken; [exact A2|lia|lia].
Qed.

(** what the last round leaves: limbs below the top un-normalised sums, any top limb *)
Definition top_any (w : list Z) := exists a t, w = a ++ [t] /\ length a = (N - 1)%nat /\ within 0 (2 * X - 2) a.
Lemma sum_top w : sum_wf w -> top_any w.
Proof.
  intros [Hl Hw]. destruct (exists_last (l := w)) as [a [t Ea]]; [destruct w; [cbn in Hl; lia|discriminate]|].
  exists a, t. rewrite Ea in *. rewrite app_length in Hl. cbn in Hl. split; [reflexivity|]. split; [lia|].
  unfold within in *. apply Forall_app in Hw. apply Hw.
Qed.
Lemma within_2X l : within 0 (2 * X - 2) l -> 0 <= V l <= 2 * 2 ^ (B * Z.of_nat (length l)) - 2.
Proof.
  clear - HX HB0. induction l as [|x l IH]; intros W1.
  + cbn [val length]. change (Z.of_nat 0) with 0. rewrite Z.mul_0_r, Z.pow_0_r. lia.
  + apply Forall_cons_iff in W1. destruct W1 as [Hx W1]. specialize (IH W1). cbn [val length].
    rewrite Nat2Z.inj_succ, Z.mul_succ_r, Z.pow_add_r; [|apply Z.mul_nonneg_nonneg; lia|lia].
    set (E := 2 ^ (B * Z.of_nat (length l))) in *.
    assert (X * V l <= X * (2 * E - 2)) by (apply Z.mul_le_mono_nonneg_l; lia).
    assert (0 <= X * V l) by (apply Z.mul_nonneg_nonneg; lia). lia.
Qed.
Lemma top_bits m : B * Z.of_nat (N - 1) < m < B * Z.of_nat N -> m / B = Z.of_nat (N - 1) /\ 1 <= m mod B < B /\ m = B * Z.of_nat (N - 1) + m mod B.
Proof.
  intros Hm. assert (Q : m / B = Z.of_nat (N - 1)).
  { symmetry. apply (Z.div_unique _ _ _ (m - B * Z.of_nat (N - 1))); [|lia]. left. split; [lia|].
    replace (Z.of_nat N) with (Z.of_nat (N - 1) + 1) in Hm by lia. lia. }
  pose proof (Z.div_mod m B ltac:(lia)) as D. rewrite Q in D. pose proof (Z.mod_pos_bound m B ltac:(lia)). lia.
Qed.

(** mod2m on such a number *)
Lemma mod2m_top w m : top_any w -> B * Z.of_nat (N - 1) < m < B * Z.of_nat N ->
  exists r, mod2m c w m = Some r /\ sum_wf r /\ V r mod 2 ^ m = V w mod 2 ^ m /\ 0 <= V r < 2 * 2 ^ m.
Proof.
  intros [a [t [Ew [La Wa]]]] Hm. destruct (top_bits m Hm) as [Q [Hbt Em]]. unfold mod2m. rewrite Q, Nat2Z.id.
  assert (Lw : length w = N) by (rewrite Ew, app_length; cbn; lia).
  replace (N - 1 <? length w)%nat with true by (symmetry; apply Nat.ltb_lt; lia). set (bt := m mod B) in *.
  replace (firstn (N - 1) w) with a by (rewrite Ew, <- La, firstn_app, Nat.sub_diag, firstn_all, firstn_O, app_nil_r; reflexivity).
  replace (get w (N - 1)) with t by (unfold get; rewrite Ew, <- La, app_nth2, Nat.sub_diag by lia; reflexivity).
  replace (length w - (N - 1) - 1)%nat with 0%nat by lia. cbn [repeat].
  rewrite land_mask by lia. assert (Pbt : 0 < 2 ^ bt) by (apply pow2_pos; lia). pose proof (Z.mod_pos_bound t (2 ^ bt) Pbt) as Mt.
  assert (2 ^ bt <= X) by (apply pow2_le; lia). assert (2 <= 2 ^ bt) by (change 2 with (2 ^ 1) at 1; apply pow2_le; lia).
  eexists. split; [reflexivity|]. split.
  { split; [rewrite app_length; cbn; lia|]. unfold within in *. apply Forall_app. split; [exact Wa|]. constructor; [lia|constructor]. }
  pose proof (within_2X a Wa) as Ra. rewrite Ew, !val_app by assumption. cbn [val]. rewrite La in *. rewrite Em at 1 2 3. 
  rewrite Z.pow_add_r; [|apply Z.mul_nonneg_nonneg; lia|lia]. set (E1 := 2 ^ (B * Z.of_nat (N - 1))) in *.
  assert (PE : 0 < E1) by (apply pow2_pos; apply Z.mul_nonneg_nonneg; lia). split.
  - pose proof (Z.div_mod t (2 ^ bt) ltac:(lia)) as Dt. rewrite Dt at 2.
    replace (V a + E1 * (2 ^ bt * (t / 2 ^ bt) + t mod 2 ^ bt + X * 0)) with (V a + E1 * (t mod 2 ^ bt + X * 0) + (t / 2 ^ bt) * (E1 * 2 ^ bt)) by ring.
    rewrite Z.mod_add by (apply Z.neq_mul_0; lia). reflexivity.
  - assert (E1 * (t mod 2 ^ bt) <= E1 * (2 ^ bt - 1)) by (apply Z.mul_le_mono_nonneg_l; lia).
    assert (0 <= E1 * (t mod 2 ^ bt)) by (apply Z.mul_nonneg_nonneg; lia).
    assert (E1 * 2 <= E1 * 2 ^ bt) by (apply Z.mul_le_mono_nonneg_l; lia). lia.
Qed.

(** ** shl when the value does not fit: low limbs right, top limb only modulo 2^BASEBITS *)
Lemma top_val x a k : 0 <= k < B -> 0 <= a < 2 ^ k ->
  let t := Z.lor (wrap C (Z.shiftl x k)) a in - 2 ^ (C - 1) <= t < 2 ^ (C - 1) /\ t mod X = (x * 2 ^ k + a) mod X.
Proof.
  intros Hk Ha. cbv zeta. rewrite Z.shiftl_mul_pow2 by lia. set (y := wrap C (x * 2 ^ k)).
  assert (Pk : 0 < 2 ^ k) by (apply pow2_pos; lia).
  assert (Ry : - 2 ^ (C - 1) <= y < 2 ^ (C - 1)).
  { unfold y, wrap. assert (E : 2 ^ C = 2 * 2 ^ (C - 1)) by (replace C with (1 + (C - 1)) at 1 by lia; rewrite Z.pow_add_r by lia; reflexivity).
    pose proof (Z.mod_pos_bound (x * 2 ^ k + 2 ^ (C - 1)) (2 ^ C) ltac:(lia)). lia. }
  assert (Y0 : y mod 2 ^ k = 0) by (unfold y; rewrite wrap_mod by lia; apply Z.mod_mul; lia).
  assert (Yx : y mod X = (x * 2 ^ k) mod X) by (unfold y; apply wrap_mod; lia).
  clearbody y. pose proof (Z.div_mod y (2 ^ k) ltac:(lia)) as D. rewrite Y0, Z.add_0_r, Z.mul_comm in D. set (q := y / 2 ^ k) in *.
  rewrite D, lor_disjoint' by lia. rewrite <- D. split; [|rewrite Z.add_comm, <- Zplus_mod_idemp_l, Yx, Zplus_mod_idemp_l; reflexivity].
  assert (Ec : 2 ^ (C - 1) = 2 ^ (C - 1 - k) * 2 ^ k) by (rewrite <- Z.pow_add_r by lia; f_equal; lia). split; [lia|].
  rewrite Ec, D in *. destruct Ry as [_ Ry]. apply Z.mul_lt_mono_pos_r in Ry; [|lia].
  assert ((q + 1) * 2 ^ k <= 2 ^ (C - 1 - k) * 2 ^ k) by (apply Z.mul_le_mono_nonneg_r; lia). lia.
Qed.

Lemma shl_limbs_tr : forall w k prev, 0 <= k < B -> canon B w -> w <> [] -> 0 <= prev < X ->
  exists a t, shl_limbs c k prev w = a ++ [t] /\ S (length a) = length w /\ within 0 (X - 1) a /\ - 2 ^ (C - 1) <= t < 2 ^ (C - 1)
    /\ V (a ++ [t]) mod 2 ^ (B * Z.of_nat (length w)) = (V w * 2 ^ k + prev / 2 ^ (B - k)) mod 2 ^ (B * Z.of_nat (length w)).
Proof.
  induction w as [|x [|y w] IH]; intros k prev Hk Hc Hne Hp; [congruence| |].
  - assert (Pk : 0 < 2 ^ k) by (apply pow2_pos; lia). assert (PB : 0 < 2 ^ (B - k)) by (apply pow2_pos; lia).
    assert (EB : X = 2 ^ (B - k) * 2 ^ k) by (rewrite <- Z.pow_add_r by lia; f_equal; lia).
    assert (Hq : 0 <= prev / 2 ^ (B - k) < 2 ^ k).
    { split; [apply Z.div_pos; lia|]. apply Z.div_lt_upper_bound; lia. }
    destruct (top_val x (prev / 2 ^ (B - k)) k Hk Hq) as [T1 T2]. cbn [shl_limbs]. rewrite (Z.shiftr_div_pow2 prev) by lia.
    exists [], (Z.lor (wrap C (Z.shiftl x k)) (prev / 2 ^ (B - k))). split; [reflexivity|]. split; [reflexivity|]. split; [constructor|]. split; [exact T1|].
    cbn [app val length]. change (Z.of_nat 1) with 1. rewrite !Z.mul_1_r, !Z.mul_0_r, !Z.add_0_r. exact T2.
  - apply Forall_cons_iff in Hc. destruct Hc as [Hx Hc]. destruct (IH k x Hk Hc ltac:(discriminate) Hx) as [a [t [S1 [S2 [S3 [S4 S5]]]]]].
    change (shl_limbs c k prev (x :: y :: w)) with
      (Z.lor (Z.land (wrap C (Z.shiftl x k)) (BMASK c)) (Z.shiftr prev (B - k)) :: shl_limbs c k x (y :: w)).
    assert (Pk : 0 < 2 ^ k) by (apply pow2_pos; lia). assert (PB : 0 < 2 ^ (B - k)) by (apply pow2_pos; lia).
    assert (EB : X = 2 ^ (B - k) * 2 ^ k) by (rewrite <- Z.pow_add_r by lia; f_equal; lia).
    assert (Hq : 0 <= prev / 2 ^ (B - k) < 2 ^ k).
    { split; [apply Z.div_pos; lia|]. apply Z.div_lt_upper_bound; lia. }
    rewrite (wrap_bmask c HB HC), Z.shiftl_mul_pow2, Z.shiftr_div_pow2 by lia.
    assert (E1 : (x * 2 ^ k) mod X = (x mod 2 ^ (B - k)) * 2 ^ k) by (rewrite EB; apply Z.mul_mod_distr_r; lia).
    rewrite E1, lor_disjoint' by lia. rewrite S1. set (pv := prev / 2 ^ (B - k)) in *.
    assert (Hr : 0 <= x mod 2 ^ (B - k) < 2 ^ (B - k)) by (apply Z.mod_pos_bound; lia).
    pose proof (Z.div_mod x (2 ^ (B - k)) ltac:(lia)) as D. set (q := x / 2 ^ (B - k)) in *. set (s := x mod 2 ^ (B - k)) in *.
    exists ((pv + s * 2 ^ k) :: a), t. split; [reflexivity|]. split; [cbn [length] in *; lia|]. split.
    { constructor; [|exact S3]. assert (0 <= s * 2 ^ k) by (apply Z.mul_nonneg_nonneg; lia).
      assert ((s + 1) * 2 ^ k <= 2 ^ (B - k) * 2 ^ k) by (apply Z.mul_le_mono_nonneg_r; lia). lia. }
    split; [exact S4|]. change (((pv + s * 2 ^ k) :: a) ++ [t]) with ((pv + s * 2 ^ k) :: (a ++ [t])).
    change (val B (?h :: (a ++ [t]))) with (h + X * V (a ++ [t])). change (val B (x :: y :: w)) with (x + X * V (y :: w)).
    change (length (x :: y :: w)) with (S (length (y :: w))). set (L := length (y :: w)) in *. 
    replace (2 ^ (B * Z.of_nat (S L))) with (X * 2 ^ (B * Z.of_nat L)) by (rewrite <- Z.pow_add_r; [f_equal; lia|lia|apply Z.mul_nonneg_nonneg; lia]).
    set (E := 2 ^ (B * Z.of_nat L)) in *. assert (PE : 0 < E) by (apply pow2_pos; apply Z.mul_nonneg_nonneg; lia).
    assert (PX : 0 < X) by lia. set (v := V (a ++ [t])) in *. set (u := V (y :: w)) in *.
    pose proof (Z.div_mod v E ltac:(lia)) as Dv. pose proof (Z.div_mod (u * 2 ^ k + q) E ltac:(lia)) as Du. rewrite S5 in Dv. set (g := (u * 2 ^ k + q) mod E) in *.
    rewrite Dv. replace (pv + s * 2 ^ k + X * (E * (v / E) + g)) with (pv + s * 2 ^ k + X * g + (v / E) * (X * E)) by ring.
    rewrite Z.mod_add by (apply Z.neq_mul_0; lia).
    replace ((x + X * u) * 2 ^ k + pv) with (pv + s * 2 ^ k + X * g + ((u * 2 ^ k + q) / E) * (X * E)).
    + rewrite Z.mod_add by (apply Z.neq_mul_0; lia). reflexivity.
    + replace (((u * 2 ^ k + q) / E) * (X * E)) with (X * (E * ((u * 2 ^ k + q) / E))) by ring.
      replace (E * ((u * 2 ^ k + q) / E)) with (u * 2 ^ k + q - g) by lia. rewrite D, EB. ring.
Qed.

Lemma shl_trunc w k : big_wf c w -> 0 <= k < B * Z.of_nat N ->
  exists a t, shl c w k = Some (a ++ [t]) /\ length a = (N - 1)%nat /\ within 0 (X - 1) a /\ - 2 ^ (C - 1) <= t < 2 ^ (C - 1)
    /\ (B * Z.of_nat (N - 1) <= k -> 0 <= t < X) /\ V (a ++ [t]) mod K = (V w * 2 ^ k) mod K.
Proof.
  intros [Lw Cw] Hk. unfold shl. set (m := Z.to_nat (k / B)). assert (Hq : 0 <= k / B) by (apply Z.div_pos; lia).
  assert (Hm : Z.of_nat m = k / B) by (unfold m; rewrite Z2Nat.id by lia; reflexivity).
  assert (HmL : (m < N)%nat) by (assert (k / B < Z.of_nat N) by (apply Z.div_lt_upper_bound; lia); lia).
  rewrite Lw. replace (m <? N)%nat with true by (symmetry; apply Nat.ltb_lt; exact HmL).
  pose proof (Z.mod_pos_bound k B ltac:(lia)) as Hn. pose proof (Z.div_mod k B ltac:(lia)) as Dk. rewrite <- Hm in Dk. set (n := k mod B) in *.
  set (w0 := firstn (N - m) w). assert (L0 : length w0 = (N - m)%nat) by (unfold w0; rewrite firstn_length; lia).
  assert (C0 : canon B w0) by (apply (canon_firstn c); exact Cw).
  assert (Ew : V w = V w0 + 2 ^ (B * Z.of_nat (N - m)) * V (skipn (N - m) w)).
  { unfold w0. rewrite <- (firstn_skipn (N - m) w) at 1. rewrite val_app, firstn_length by assumption. rewrite Nat.min_l by lia. reflexivity. }
  set (Q := V (skipn (N - m) w)) in *. clearbody Q. set (Em := 2 ^ (B * Z.of_nat m)). set (Er := 2 ^ (B * Z.of_nat (N - m))) in *.
  assert (PEm : 0 < Em) by (apply pow2_pos; apply Z.mul_nonneg_nonneg; lia). assert (PEr : 0 < Er) by (apply pow2_pos; apply Z.mul_nonneg_nonneg; lia).
  assert (EK : K = Em * Er). { unfold Em, Er. rewrite <- Z.pow_add_r; [f_equal; lia| |]; apply Z.mul_nonneg_nonneg; lia. }
  assert (Ekk : 2 ^ k = Em * 2 ^ n). { rewrite Dk. unfold Em. apply Z.pow_add_r; [apply Z.mul_nonneg_nonneg; lia|lia]. }
  assert (Pn : 0 < 2 ^ n) by (apply pow2_pos; lia).
  assert (Fin : forall l, V l mod Er = (V w0 * 2 ^ n) mod Er -> V (repeat 0 m ++ l) mod K = (V w * 2 ^ k) mod K).
  { intros l El. rewrite val_app by assumption. rewrite repeat_length, val_repeat0, Z.add_0_l. fold Em. rewrite EK, Ekk, Ew.
    replace ((V w0 + Er * Q) * (Em * 2 ^ n)) with (Em * (V w0 * 2 ^ n) + (Q * 2 ^ n) * (Em * Er)) by ring.
    rewrite Z.mod_add by (apply Z.neq_mul_0; lia). rewrite !Z.mul_mod_distr_l by lia. rewrite El. reflexivity. }
  assert (Wr : within 0 (X - 1) (repeat 0 m)) by (apply Forall_forall; intros z Hz; apply repeat_spec in Hz; lia).
  destruct w0 as [|x [|y w']]; [cbn in L0; lia| |].
  - cbn [length] in L0. exists (repeat 0 m), ((x * 2 ^ n) mod X). cbn [shl_all shl_limbs]. rewrite (wrap_bmask c HB HC), Z.shiftl_mul_pow2 by lia.
    split; [reflexivity|]. split; [rewrite repeat_length; lia|]. split; [exact Wr|]. pose proof (Z.mod_pos_bound (x * 2 ^ n) X ltac:(lia)). split; [lia|]. split; [auto|].
    apply Fin. cbn [val]. rewrite !Z.mul_0_r, !Z.add_0_r. unfold Er. rewrite <- L0. change (Z.of_nat 1) with 1. rewrite Z.mul_1_r. apply Z.mod_mod. lia.
  - apply Forall_cons_iff in C0. destruct C0 as [Hx C0]. destruct (shl_limbs_tr (y :: w') n x Hn C0 ltac:(discriminate) Hx) as [a [t [S1 [S2 [S3 [S4 S5]]]]]].
    cbn [shl_all]. rewrite S1. rewrite (wrap_bmask c HB HC), Z.shiftl_mul_pow2 by lia.
    exists (repeat 0 m ++ (x * 2 ^ n) mod X :: a), t. rewrite <- app_assoc. split; [reflexivity|]. cbn [length] in L0, S2.
    split; [rewrite app_length, repeat_length; cbn [length]; lia|]. split.
    { apply Forall_app. split; [exact Wr|]. constructor; [|exact S3]. pose proof (Z.mod_pos_bound (x * 2 ^ n) X ltac:(lia)). lia. }
    split; [exact S4|]. split.
    { intros Hbig. exfalso. assert (B * (Z.of_nat m + 1) <= B * Z.of_nat (N - 1)) by (apply Z.mul_le_mono_nonneg_l; lia). lia. }
    apply Fin. cbn [app]. change (val B (?h :: (a ++ [t]))) with (h + X * V (a ++ [t])). change (val B (x :: y :: w')) with (x + X * V (y :: w')).
    assert (EE : Er = X * 2 ^ (B * Z.of_nat (length (y :: w')))).
    { unfold Er. rewrite <- L0. cbn [length]. rewrite <- Z.pow_add_r; [f_equal; lia|lia|apply Z.mul_nonneg_nonneg; lia]. }
    rewrite EE. set (E := 2 ^ (B * Z.of_nat (length (y :: w')))) in *. assert (PE : 0 < E) by (apply pow2_pos; apply Z.mul_nonneg_nonneg; lia).
    assert (Ex : x * 2 ^ n / X = x / 2 ^ (B - n)).
    { replace X with (2 ^ (B - n) * 2 ^ n) by (rewrite <- Z.pow_add_r by lia; f_equal; lia). apply Z.div_mul_cancel_r; [|lia]. pose proof (pow2_pos (B - n) ltac:(lia)). lia. }
    pose proof (Z.div_mod (x * 2 ^ n) X ltac:(lia)) as Dx. rewrite Ex in Dx. set (v := V (a ++ [t])) in *. set (u := V (y :: w')) in *. set (q := x / 2 ^ (B - n)) in *. set (s := (x * 2 ^ n) mod X) in *.
    pose proof (Z.div_mod v E ltac:(lia)) as Dv. pose proof (Z.div_mod (u * 2 ^ n + q) E ltac:(lia)) as Du. rewrite S5 in Dv. set (g := (u * 2 ^ n + q) mod E) in *.
    rewrite Dv. replace (s + X * (E * (v / E) + g)) with (s + X * g + (v / E) * (X * E)) by ring. rewrite Z.mod_add by (apply Z.neq_mul_0; lia).
    replace ((x + X * u) * 2 ^ n) with (s + X * g + ((u * 2 ^ n + q) / E) * (X * E)); [rewrite Z.mod_add by (apply Z.neq_mul_0; lia); reflexivity|].
    replace (((u * 2 ^ n + q) / E) * (X * E)) with (X * (E * ((u * 2 ^ n + q) / E))) by ring.
    replace (E * ((u * 2 ^ n + q) / E)) with (u * 2 ^ n + q - g) by lia. replace ((x + X * u) * 2 ^ n) with (x * 2 ^ n + X * (u * 2 ^ n)) by ring. rewrite Dx. ring.
Qed.

Lemma one_wf' : big_wf c (big_one c) /\ V (big_one c) = 1.
Proof.
  unfold big_one. split; [split|].
  - cbn [length]. rewrite repeat_length. lia.
  - constructor; [lia|apply canon_repeat0; assumption].
  - cbn [val]. rewrite val_repeat0. lia.
Qed.

Lemma divmod_K x i : 0 <= i <= B * Z.of_nat N -> (x mod K) / 2 ^ i = (x / 2 ^ i) mod 2 ^ (B * Z.of_nat N - i).
Proof.
  intros H. rewrite <- !Z.shiftr_div_pow2 by lia. apply shiftr_mod. lia.
Qed.
Lemma modmod x i j : 0 <= i <= j -> (x mod 2 ^ j) mod 2 ^ i = x mod 2 ^ i.
Proof.
  intros H. symmetry. apply Znumtheory.Zmod_div_mod; [apply pow2_pos; lia|apply pow2_pos; lia|].
  exists (2 ^ (j - i)). rewrite <- Z.pow_add_r by lia. f_equal. lia.
Qed.

(** one round up to the final shift and addition *)
Lemma inv_round self f u i : big_wf c self -> 8 <= i < 8 * MODBYTES c -> 8 * MODBYTES c < B * Z.of_nat N ->
  sum_wf u -> V u < 2 ^ (i + 1) -> (V u * V self) mod 2 ^ i = 1 ->
  exists u1 z, invmod2m_loop (S f) c self u i = (t1 <- shl c z i ;; u <- add c u1 t1 ;; invmod2m_loop f c self u (2 * i))
    /\ big_wf c u1 /\ V u1 = V u /\ big_wf c z /\ 0 <= V z <= 2 ^ i /\ (2 ^ Z.min (2 * i) (8 * MODBYTES c) | (V u1 + 2 ^ i * V z) * V self - 1).
Proof.
  intros Ws Hi Hcap Wu Vu Hinv. cbn [invmod2m_loop]. unfold BIGBITS.
    replace (MODBYTES c * 8 <=? i) with false by (symmetry; apply Z.leb_gt; lia).
    set (D := 2 ^ i) in *. assert (PD : 0 < D) by (apply pow2_pos; lia).
    assert (HD2 : 2 ^ (i + 1) = 2 * D) by (unfold D; rewrite Z.pow_add_r by lia; change (2 ^ 1) with 2; ring).
    set (e := Z.min i (8 * MODBYTES c - i)). set (E := 2 ^ e). assert (PE : 0 < E) by (apply pow2_pos; lia).
    assert (HDE : 2 ^ Z.min (2 * i) (8 * MODBYTES c) = D * E) by (unfold D, E; rewrite <- Z.pow_add_r by lia; f_equal; lia).
    assert (ED : (E | D)) by (exists (2 ^ (i - e)); unfold D, E; rewrite <- Z.pow_add_r by lia; f_equal; lia).
    assert (HD256 : 256 <= D) by (change 256 with (2 ^ 8); apply pow2_le; lia).
    assert (HKD : 4 * D <= K).
    { change 4 with (2 ^ 2). unfold D. rewrite <- Z.pow_add_r by lia. apply pow2_le. lia. }
    destruct (sum_norm u Wu ltac:(lia)) as [u1 [U1 [U2 U3]]]. rewrite U1. cbn [bind].
    rewrite <- U3 in Vu, Hinv. exists u1. clear U1 Wu. rename u into u00. rename u1 into u. rename U2 into Wu.
    pose proof (brange c Hok u Wu) as Ru. pose proof (brange c Hok self Ws) as Rs.
    assert (Hlen : forall w, big_wf c w -> length w = N) by (intros w [Hw _]; exact Hw).
    assert (Hi' : 0 <= i < B * Z.of_nat N) by lia.
    destruct (mod2m_spec c HB HC self i ltac:(rewrite (Hlen self Ws); exact Hi') (proj2 Ws)) as [b [B1 [B2 [B3 B4]]]].
    rewrite B1. cbn [bind]. assert (Wb : big_wf c b) by (split; [rewrite B4; apply Hlen; exact Ws|exact B3]).
    fold D in B2.
    destruct (smul_spec c Hok u b Wu Wb) as [t1 [T1 [T2 T3]]]. rewrite T1. cbn [bind].
    destruct (shr_spec c HB HC t1 i ltac:(rewrite (Hlen t1 T2); exact Hi') (proj2 T2)) as [t1' [T4 [T5 [T6 T7]]]].
    rewrite T4. cbn [bind]. assert (Wt1 : big_wf c t1') by (split; [rewrite T7; apply Hlen; exact T2|exact T6]).
    fold D in T5.
    destruct (shr_spec c HB HC self i ltac:(rewrite (Hlen self Ws); exact Hi') (proj2 Ws)) as [cc [C1 [C2 [C3 C4]]]].
    rewrite C1. cbn [bind]. assert (Wcc : big_wf c cc) by (split; [rewrite C4; apply Hlen; exact Ws|exact C3]).
    fold D in C2.
    destruct (mod2m_spec c HB HC cc i ltac:(rewrite (Hlen cc Wcc); exact Hi') (proj2 Wcc)) as [cd [E1 [E2 [E3 E4]]]].
    rewrite E1. cbn [bind]. assert (Wcd : big_wf c cd) by (split; [rewrite E4; apply Hlen; exact Wcc|exact E3]).
    fold D in E2.
    destruct (smul_spec c Hok u cd Wu Wcd) as [t2 [S1 [S2 S3]]]. rewrite S1. cbn [bind].
    destruct (mod2m_spec c HB HC t2 i ltac:(rewrite (Hlen t2 S2); exact Hi') (proj2 S2)) as [t2' [G1 [G2 [G3 G4]]]].
    rewrite G1. cbn [bind]. assert (Wt2 : big_wf c t2') by (split; [rewrite G4; apply Hlen; exact S2|exact G3]).
    fold D in G2.
    destruct (add_sum t1' t2' Wt1 Wt2) as [s [A1 [A2 A3]]]. rewrite A1. cbn [bind].
    unfold bmax in *.
    (* arithmetic facts *)
    assert (DKM : forall x, (x mod K / D) mod E = (x / D) mod E).
    { intros x. unfold D, E. rewrite divmod_K by lia. apply modmod. lia. }
    assert (MKM : forall x, (x mod K) mod D = x mod D).
    { intros x. unfold D. apply modmod. lia. }
    set (h := (V u * V b) / D). set (s1 := V self / D).
    assert (Vb : V b = V self mod D) by exact B2.
    assert (Rb : 0 <= V b < D) by (rewrite Vb; apply Z.mod_pos_bound; exact PD).
    assert (Ub : (V u * V b) mod D = 1) by (rewrite Vb, Z.mul_mod_idemp_r by lia; exact Hinv).
    assert (Eb : V u * V b = 1 + D * h).
    { unfold h. rewrite (Z.div_mod (V u * V b) D) at 1 by lia. rewrite Ub. ring. }
    assert (Es : V self = V b + D * s1).
    { rewrite Vb. unfold s1. rewrite (Z.div_mod (V self) D) at 1 by lia. ring. }
    assert (Vt1 : V t1' mod E = h mod E).
    { rewrite T5, T3. apply DKM. }
    assert (Vt2 : V t2' = (V u * s1) mod D).
    { rewrite G2, S3, E2, C2. fold s1. rewrite MKM. rewrite Z.mul_mod_idemp_r by lia. reflexivity. }
    assert (Rt1 : V t1' < K / D).
    { rewrite T5, T3. apply Z.div_lt_upper_bound; [exact PD|]. assert (EKD : D * (K / D) = K).
      { pose proof (Z.div_mod K D ltac:(lia)) as DK. assert (K mod D = 0).
        { apply Z.mod_divide; [lia|]. exists (2 ^ (B * Z.of_nat N - i)). unfold D. rewrite <- Z.pow_add_r by lia. f_equal. lia. } lia. }
      rewrite EKD. apply Z.mod_pos_bound. lia. }
    assert (K / D <= K / 256) by (apply Z.div_le_compat_l; lia).
    assert (256 * (K / 256) <= K) by (apply Z.mul_div_le; lia).
    assert (Rt2 : 0 <= V t2' < D) by (rewrite Vt2; apply Z.mod_pos_bound; exact PD).
    pose proof (brange c Hok t1' Wt1) as Rt1'.
    destruct (sum_norm s A2) as [s' [N1 [N2 N3]]]; [rewrite A3; lia|]. rewrite N1. cbn [bind].
    destruct (smul_spec c Hok s' u N2 Wu) as [p [P1 [P2 P3]]]. rewrite P1. cbn [bind].
    destruct (mod2m_spec c HB HC p i ltac:(rewrite (Hlen p P2); exact Hi') (proj2 P2)) as [q [Q1 [Q2 [Q3 Q4]]]].
    rewrite Q1. cbn [bind]. assert (Wq : big_wf c q) by (split; [rewrite Q4; apply Hlen; exact P2|exact Q3]).
    fold D in Q2. unfold bmax in P3.
    destruct one_wf' as [O1 O2].
    destruct (shl_spec c HB HC (big_one c) i ltac:(lia) (proj2 O1)) as [o [L1 [L2 [L3 L4]]]].
    { rewrite (Hlen _ O1). exact HN2. } { rewrite (Hlen _ O1). lia. }
    { rewrite (Hlen _ O1), O2. fold D. lia. }
    rewrite L1. cbn [bind]. assert (Wo : big_wf c o) by (split; [rewrite L4; apply Hlen; exact O1|exact L3]).
    rewrite O2, Z.mul_1_l in L2. fold D in L2.
    assert (Vq : V q = (V s' * V u) mod D).
    { rewrite Q2, P3. apply MKM. }
    assert (Rq : 0 <= V q < D) by (rewrite Vq; apply Z.mod_pos_bound; exact PD).
    destruct (sub_wf c Hok o q Wo Wq ltac:(lia)) as [z0 [z [Z1 [Z2 [Z3 Z4]]]]].
    assert (RS : rsub c q o = Some z0).
    { assert (EQ : forall a b, rsub c a b = sub c b a).
      { unfold rsub, sub. induction a as [|x a IHa]; intros [|y b']; try reflexivity. cbn [map2o].
        rewrite (IHa b'). reflexivity. }
      rewrite EQ. exact Z1. }
    rewrite RS. cbn [bind]. rewrite Z2. cbn [bind].
    assert (Rz : V z = D - V q) by lia.
    exists z. split; [reflexivity|]. split; [exact Wu|]. split; [exact U3|]. split; [exact Z3|]. split; [lia|]. rewrite HDE.
    apply (newton D E h (V u) (V self) (V b) s1 (V z) PD ED Es Eb). rewrite Rz.
    assert (Q1' : (E | V q - V s' * V u)).
    { apply (mod_div_sub _ _ E D PE ED). rewrite Vq. apply Z.mod_mod. lia. }
    assert (Q2' : (E | V t1' - h)) by (apply (mod_div_sub _ _ E E PE (Z.divide_refl E) Vt1)).
    assert (Q3' : (E | V t2' - V u * s1)).
    { apply (mod_div_sub _ _ E D PE ED). rewrite Vt2. apply Z.mod_mod. lia. }
    rewrite N3, A3 in Q1'. destruct Q1' as [k1 H1], Q2' as [k2 H2], Q3' as [k3 H3], ED as [d Hd].
    exists (d - k1 - k2 * V u - k3 * V u). replace ((d - k1 - k2 * V u - k3 * V u) * E) with (d * E - k1 * E - (k2 * E) * V u - (k3 * E) * V u) by ring.
    rewrite <- H1, <- H2, <- H3, <- Hd. ring.
Qed.

Lemma invmod2m_loop_spec self : big_wf c self -> 8 * MODBYTES c < B * Z.of_nat N -> B * Z.of_nat (N - 1) < 8 * MODBYTES c -> forall fuel u i,
  8 <= i -> 8 * MODBYTES c < i * 2 ^ Z.of_nat fuel -> 
  sum_wf u -> V u < 2 ^ (i + 1) -> (V u * V self) mod 2 ^ i = 1 ->
  exists r, invmod2m_loop fuel c self u i = Some r /\ top_any r /\ (V r * V self) mod 2 ^ (8 * MODBYTES c) = 1.
Proof.
  intros Ws Hcap Htop. assert (HM1 : 1 <= MODBYTES c) by apply (cf_M c F). set (MM := 8 * MODBYTES c) in *.
  assert (PM : 0 < 2 ^ MM) by (apply pow2_pos; lia). assert (PM1 : 1 < 2 ^ MM) by (change 1 with (2 ^ 0); apply Z.pow_lt_mono_r; lia).
  assert (Done : forall u i, MM <= i -> (V u * V self) mod 2 ^ i = 1 -> (V u * V self) mod 2 ^ MM = 1).
  { intros u i Hi E. rewrite <- (modmod _ MM i) by lia. rewrite E. apply Z.mod_small. lia. }
  induction fuel as [|f IH]; intros u i Hi Hf Wu Vu Hinv.
  { change (Z.of_nat 0) with 0 in Hf. rewrite Z.pow_0_r, Z.mul_1_r in Hf. cbn [invmod2m_loop]. unfold BIGBITS.
    replace (MODBYTES c * 8 <=? i) with true by (symmetry; apply Z.leb_le; lia). exists u. split; [reflexivity|]. split; [apply sum_top; exact Wu|]. apply (Done u i); [lia|exact Hinv]. }
  destruct (Z.le_gt_cases MM i) as [Hge|Hlt].
  { cbn [invmod2m_loop]. unfold BIGBITS. replace (MODBYTES c * 8 <=? i) with true by (symmetry; apply Z.leb_le; lia).
    exists u. split; [reflexivity|]. split; [apply sum_top; exact Wu|]. apply (Done u i); [lia|exact Hinv]. }
  destruct (inv_round self f u i Ws ltac:(lia) Hcap Wu Vu Hinv) as [u1 [z [E1 [W1 [V1 [Wz [Rz Dv]]]]]]]. rewrite E1. clear E1.
  pose proof (brange c Hok u1 W1) as Ru1. rewrite <- V1 in Vu. clear V1 Hinv Wu u.
  assert (PD : 0 < 2 ^ i) by (apply pow2_pos; lia). assert (EDD : 2 ^ (2 * i) = 2 ^ i * 2 ^ i) by (rewrite <- Z.pow_add_r by lia; f_equal; lia).
  assert (E2 : 2 ^ (i + 1) = 2 * 2 ^ i) by (rewrite Z.pow_add_r by lia; lia). assert (D256 : 256 <= 2 ^ i) by (change 256 with (2 ^ 8); apply pow2_le; lia).
  assert (DDle : 256 * 2 ^ i <= 2 ^ i * 2 ^ i) by (apply Z.mul_le_mono_nonneg_r; lia).
  assert (Hf2 : 8 * MODBYTES c < 2 * i * 2 ^ Z.of_nat f). { rewrite Nat2Z.inj_succ, Z.pow_succ_r in Hf by lia. fold MM. lia. }
  destruct (Z.lt_ge_cases (2 * i) MM) as [Hs|Hb].
  - assert (Hzz : V z * 2 ^ i <= 2 ^ i * 2 ^ i) by (apply Z.mul_le_mono_nonneg_r; lia).
    assert (HK : 2 ^ (2 * i) < K) by (apply Z.pow_lt_mono_r; lia).
    destruct (shl_spec c HB HC z i ltac:(lia) (proj2 Wz)) as [y [Y1 [Y2 [Y3 Y4]]]].
    { rewrite (proj1 Wz). exact HN2. } { rewrite (proj1 Wz). lia. } { rewrite (proj1 Wz). lia. }
    rewrite Y1. cbn [bind]. assert (Wy : big_wf c y) by (split; [rewrite Y4; apply Wz|exact Y3]).
    destruct (add_sum u1 y W1 Wy) as [u' [K1 [K2 K3]]]. rewrite K1. cbn [bind]. apply (IH u' (2 * i)); try assumption; try lia.
    + rewrite K3, Y2. rewrite Z.pow_add_r by lia. rewrite EDD. change (2 ^ 1) with 2. lia.
    + rewrite K3, Y2, (Z.mul_comm (V z)). rewrite Z.min_l in Dv by lia. destruct Dv as [k Hk].
      replace ((V u1 + 2 ^ i * V z) * V self) with (1 + k * 2 ^ (2 * i)) by lia. rewrite Z.mod_add by lia. apply Z.mod_small. lia.
  - destruct (shl_trunc z i Wz ltac:(lia)) as [a [t [S1 [S2 [S3 [S4 [S5 S6]]]]]]]. rewrite S1. cbn [bind].
    destruct (exists_last (l := u1)) as [ua [ut Eu]]; [destruct W1 as [L _]; destruct u1; [cbn in L; lia|discriminate]|].
    destruct W1 as [Lu Cu]. rewrite Eu in Lu, Cu. rewrite app_length in Lu. cbn [length] in Lu. unfold canon in Cu. apply Forall_app in Cu. destruct Cu as [Cua Cut].
    apply Forall_cons_iff in Cut. destruct Cut as [Rut _].
    assert (Hut : B * Z.of_nat (N - 1) <= i \/ ut = 0).
    { destruct (Z.le_gt_cases (B * Z.of_nat (N - 1)) i) as [Q|Q]; [left; exact Q|right].
      rewrite Eu, val_app in Vu, Ru1 by assumption. cbn [val] in Vu, Ru1. rewrite Z.mul_0_r, Z.add_0_r in Vu, Ru1. replace (length ua) with (N - 1)%nat in * by lia.
      pose proof (canon_val B ua HB0 Cua) as Rua. set (E := 2 ^ (B * Z.of_nat (N - 1))) in *. assert (2 ^ (i + 1) <= E) by (apply pow2_le; lia).
      destruct (Z.eq_dec ut 0) as [|Hn]; [assumption|exfalso]. assert (E * 1 <= E * ut) by (apply Z.mul_le_mono_nonneg_l; lia). lia. }
    assert (Hsum : - 2 ^ (C - 1) <= ut + t < 2 ^ (C - 1)).
    { destruct Hut as [Q| ->]; [|lia]. specialize (S5 Q). lia. }
    assert (AD : exists r, add c u1 (a ++ [t]) = Some r /\ top_any r /\ V r = V u1 + V (a ++ [t])).
    { destruct (add_total c HB HC 0 (X - 1) 0 (X - 1) ua a) as [s [A1 A2]].
      { apply canon_within; exact Cua. } { exact S3. } { lia. } { lia. } { lia. }
      assert (A3 : add c u1 (a ++ [t]) = Some (s ++ [ut + t])).
      { rewrite Eu. clear - A1 Hsum S2 Lu. assert (L : length ua = length a) by lia. clear S2 Lu. unfold add in *. revert a s A1 L. induction ua as [|x ua IHu]; intros [|y a] s A1 L; try discriminate.
        - cbn in A1. injection A1 as <-. cbn [app map2o]. rewrite chk_ok by lia. reflexivity.
        - cbn [app map2o] in *. destruct (chk C (x + y)) as [v|]; [|discriminate]. cbn [bind] in *.
          destruct (map2o _ ua a) as [s'|] eqn:E; [|discriminate]. cbn [bind] in A1. injection A1 as <-. rewrite (IHu a s' E) by (cbn in L; lia). reflexivity. }
      pose proof (add_val c ua a s A1 ltac:(lia)) as [A4 A5]. exists (s ++ [ut + t]). split; [exact A3|]. split.
      - exists s, (ut + t). split; [reflexivity|]. split; [lia|]. eapply within_weaken; [exact A2|lia|lia].
      - rewrite Eu, !val_app by assumption. cbn [val]. rewrite A4, A5, S2. replace (length ua) with (N - 1)%nat by lia. ring. }
    destruct AD as [r [A1 [A2 A3]]]. rewrite A1. cbn [bind].
    assert (Eend : invmod2m_loop f c self r (2 * i) = Some r).
    { destruct f; cbn [invmod2m_loop]; unfold BIGBITS; replace (MODBYTES c * 8 <=? 2 * i) with true by (symmetry; apply Z.leb_le; lia); reflexivity. }
    exists r. split; [exact Eend|]. split; [exact A2|]. rewrite A3.
    assert (Eq : (V u1 + V (a ++ [t])) mod 2 ^ MM = (V u1 + 2 ^ i * V z) mod 2 ^ MM).
    { rewrite <- (Zplus_mod_idemp_r (V (a ++ [t]))), <- (modmod (V (a ++ [t])) MM (B * Z.of_nat N)), S6, modmod by lia. rewrite Zplus_mod_idemp_r. f_equal. ring. }
    rewrite <- Zmult_mod_idemp_l, Eq, Zmult_mod_idemp_l. rewrite Z.min_r in Dv by lia. destruct Dv as [k Hk]. fold MM in Hk.
    replace ((V u1 + 2 ^ i * V z) * V self) with (1 + k * 2 ^ MM) by lia.
    rewrite Z.mod_add by lia. apply Z.mod_small. lia.
Qed.

Lemma invmod2m_spec x : big_wf c x -> V x mod 2 = 1 -> MODBYTES c < 65536 -> 8 * MODBYTES c < B * Z.of_nat N ->
  exists r, invmod2m c x = Some r /\ big_wf c r /\ V r < 2 * 2 ^ (8 * MODBYTES c) /\ (V r * V x) mod 2 ^ (8 * MODBYTES c) = 1.
Proof.
  intros Wx Ox Hk Hcap. unfold invmod2m, lastbits.
  rewrite (norm_wf c Hok x Wx). cbn [bind fst snd].
  change (2 ^ 8 - 1) with 255.
  assert (G0 : Z.land (get x 0) 255 = V x mod 256).
  { change 255 with (2 ^ 8 - 1). change 256 with (2 ^ 8). apply get0_land; [lia|]. apply (bne c Hok). exact Wx. }
  rewrite G0.
  assert (Odd : (V x mod 256) mod 2 = 1).
  { change 256 with (2 ^ 8). change 2 with (2 ^ 1) at 2. rewrite modmod by lia. exact Ox. }
  destruct (invmod256_spec (V x mod 256) Odd) as [I1 I2].
  destruct (zero_wf c Hok) as [Z1 Z2].
  destruct (inc_spec c Hok (big_new c) (invmod256 (V x mod 256)) Z1 ltac:(lia)) as [u [U1 [U2 [U3 U4]]]].
  rewrite U1. cbn [bind]. rewrite Z2 in U3.
  assert (Htop : B * Z.of_nat (N - 1) < 8 * MODBYTES c).
  { pose proof (cf_M c F). unfold NLEN. rewrite Nat2Z.inj_sub by (pose proof HN2; unfold NLEN in *; lia).
    rewrite Z2Nat.id by (unfold NLENz; pose proof (Z.div_pos (8 * MODBYTES c - 1) B ltac:(lia) ltac:(lia)); lia). unfold NLENz.
    pose proof (Z.mul_div_le (8 * MODBYTES c - 1) B ltac:(lia)). lia. }
  destruct (invmod2m_loop_spec x Wx Hcap Htop 16 u 8) as [r [R1 [R2 R3]]].
  - lia.
  - change (8 * 2 ^ Z.of_nat 16) with 524288. lia.
  - split; assumption.
  - rewrite U3. change (2 ^ (8 + 1)) with 512. lia.
  - rewrite U3. change (2 ^ 8) with 256. rewrite <- Z.mul_mod_idemp_r by lia. rewrite Z.add_0_l. exact I1.
  - rewrite R1. cbn [bind]. unfold BIGBITS. rewrite (Z.mul_comm (MODBYTES c)).
    pose proof (cf_M c F) as M1. assert (P2 : 0 < 2 ^ (8 * MODBYTES c)) by (apply pow2_pos; lia).
    destruct (mod2m_top r (8 * MODBYTES c) R2 ltac:(lia)) as [q [Q1 [Q2 [Q3 Q4]]]]. rewrite Q1. cbn [bind].
    assert (2 * 2 ^ (8 * MODBYTES c) <= K) by (rewrite <- (Z.pow_succ_r 2) by lia; apply pow2_le; lia).
    destruct (sum_norm q Q2 ltac:(lia)) as [z [N1 [N2 N3]]].
    exists z. split; [exact N1|]. split; [exact N2|]. rewrite N3. split; [lia|].
    rewrite <- Z.mul_mod_idemp_l, Q3, Z.mul_mod_idemp_l by lia. exact R3.
Qed.
End WithCfg.
