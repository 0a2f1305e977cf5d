(** Small multiples, truncated product, division by 3, conditional swap, inc/dec,
    subtract-and-shift (ssn), split of a double-length number, inverse mod 2^k. *)
From Verif Require Import Base.Word Model.Big Spec.BigSpec Spec.Bytes Proof.BigVal Proof.BigShift Proof.BigBytes Proof.BigMul Proof.BigSqr Proof.BigMod Proof.BigInv.
From Coq Require Import Psatz Zpow_facts Znumtheory.

Lemma skipn_skipn {A} (m n : nat) (l : list A) : skipn m (skipn n l) = skipn (m + n) l.
Proof.
  revert l. induction n as [|n IH]; intros l; [rewrite Nat.add_0_r; reflexivity|].
  destruct l as [|x l]; [rewrite !skipn_nil; reflexivity|]. rewrite Nat.add_succ_r. cbn [skipn]. apply IH.
Qed.
(** ** conditional swap *)
Lemma cswap_loop_m1 a : forall b, length a = length b -> cswap_loop (-1) a b = (b, a).
Proof.
  induction a as [|x a IH]; intros [|y b] H; cbn in H; try discriminate; [reflexivity|].
  cbn [cswap_loop]. rewrite IH by lia. rewrite Z.land_m1_l.
  rewrite <- Z.lxor_assoc, Z.lxor_nilpotent, Z.lxor_0_l.
  rewrite (Z.lxor_comm x y), <- Z.lxor_assoc, Z.lxor_nilpotent, Z.lxor_0_l. reflexivity.
Qed.
Lemma cswap_loop_0 a : forall b, length a = length b -> cswap_loop 0 a b = (a, b).
Proof.
  induction a as [|x a IH]; intros [|y b] H; cbn in H; try discriminate; [reflexivity|].
  cbn [cswap_loop]. rewrite IH by lia. rewrite Z.land_0_l, !Z.lxor_0_r. reflexivity.
Qed.

(** ** inverse modulo 256 *)
Lemma land_mod_mask a n k : 0 <= k <= n -> Z.land a (2 ^ k - 1) = Z.land (a mod 2 ^ n) (2 ^ k - 1).
Proof.
  intros H. replace (2 ^ k - 1) with (Z.ones k) by (rewrite Z.ones_equiv; lia).
  rewrite !Z.land_ones by lia. symmetry.
  replace (2 ^ n) with (2 ^ k * 2 ^ (n - k)).
  - pose proof (pow2_pos k ltac:(lia)). pose proof (pow2_pos (n - k) ltac:(lia)).
    rewrite Z.rem_mul_r by lia. rewrite (Z.mul_comm (2 ^ k)), Z.mod_add by lia. apply Z.mod_mod. lia.
  - rewrite <- Z.pow_add_r by lia. f_equal. lia.
Qed.
Lemma shiftr_mod a n s : 0 <= s <= n -> Z.shiftr (a mod 2 ^ n) s = (Z.shiftr a s) mod 2 ^ (n - s).
Proof.
  intros H. rewrite !Z.shiftr_div_pow2 by lia. replace (2 ^ n) with (2 ^ s * 2 ^ (n - s)).
  - pose proof (pow2_pos s ltac:(lia)). pose proof (pow2_pos (n - s) ltac:(lia)).
    rewrite Z.rem_mul_r by lia. rewrite (Z.mul_comm (2 ^ s)), Z.div_add, (Z.div_small (a mod 2 ^ s)) by (try apply Z.mod_pos_bound; lia).
    lia.
  - rewrite <- Z.pow_add_r by lia. f_equal. lia.
Qed.
Lemma land_shr_mod a s k : 0 <= s -> 0 <= k -> s + k <= 8 ->
  Z.land (Z.shiftr a s) (2 ^ k - 1) = Z.land (Z.shiftr (a mod 256) s) (2 ^ k - 1).
Proof.
  intros. change 256 with (2 ^ 8). rewrite shiftr_mod by lia. apply land_mod_mask. lia.
Qed.
Lemma invmod256_low a : invmod256 a = invmod256 (a mod 256).
Proof.
  unfold invmod256.
  change 3 with (2 ^ 2 - 1). change 15 with (2 ^ 4 - 1).
  rewrite (land_shr_mod a 2 2), (land_shr_mod a 4 4) by lia.
  change (Z.land (Z.shiftr a 1) 1) with (Z.land (Z.shiftr a 1) (2 ^ 1 - 1)). rewrite (land_shr_mod a 1 1) by lia.
  rewrite (land_mod_mask a 8 2), (land_mod_mask a 8 4) by lia. reflexivity.
Qed.
Lemma invmod256_sweep : forallb (fun k => let a := 2 * Z.of_nat k + 1 in
   ((invmod256 a * a) mod 256 =? 1) && (0 <? invmod256 a) && (invmod256 a <? 512)) (seq 0 128) = true.
Proof. vm_compute. reflexivity. Qed.
Lemma invmod256_spec a : a mod 2 = 1 -> (invmod256 a * a) mod 256 = 1 /\ 0 < invmod256 a < 512.
Proof.
  intros H. rewrite invmod256_low. pose proof (Z.mod_pos_bound a 256 ltac:(lia)) as R.
  set (b := a mod 256) in *.
  assert (Ob : b mod 2 = 1).
  { unfold b. change 256 with (2 * 128). rewrite Z.rem_mul_r by lia. rewrite Z.mul_comm, Z.mod_add by lia. rewrite Z.mod_mod by lia. exact H. }
  assert (S := invmod256_sweep). rewrite forallb_forall in S.
  specialize (S (Z.to_nat (b / 2))). 
  assert (E : 2 * Z.of_nat (Z.to_nat (b / 2)) + 1 = b).
  { rewrite Z2Nat.id by (apply Z.div_pos; lia). pose proof (Z.div_mod b 2 ltac:(lia)). lia. }
  cbv zeta in S. rewrite E in S. rewrite !andb_true_iff, Z.eqb_eq, !Z.ltb_lt in S.
  destruct S as [[S1 S2] S3].
  - apply in_seq. assert (0 <= b / 2 < 128) by (split; [apply Z.div_pos; lia|apply Z.div_lt_upper_bound; lia]). lia.
  - split; [|lia]. rewrite <- Z.mul_mod_idemp_r by lia. fold b. exact S1.
Qed.

Section WithCfg.
Variable c : cfg.
Hypothesis Hok : cfg_ok c.
Notation B := (BASEBITS c).
Notation C := (CHUNK c).
Notation N := (NLEN c).
Notation X := (2 ^ BASEBITS c).
Notation V := (val (BASEBITS c)).
Notation K := (2 ^ (BASEBITS c * Z.of_nat (NLEN c))).
Let F := cfg_ok_facts c Hok.
Let HB16 : 16 <= B. Proof. exact (cf_B c F). Qed.
Let HB : 8 <= B. Proof. lia. Qed.
Let HB0 : 0 <= B. Proof. lia. Qed.
Let HC : B + 3 <= C. Proof. exact (cf_C c F). Qed.
Let HN2 : (2 <= N)%nat. Proof. exact (cf_N c F). Qed.
Let HX : 65536 <= X.
Proof. change 65536 with (2 ^ 16). apply pow2_le. lia. Qed.
Let HXC : 4 * X <= 2 ^ (C - 1).
Proof. change 4 with (2 ^ 2). rewrite <- Z.pow_add_r by lia. apply pow2_le. lia. Qed.
Let HXX : 16 * (X * X) <= 2 ^ (2 * C - 1).
Proof. change 16 with (2 ^ 4). rewrite <- !Z.pow_add_r by lia. apply pow2_le. lia. Qed.
Let HM : 3 * X <= Mlim c. Proof. apply Mlim_ge; assumption. Qed.

Lemma cswap_spec a b d : length a = length b -> (d = 0 \/ d = 1) ->
  cswap c a b d = Some (if d =? 1 then (b, a) else (a, b)).
Proof.
  intros Hl Hd. unfold cswap. rewrite wrap_id by lia. rewrite chk_ok by lia. cbn [bind].
  destruct Hd as [-> | ->]; f_equal; [change (Z.lnot (0 - 1)) with 0; apply cswap_loop_0|change (Z.lnot (1 - 1)) with (-1); apply cswap_loop_m1]; exact Hl.
Qed.

(** ** muladd *)
Lemma muladd_spec a b cc r : 0 <= a < X -> 0 <= b < X -> 0 <= cc < X -> 0 <= r < X ->
  exists t l, muladd c a b cc r = Some (t, l) /\ 0 <= t < X /\ 0 <= l < X /\ t * X + l = a * b + cc + r.
Proof.
  intros Ha Hb Hc Hr. unfold muladd.
  assert (P0 : 0 <= a * b) by (apply Z.mul_nonneg_nonneg; lia).
  assert (P1 : a * b <= (X - 1) * (X - 1)) by (apply Z.mul_le_mono_nonneg; lia).
  assert (E : (X - 1) * (X - 1) = X * X - 2 * X + 1) by ring.
  rewrite chk_ok by lia. cbn [bind]. rewrite chk_ok by lia. cbn [bind]. rewrite chk_ok by lia. cbn [bind].
  set (s := a * b + cc + r) in *.
  assert (Hs : 0 <= s < X * X) by (unfold s; lia).
  rewrite Z.shiftr_div_pow2 by lia. rewrite bmask_land by exact HB.
  pose proof (Z.div_mod s X ltac:(lia)) as D. pose proof (Z.mod_pos_bound s X ltac:(lia)) as M.
  assert (Q : 0 <= s / X < X) by (split; [apply Z.div_pos; lia|apply Z.div_lt_upper_bound; lia]).
  rewrite !wrap_id by lia. exists (s / X), (s mod X). split; [reflexivity|]. split; [exact Q|]. split; [exact M|]. lia.
Qed.

Lemma pmul_loop_spec k w : forall carry, 0 <= k < X -> canon B w -> 0 <= carry < X ->
  exists t r, pmul_loop c w k carry = Some (t, r) /\ 0 <= t < X /\ canon B r /\ length r = length w
    /\ V r + 2 ^ (B * Z.of_nat (length w)) * t = V w * k + carry.
Proof.
  induction w as [|x w IH]; intros carry Hk Hw Hc; cbn [pmul_loop].
  - exists carry, []. split; [reflexivity|]. split; [exact Hc|]. split; [constructor|]. split; [reflexivity|].
    cbn [length val]. change (Z.of_nat 0) with 0. rewrite Z.mul_0_r. change (2 ^ 0) with 1. lia.
  - apply Forall_cons_iff in Hw. destruct Hw as [Hx Hw].
    destruct (muladd_spec x k carry 0 Hx Hk Hc ltac:(lia)) as [t [l [M1 [M2 [M3 M4]]]]]. rewrite M1. cbn [bind fst snd].
    destruct (IH t Hk Hw M2) as [t' [r [I1 [I2 [I3 [I4 I5]]]]]]. rewrite I1. cbn [bind fst snd].
    exists t', (l :: r). split; [reflexivity|]. split; [exact I2|]. split; [constructor; assumption|].
    split; [cbn [length]; lia|]. cbn [val length]. rewrite Nat2Z.inj_succ, Z.mul_succ_r, Z.pow_add_r; [|apply Z.mul_nonneg_nonneg; lia|lia].
    set (E := 2 ^ (B * Z.of_nat (length w))) in *.
    replace (l + X * V r + E * X * t') with (l + X * (V r + E * t')) by ring. rewrite I5.
    replace ((x + X * V w) * k + carry) with (x * k + carry + 0 + X * (V w * k)) by ring. rewrite <- M4. ring.
Qed.

Lemma pmul_spec w k : big_wf c w -> 0 <= k < X ->
  exists t r, pmul c w k = Some (t, r) /\ big_wf c r /\ 0 <= t < X /\ V r + bmax c * t = V w * k.
Proof.
  intros [Hl Hw] Hk. unfold pmul. rewrite wrap_id by lia.
  destruct (pmul_loop_spec k w 0 Hk Hw ltac:(lia)) as [t [r [H1 [H2 [H3 [H4 H5]]]]]].
  exists t, r. split; [exact H1|]. split; [split; [lia|exact H3]|]. split; [exact H2|]. unfold bmax. rewrite <- Hl. lia.
Qed.
Lemma pxmul_spec w k : big_wf c w -> 0 <= k < X ->
  exists r, pxmul c w k = Some r /\ dbig_wf c r /\ V r = V w * k.
Proof.
  intros [Hl Hw] Hk. unfold pxmul. rewrite wrap_id by lia.
  destruct (pmul_loop_spec k w 0 Hk Hw ltac:(lia)) as [t [r [H1 [H2 [H3 [H4 H5]]]]]]. rewrite H1. cbn [bind fst snd].
  eexists. split; [reflexivity|]. split; [split|].
  - rewrite app_length. cbn [length]. rewrite repeat_length. unfold DNLEN. lia.
  - apply canon_app; [exact H3|]. constructor; [exact H2|]. apply canon_repeat0; assumption.
  - rewrite val_app by assumption. cbn [val]. rewrite val_repeat0, H4. lia.
Qed.

(** ** truncated product *)
Lemma smul_row_spec ai b : forall acc carry, 0 <= ai < X -> canon B b -> canon B acc -> (length acc <= length b)%nat -> 0 <= carry < X ->
  exists r q, smul_row c ai b acc carry = Some r /\ canon B r /\ length r = length acc
    /\ V r + 2 ^ (B * Z.of_nat (length acc)) * q = ai * V b + V acc + carry.
Proof.
  induction b as [|bj b IH]; intros acc carry Ha Hb Hacc Hl Hc.
  - destruct acc; [|cbn in Hl; lia]. cbn [smul_row]. exists [], carry. split; [reflexivity|]. split; [constructor|]. split; [reflexivity|].
    cbn [val length]. change (Z.of_nat 0) with 0. rewrite Z.mul_0_r. change (2 ^ 0) with 1. lia.
  - destruct acc as [|x acc]; cbn [smul_row].
    + exists [], (ai * V (bj :: b) + carry). split; [reflexivity|]. split; [constructor|]. split; [reflexivity|].
      cbn [length]. change (Z.of_nat 0) with 0. rewrite Z.mul_0_r. change (2 ^ 0) with 1. cbn [val]. lia.
    + apply Forall_cons_iff in Hb. destruct Hb as [Hbj Hb]. apply Forall_cons_iff in Hacc. destruct Hacc as [Hx Hacc].
      destruct (muladd_spec ai bj carry x Ha Hbj Hc Hx) as [t [l [M1 [M2 [M3 M4]]]]]. rewrite M1. cbn [bind fst snd].
      destruct (IH acc t Ha Hb Hacc ltac:(cbn in Hl; lia) M2) as [r [q [I1 [I2 [I3 I4]]]]]. rewrite I1. cbn [bind].
      exists (l :: r), q. split; [reflexivity|]. split; [constructor; assumption|]. split; [cbn [length]; lia|].
      cbn [val length]. rewrite Nat2Z.inj_succ, Z.mul_succ_r, Z.pow_add_r; [|apply Z.mul_nonneg_nonneg; lia|lia].
      set (E := 2 ^ (B * Z.of_nat (length acc))) in *.
      replace (l + X * V r + E * X * q) with (l + X * (V r + E * q)) by ring. rewrite I4.
      replace (ai * (bj + X * V b) + (x + X * V acc) + carry) with (ai * bj + carry + x + X * (ai * V b + V acc)) by ring.
      rewrite <- M4. ring.
Qed.

Lemma smul_rows_spec b : canon B b -> forall a acc, canon B a -> canon B acc -> length a = length acc -> (length acc <= length b)%nat ->
  exists r q, smul_rows c a b acc = Some r /\ canon B r /\ length r = length acc
    /\ V r + 2 ^ (B * Z.of_nat (length acc)) * q = V a * V b + V acc.
Proof.
  intros Hb. induction a as [|ai a IH]; intros acc Ha Hacc Hl Hlb.
  - cbn [smul_rows]. exists acc, 0. split; [reflexivity|]. split; [exact Hacc|]. split; [reflexivity|]. cbn [val]. lia.
  - apply Forall_cons_iff in Ha. destruct Ha as [Hai Ha]. cbn [smul_rows].
    destruct (smul_row_spec ai b acc 0 Hai Hb Hacc Hlb ltac:(lia)) as [r1 [q1 [R1 [R2 [R3 R4]]]]]. rewrite R1. cbn [bind].
    destruct r1 as [|x rest]; [cbn in R3, Hl; lia|]. apply Forall_cons_iff in R2. destruct R2 as [Rx Rr]. cbn [length] in R3, Hl.
    destruct (IH rest Ha Rr ltac:(lia) ltac:(lia)) as [r [q [I1 [I2 [I3 I4]]]]]. rewrite I1. cbn [bind].
    exists (x :: r), (q + q1). split; [reflexivity|]. split; [constructor; assumption|]. split; [cbn [length]; lia|].
    cbn [val]. cbn [val] in R4.
    assert (EL : 2 ^ (B * Z.of_nat (length acc)) = 2 ^ (B * Z.of_nat (length rest)) * X).
    { rewrite <- R3, Nat2Z.inj_succ, Z.mul_succ_r, Z.pow_add_r; [reflexivity|apply Z.mul_nonneg_nonneg; lia|lia]. }
    rewrite EL in R4 |- *. set (E := 2 ^ (B * Z.of_nat (length rest))) in *.
    replace (x + X * V r + E * X * (q + q1)) with (x + X * (V r + E * q) + E * X * q1) by ring. rewrite I4.
    replace (x + X * (V a * V b + V rest) + E * X * q1) with ((x + X * V rest + E * X * q1) + X * V a * V b) by ring.
    rewrite R4. ring.
Qed.

Lemma smul_spec a b : big_wf c a -> big_wf c b ->
  exists r, smul c a b = Some r /\ big_wf c r /\ V r = (V a * V b) mod bmax c.
Proof.
  intros [La Ca] [Lb Cb]. unfold smul.
  destruct (smul_rows_spec b Cb a (big_new c) Ca (proj2 (big_new_wf c Hok))) as [r [q [H1 [H2 [H3 H4]]]]].
  { rewrite La. symmetry. apply (big_new_wf c Hok). } { rewrite (proj1 (big_new_wf c Hok)). lia. }
  rewrite (proj1 (big_new_wf c Hok)) in H3, H4. 
  assert (W : big_wf c r) by (split; assumption).
  exists r. split; [exact H1|]. split; [exact W|]. 
  unfold big_new in H4. rewrite val_repeat0 in H4. unfold bmax.
  pose proof (brange c Hok r W) as R.
  apply (Z.mod_unique _ _ q); [left; exact R|]. lia.
Qed.

(** ** division by three *)
Lemma div3_loop_spec w : canon B w -> exists r, div3_loop c w = Some (V w mod 3, r) /\ canon B r /\ length r = length w /\ V r = V w / 3.
Proof.
  induction w as [|x w IH]; intros Hw; cbn [div3_loop].
  - exists []. split; [reflexivity|]. split; [constructor|]. split; reflexivity.
  - apply Forall_cons_iff in Hw. destruct Hw as [Hx Hw]. destruct (IH Hw) as [r [I1 [I2 [I3 I4]]]]. rewrite I1. cbn [bind fst snd].
    pose proof (Z.mod_pos_bound (V w) 3 ltac:(lia)) as Mb.
    assert (H0 : 0 <= V w mod 3 * X) by (apply Z.mul_nonneg_nonneg; lia).
    assert (H1 : V w mod 3 * X <= 2 * X) by (apply Z.mul_le_mono_nonneg_r; lia).
    rewrite chk_ok by lia. cbn [bind]. rewrite chk_ok by lia. cbn [bind].
    rewrite Z.rem_mod_nonneg, Z.quot_div_nonneg by lia.
    pose proof (Z.div_mod (V w) 3 ltac:(lia)) as D.
    assert (Q : V (x :: w) = V w mod 3 * X + x + (X * (V w / 3)) * 3) by (cbn [val]; rewrite D at 1; ring).
    eexists. split; [rewrite Q, Z.mod_add by lia; reflexivity|]. split.
    + constructor; [|exact I2]. split; [apply Z.div_pos; lia|apply Z.div_lt_upper_bound; lia].
    + split; [cbn [length]; lia|]. rewrite Q, Z.div_add by lia. cbn [val]. rewrite I4. reflexivity.
Qed.
Lemma div3_spec w : big_wf c w -> exists r, div3 c w = Some (V w mod 3, r) /\ big_wf c r /\ V r = V w / 3.
Proof.
  intros Hw. unfold div3. rewrite (norm_wf c Hok w Hw). cbn [bind].
  destruct (div3_loop_spec w (proj2 Hw)) as [r [H1 [H2 [H3 H4]]]]. exists r. split; [exact H1|].
  split; [split; [rewrite H3; exact (proj1 Hw)|exact H2]|exact H4].
Qed.

(** ** inc / dec *)
Lemma inc_spec w x : big_wf c w -> 0 <= x < X -> exists r, inc c w x = Some r /\ length r = N /\ V r = V w + x /\ within 0 (2 * X - 2) r.
Proof.
  intros Hw Hx. unfold inc. rewrite (norm_wf c Hok w Hw). cbn [bind].
  destruct w as [|y t]; [destruct Hw; cbn in *; lia|]. destruct Hw as [Hl Hc]. apply Forall_cons_iff in Hc. destruct Hc as [Hy Hc].
  rewrite wrap_id by lia. rewrite chk_ok by lia. cbn [bind].
  eexists. split; [reflexivity|]. split; [exact Hl|]. split; [cbn [val]; lia|]. constructor; [lia|].
  eapply Forall_impl; [|exact Hc]. cbv beta. intros; lia.
Qed.
Lemma dec_spec w x : big_wf c w -> 0 <= x < X -> exists r, dec c w x = Some r /\ length r = N /\ V r = V w - x /\ within (1 - X) (X - 1) r.
Proof.
  intros Hw Hx. unfold dec. rewrite (norm_wf c Hok w Hw). cbn [bind].
  destruct w as [|y t]; [destruct Hw; cbn in *; lia|]. destruct Hw as [Hl Hc]. apply Forall_cons_iff in Hc. destruct Hc as [Hy Hc].
  rewrite wrap_id by lia. rewrite chk_ok by lia. cbn [bind].
  eexists. split; [reflexivity|]. split; [exact Hl|]. split; [cbn [val]; lia|]. constructor; [lia|].
  eapply Forall_impl; [|exact Hc]. cbv beta. intros; lia.
Qed.

(** ** split *)
Lemma split_loop_spec m : 0 <= m < B -> forall ws y, 0 <= y < X -> canon B ws ->
  split_loop c m ws (Z.land (wrap C (Z.shiftl y (B - m))) (BMASK c)) =
  (firstn (length ws) (shr_limbs c m (ws ++ [y])),
   Z.land (wrap C (Z.shiftl (hd y ws) (B - m))) (BMASK c)).
Proof.
  intros Hm. induction ws as [|x ws IH]; intros y Hy Hw; [reflexivity|].
  apply Forall_cons_iff in Hw. destruct Hw as [Hx Hw].
  cbn [split_loop]. rewrite (IH y Hy Hw). cbn [hd].
  destruct ws as [|z ws].
  - cbn [app length firstn shr_limbs hd]. reflexivity.
  - cbn [app hd length]. change (shr_limbs c m (x :: z :: ws ++ [y])) with
      (Z.lor (Z.shiftr x m) (Z.land (wrap C (Z.shiftl z (B - m))) (BMASK c)) :: shr_limbs c m (z :: ws ++ [y])).
    reflexivity.
Qed.

Lemma split_spec d n : dbig_wf c d -> B * (Z.of_nat N - 1) <= n < B * Z.of_nat N -> V d / 2 ^ n < bmax c ->
  exists hi lo, split c d n = (hi, lo) /\ big_wf c hi /\ V hi = V d / 2 ^ n
    /\ big_wf c (big_dcopy c lo) /\ V (big_dcopy c lo) = V d mod 2 ^ n.
Proof.
  intros [Hl Hd] Hn Hfit. unfold split, bmax in *.
  assert (Em : n mod B = n - B * (Z.of_nat N - 1)).
  { symmetry. apply (Z.mod_unique _ _ (Z.of_nat N - 1)); [left; lia|lia]. }
  rewrite Em. set (m := n - B * (Z.of_nat N - 1)) in *.
  assert (Hm : 0 <= m < B) by (unfold m; lia).
  unfold DNLEN in *.
  (* the top limb is below 2^m *)
  set (y := get d (2 * N - 1)) in *.
  assert (Hy : 0 <= y < X) by (apply canon_get; assumption).
  assert (Hn0 : 0 <= n). { assert (0 <= B * (Z.of_nat N - 1)) by (apply Z.mul_nonneg_nonneg; lia). lia. }
  assert (Ed : d = firstn (N - 1) d ++ firstn N (skipn (N - 1) d) ++ [y]).
  { rewrite <- (firstn_skipn (N - 1) d) at 1. f_equal. rewrite <- (firstn_skipn N (skipn (N - 1) d)) at 1. f_equal.
    rewrite skipn_skipn. unfold y. rewrite (get_nth d (N + (N - 1))) by lia.
    replace (N + (N - 1))%nat with (2 * N - 1)%nat by lia. f_equal. apply skipn_all2. lia. }
  set (lowp := firstn (N - 1) d) in *. set (mid := firstn N (skipn (N - 1) d)) in *.
  assert (Llow : length lowp = (N - 1)%nat) by (unfold lowp; rewrite firstn_length; lia).
  assert (Lmid : length mid = N) by (unfold mid; rewrite firstn_length, skipn_length; lia).
  assert (Clow : canon B lowp) by (apply canon_firstn; exact Hd).
  assert (Cmid : canon B mid).
  { unfold mid. apply canon_firstn. unfold canon in *. rewrite <- (firstn_skipn (N - 1) d) in Hd. apply Forall_app in Hd. apply Hd. }
  assert (Cmy : canon B (mid ++ [y])) by (apply canon_app; [exact Cmid|repeat constructor; lia]).
  pose proof (canon_val B lowp HB0 Clow) as Vlow. rewrite Llow in Vlow.
  assert (Vd : V d = V lowp + 2 ^ (B * (Z.of_nat N - 1)) * V (mid ++ [y])).
  { rewrite Ed at 1. rewrite val_app by assumption. rewrite Llow, Nat2Z.inj_sub by lia. reflexivity. }
  rewrite Nat2Z.inj_sub in Vlow by lia. change (Z.of_nat 1) with 1 in Vlow.
  set (E1 := 2 ^ (B * (Z.of_nat N - 1))) in *.
  assert (PE1 : 0 < E1) by (apply pow2_pos; apply Z.mul_nonneg_nonneg; lia).
  assert (En : 2 ^ n = E1 * 2 ^ m).
  { unfold E1. rewrite <- Z.pow_add_r; [f_equal; unfold m; lia|apply Z.mul_nonneg_nonneg; lia|lia]. }
  assert (Pm : 0 < 2 ^ m) by (apply pow2_pos; lia).
  assert (Dq : V d / 2 ^ n = V (mid ++ [y]) / 2 ^ m).
  { rewrite En, <- Z.div_div by lia. f_equal. rewrite Vd, (Z.mul_comm E1), Z.div_add, (Z.div_small (V lowp)) by lia. lia. }
  rewrite Dq in Hfit.
  destruct (shr_limbs_spec c HB HC (mid ++ [y]) m ltac:(lia) (canon_nrm _ _ Cmy)) as [S1 [S2 S3]].
  pose proof (canon_val B _ HB0 Cmy) as Rmy.
  assert (Hyz : y < 2 ^ m).
  { rewrite val_app, Lmid in Hfit by assumption. cbn [val] in Hfit. rewrite Z.mul_0_r, Z.add_0_r in Hfit.
    destruct (Z.lt_ge_cases y (2 ^ m)) as [L|G]; [exact L|exfalso].
    assert (K <= (V mid + K * y) / 2 ^ m).
    { apply Z.div_le_lower_bound; [exact Pm|]. pose proof (canon_val B mid HB0 Cmid).
      assert (2 ^ m * K <= K * y). { rewrite Z.mul_comm. apply Z.mul_le_mono_nonneg_l; lia. } lia. }
    lia. }
  assert (EC : wrap C (Z.shiftl y (B - m)) = Z.land (wrap C (Z.shiftl y (B - m))) (BMASK c)).
  { assert (Q : 0 <= y * 2 ^ (B - m) < X).
    { assert (Ex : X = 2 ^ m * 2 ^ (B - m)) by (rewrite <- Z.pow_add_r by lia; f_equal; lia).
      assert (0 < 2 ^ (B - m)) by (apply pow2_pos; lia). split; [apply Z.mul_nonneg_nonneg; lia|].
      rewrite Ex. apply Z.mul_lt_mono_pos_r; lia. }
    rewrite Z.shiftl_mul_pow2 by lia. rewrite wrap_id by lia. rewrite bmask_land by exact HB. rewrite Z.mod_small; [reflexivity|exact Q]. }
  rewrite EC. rewrite (split_loop_spec m Hm mid y Hy Cmid). cbn [fst].
  assert (Csh : canon B (shr_limbs c m (mid ++ [y]))).
  { apply (nrm_canon B _ (length (mid ++ [y])) HB0 S2 S3). rewrite S1. split; [apply Z.div_pos; lia|].
    apply Z.div_lt_upper_bound; [exact Pm|]. eapply Z.lt_le_trans; [apply Rmy|].
    rewrite <- (Z.mul_1_l (2 ^ _)) at 1. apply Z.mul_le_mono_nonneg_r; [|lia]. apply Z.lt_le_incl. apply pow2_pos. apply Z.mul_nonneg_nonneg; lia. }
  eexists _, _. split; [reflexivity|]. rewrite Lmid. split; [split|split; [|]].
  - rewrite firstn_length, S3, app_length, Lmid. cbn [length]. lia.
  - apply canon_firstn. exact Csh.
  - rewrite canon_high_zero; [rewrite S1; symmetry; exact Dq|exact HB|exact Csh|rewrite S3, app_length, Lmid; lia|].
    rewrite S1. exact Hfit.
  - unfold big_dcopy. change (firstn (N - 1) d) with lowp. rewrite firstn_app, Llow.
    replace (N - (N - 1))%nat with 1%nat by lia. rewrite (firstn_all2 lowp) by lia. cbn [firstn].
    assert (Hg : 0 <= get d (N - 1) < X) by (apply canon_get; assumption).
    replace (2 ^ m - 1) with (Z.ones m) by (rewrite Z.ones_equiv; lia). rewrite Z.land_ones by lia.
    pose proof (Z.mod_pos_bound (get d (N - 1)) (2 ^ m) Pm) as Mg.
    assert (2 ^ m <= X) by (apply pow2_le; lia).
    split; [split|].
    + rewrite app_length. cbn [length]. lia.
    + apply canon_app; [exact Clow|]. repeat constructor; lia.
    + rewrite val_app by assumption. rewrite Llow, Nat2Z.inj_sub by lia. change (Z.of_nat 1) with 1. fold E1. cbn [val].
      rewrite Z.mul_0_r, Z.add_0_r. rewrite Vd, En, Z.rem_mul_r by lia.
      rewrite (Z.mul_comm E1 (V (mid ++ [y]))), Z.mod_add, Z.div_add, (Z.mod_small (V lowp)), (Z.div_small (V lowp)) by lia. rewrite Z.add_0_l.
      f_equal. f_equal.
      unfold mid. rewrite (get_nth d (N - 1)) by lia.
      destruct N as [|N'] eqn:EN; [lia|]. cbn [firstn app]. cbn [val].
      replace X with (2 ^ (B - m) * 2 ^ m) by (rewrite <- Z.pow_add_r by lia; f_equal; lia).
      rewrite <- Z.mul_assoc, (Z.mul_comm (2 ^ m)), Z.mul_assoc, Z.mod_add by lia. reflexivity.
Qed.

(** ** ssn: halve m, subtract, report the sign *)
Lemma ssn_loop_cons x x' a y y' m carry : ssn_loop c (x :: x' :: a) (y :: y' :: m) carry =
  (let y1 := Z.lor (Z.shiftr y 1) (Z.land (wrap C (Z.shiftl y' (B - 1))) (BMASK c)) in
   r0 <- chk C (x - y1) ;; r <- chk C (r0 + carry) ;;
   q <- ssn_loop c (x' :: a) (y' :: m) (Z.shiftr r B) ;; Some (Z.land r (BMASK c) :: fst q, y1 :: snd q)).
Proof. reflexivity. Qed.
Lemma ssn_loop_spec a : forall m carry, length a = length m -> a <> [] -> nrm B a -> nrm B m ->
  - 2 <= carry <= 1 -> - 2 * X <= last a 0 <= 2 * X -> 0 <= last m 0 <= 2 * X ->
  exists r m', ssn_loop c a m carry = Some (r, m') /\ m' = shr_limbs c 1 m /\ V r = V a - V m' + carry /\ nrm B r /\ length r = length a.
Proof.
  induction a as [|x a IH]; intros [|y m] carry Hl Hne Ha Hm Hc Hla Hlm; cbn in Hl; try discriminate; [congruence|].
  destruct a as [|x' a].
  - destruct m; [|discriminate]. cbn [ssn_loop last] in *.
    assert (0 <= Z.shiftr y 1 <= X).
    { rewrite Z.shiftr_div_pow2 by lia. change (2 ^ 1) with 2. split; [apply Z.div_pos; lia|apply Z.div_le_upper_bound; lia]. }
    rewrite chk_ok by lia. cbn [bind]. rewrite chk_ok by lia. cbn [bind].
    eexists _, _. split; [reflexivity|]. split; [reflexivity|]. cbn [val nrm length shr_limbs]. split; [lia|]. split; [exact I|reflexivity].
  - destruct m as [|y' m]; [discriminate|].
    assert (Ha' : 0 <= x < X /\ nrm B (x' :: a)) by exact Ha. destruct Ha' as [Hx Ha'].
    assert (Hm' : 0 <= y < X /\ nrm B (y' :: m)) by exact Hm. destruct Hm' as [Hy Hm'].
    change (last (x :: x' :: a) 0) with (last (x' :: a) 0) in Hla.
    change (last (y :: y' :: m) 0) with (last (y' :: m) 0) in Hlm.
    destruct (shr_limbs_spec c HB HC (y :: y' :: m) 1 ltac:(lia) Hm) as [S1 [S2 S3]].
    change (shr_limbs c 1 (y :: y' :: m)) with
      (Z.lor (Z.shiftr y 1) (Z.land (wrap C (Z.shiftl y' (B - 1))) (BMASK c)) :: shr_limbs c 1 (y' :: m)) in *.
    set (y1 := Z.lor (Z.shiftr y 1) (Z.land (wrap C (Z.shiftl y' (B - 1))) (BMASK c))) in *.
    assert (Hy1 : 0 <= y1 < X).
    { clear - S2. destruct (shr_limbs c 1 (y' :: m)) as [|z t] eqn:E; [destruct m; discriminate|]. exact (proj1 S2). }
    rewrite ssn_loop_cons. cbv zeta. fold y1.
    rewrite chk_ok by lia. cbn [bind]. rewrite chk_ok by lia. cbn [bind].
    set (s := x - y1 + carry) in *.
    pose proof (Z.div_mod s X ltac:(lia)) as D. pose proof (Z.mod_pos_bound s X ltac:(lia)) as Mb.
    assert (Hs : - 2 <= s / X <= 1).
    { split; [apply Z.div_le_lower_bound; lia|apply Z.lt_succ_r, Z.div_lt_upper_bound; unfold s; lia]. }
    rewrite Z.shiftr_div_pow2 by lia. rewrite bmask_land by exact HB.
    destruct (IH (y' :: m) (s / X) ltac:(cbn in *; lia) ltac:(discriminate) Ha' Hm' Hs Hla Hlm) as [r [m' [I1 [I2 [I3 [I4 I5]]]]]].
    rewrite I1. cbn [bind fst snd]. eexists _, _. split; [reflexivity|]. split; [rewrite I2; reflexivity|].
    split; [|split].
    + cbn [val]. cbn [val] in I3. rewrite I3. cbn [val].
      replace (x + X * (x' + X * V a) - (y1 + X * V m') + carry) with (s + X * (x' + X * V a - V m')) by (unfold s; ring).
      replace (s mod X) with (s - X * (s / X)) by lia. ring.
    + destruct r as [|r0 r]; [cbn in I5; lia|]. split; [exact Mb|exact I4].
    + cbn [length] in *. lia.
Qed.

Lemma ssn_spec a m : length a = N -> length m = N -> nrm B a -> nrm B m -> - 2 * X <= last a 0 <= 2 * X -> 0 <= last m 0 <= 2 * X ->
  exists r m' s, ssn c a m = Some (r, m', s) /\ length r = N /\ length m' = N /\ nrm B r /\ nrm B m' /\ V m' = V m / 2 /\ V r = V a - V m / 2
    /\ s = if V a <? V m / 2 then 1 else 0.
Proof.
  intros La Lm Ha Hm Hla Hlm.
  assert (Hne : a <> []) by (intros E; rewrite E in La; cbn in La; lia).
  destruct (ssn_loop_spec a m 0 ltac:(lia) Hne Ha Hm ltac:(lia) Hla Hlm) as [r [m' [H1 [H2 [H3 [H4 H5]]]]]].
  destruct (shr_limbs_spec c HB HC m 1 ltac:(lia) Hm) as [S1 [S2 S3]]. change (2 ^ 1) with 2 in S1. rewrite <- H2 in S1, S2, S3.
  unfold ssn. rewrite H1. cbn [bind fst snd].
  assert (Hrne : r <> []) by (intros E; rewrite E in H5; cbn in H5; lia).
  assert (Vr : V r = V a - V m / 2) by lia.
  eexists r, m', _. split; [reflexivity|]. repeat (split; [first [assumption|lia]|]).
  assert (Hlast : - 2 ^ (C - 1) <= last r 0 < 2 ^ (C - 1)).
  { rewrite (nrm_last B r HB0 H4 Hrne), H5. rewrite (nrm_last B a HB0 Ha Hne) in Hla.
    rewrite (nrm_last B m HB0 Hm) in Hlm by (intros E; rewrite E in Lm; cbn in Lm; lia).
    rewrite La in *. rewrite Lm in *. set (E := 2 ^ (B * Z.of_nat (N - 1))) in *.
    assert (PE : 0 < E) by (apply pow2_pos; apply Z.mul_nonneg_nonneg; lia).
    pose proof (Z.div_mod (V a) E ltac:(lia)) as Da. pose proof (Z.mod_pos_bound (V a) E PE) as Ma.
    pose proof (Z.div_mod (V m) E ltac:(lia)) as Dm. pose proof (Z.mod_pos_bound (V m) E PE) as Mm.
    pose proof (Z.div_mod (V m) 2 ltac:(lia)) as D2. pose proof (Z.mod_pos_bound (V m) 2 ltac:(lia)) as M2.
    assert (A1 : E * (- 2 * X) <= E * (V a / E)) by (apply Z.mul_le_mono_nonneg_l; lia).
    assert (A2 : E * (V a / E) <= E * (2 * X)) by (apply Z.mul_le_mono_nonneg_l; lia).
    assert (B1 : E * 0 <= E * (V m / E)) by (apply Z.mul_le_mono_nonneg_l; lia).
    assert (B2 : E * (V m / E) <= E * (2 * X)) by (apply Z.mul_le_mono_nonneg_l; lia).
    rewrite Vr. assert (- (E * (4 * X)) <= V a - V m / 2 < E * (4 * X)).
    { replace (E * (-2 * X)) with (- (2 * (E * X))) in A1 by ring. replace (E * (2 * X)) with (2 * (E * X)) in * by ring.
      replace (E * (4 * X)) with (4 * (E * X)) by ring.
      assert (E <= E * X) by (rewrite <- (Z.mul_1_r E) at 1; apply Z.mul_le_mono_nonneg_l; lia). lia. }
    split; [apply Z.div_le_lower_bound; [exact PE|]|apply Z.div_lt_upper_bound; [exact PE|]].
    - assert (E * (4 * X) <= E * 2 ^ (C - 1)) by (apply Z.mul_le_mono_nonneg_l; lia). lia.
    - assert (E * (4 * X) <= E * 2 ^ (C - 1)) by (apply Z.mul_le_mono_nonneg_l; lia). lia. }
  rewrite (signbit_spec c Hok) by exact Hlast.
  pose proof (nrm_sign B r HB0 H4 Hrne) as Sg. rewrite Vr in Sg.
  destruct (Z.ltb_spec (last r 0) 0); destruct (Z.ltb_spec (V a) (V m / 2)); try reflexivity; lia.
Qed.
End WithCfg.
