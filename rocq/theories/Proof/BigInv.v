(** powmod and the binary modular inverse. *)
From Verif Require Import Base.Word Model.Big Spec.BigSpec Spec.Bytes Proof.BigVal Proof.BigShift Proof.BigBytes Proof.BigMul Proof.BigSqr Proof.BigMod.
From Coq Require Import Psatz Zpow_facts Znumtheory.

(** ** number theory *)
Lemma gcd_half u v : Z.gcd (2 * u) v = 1 -> Z.gcd u v = 1.
Proof.
  intros H. assert (D : (Z.gcd u v | 1)).
  { rewrite <- H. apply Z.gcd_greatest; [|apply Z.gcd_divide_r].
    apply Z.divide_mul_r. apply Z.gcd_divide_l. }
  apply Z.divide_1_r_nonneg in D; [exact D|apply Z.gcd_nonneg].
Qed.
Lemma gcd_sub u v : Z.gcd (u - v) v = Z.gcd u v.
Proof. rewrite Z.gcd_comm, Z.gcd_sub_diag_r. apply Z.gcd_comm. Qed.
Lemma odd_gcd2 p : p mod 2 = 1 -> Z.gcd p 2 = 1.
Proof. intros H. rewrite Z.gcd_comm, <- Z.gcd_mod by lia. rewrite H. reflexivity. Qed.
Lemma cong_half p x a u : p mod 2 = 1 -> (p | 2 * x * a - 2 * u) -> (p | x * a - u).
Proof.
  intros Hp H. apply (Z.gauss p 2); [|apply odd_gcd2; exact Hp].
  replace (2 * (x * a - u)) with (2 * x * a - 2 * u) by ring. exact H.
Qed.

Section WithCfg.
Variable c : cfg.
Hypothesis Hok : cfg_ok c.
Notation B := (BASEBITS c).
Notation C := (CHUNK c).
Notation N := (NLEN c).
Notation X := (2 ^ BASEBITS c).
Notation V := (val (BASEBITS c)).
Notation K := (2 ^ (BASEBITS c * Z.of_nat (NLEN c))).
Let F := cfg_ok_facts c Hok.
Let HB16 : 16 <= B. Proof. exact (cf_B c F). Qed.
Let HB : 8 <= B. Proof. lia. Qed.
Let HB0 : 0 <= B. Proof. lia. Qed.
Let HC : B + 3 <= C. Proof. exact (cf_C c F). Qed.
Let HN2 : (2 <= N)%nat. Proof. exact (cf_N c F). Qed.
Let HX : 65536 <= X.
Proof. change 65536 with (2 ^ 16). apply pow2_le. lia. Qed.
Let HXC : 4 * X <= 2 ^ (C - 1).
Proof. change 4 with (2 ^ 2). rewrite <- Z.pow_add_r by lia. apply pow2_le. lia. Qed.
Let HM : 3 * X <= Mlim c. Proof. apply Mlim_ge; assumption. Qed.

Lemma brange w : big_wf c w -> 0 <= V w < K.
Proof. intros H. exact (wf_range c Hok N w H). Qed.
Lemma bne w : big_wf c w -> w <> [].
Proof. intros H. apply (wf_ne c Hok N HN2). exact (proj1 H). Qed.
Lemma fuel_cap w : big_wf c w -> K <= 2 ^ Z.of_nat (loop_fuel c w).
Proof.
  intros [Hl _]. unfold loop_fuel. rewrite Hl.
  assert (B * Z.of_nat N <= Z.of_nat N * C) by (rewrite Z.mul_comm; apply Z.mul_le_mono_nonneg_l; lia).
  assert (0 <= B * Z.of_nat N) by (apply Z.mul_nonneg_nonneg; lia).
  rewrite Z2Nat.id by lia. apply pow2_le. lia.
Qed.

Lemma powmod_spec x e m : big_wf c x -> big_wf c e -> big_wf c m -> 1 < V m ->
  exists r, powmod c x e m = Some r /\ big_wf c r /\ V r = (V x ^ V e) mod V m.
Proof.
  intros Hx He Hm Hp. unfold powmod. rewrite (norm_wf c Hok x Hx). cbn [bind].
  rewrite (norm_wf c Hok e He). cbn [bind]. destruct (one_wf c Hok) as [O1 O2].
  destruct (powmod_loop_spec c Hok (S (loop_fuel c e)) (big_new_int c 1) e x m O1 He Hx Hm Hp) as [r [R1 [R2 R3]]].
  - rewrite O2. lia.
  - rewrite Nat2Z.inj_succ. replace (Z.succ (Z.of_nat (loop_fuel c e)) - 1) with (Z.of_nat (loop_fuel c e)) by lia.
    pose proof (brange e He). pose proof (fuel_cap e He). lia.
  - lia.
  - exists r. split; [exact R1|]. split; [exact R2|]. rewrite R3, O2. f_equal. ring.
Qed.

(** halving, on a number below twice the capacity *)
Lemma half_spec w : big_wf c w -> exists r, fshr c w 1 = Some (V w mod 2, r) /\ big_wf c r /\ V r = V w / 2.
Proof.
  intros Hw. destruct (fshr_canon c HB HC w 1 ltac:(lia) (proj2 Hw) (bne w Hw)) as [r [Z1 [Z2 [Z3 Z4]]]].
  change (2 ^ 1) with 2 in *. exists r. split; [exact Z1|]. split; [split; [rewrite Z4; exact (proj1 Hw)|exact Z3]|exact Z2].
Qed.

Lemma half_add x p : big_wf c x -> big_wf c p -> V x < V p -> exists s t r,
  add c x p = Some s /\ norm c s = Some t /\ (exists b, fshr c t 1 = Some (b, r)) /\ big_wf c r /\ V r = (V x + V p) / 2.
Proof.
  intros Hx Hp Hlt. pose proof (brange x Hx). pose proof (brange p Hp).
  destruct (add_total c HB HC 0 (X - 1) 0 (X - 1) x p) as [s [A1 A2]].
  { apply canon_within; exact (proj2 Hx). } { apply canon_within; exact (proj2 Hp). }
  { rewrite (proj1 Hx), (proj1 Hp); reflexivity. } { lia. } { lia. }
  pose proof (add_val c x p s A1 ltac:(rewrite (proj1 Hx), (proj1 Hp); reflexivity)) as [A3 A4].
  destruct (norm_total c HB HC s) as [t [N1 [N2 [N3 N4]]]].
  { apply (within_small c (0 + 0) (X - 1 + (X - 1))); [exact A2|lia|lia]. }
  destruct (shr_limbs_spec c HB HC t 1 ltac:(lia) N3) as [S1 [S2 S3]]. change (2 ^ 1) with 2 in S1.
  assert (Vr : V (shr_limbs c 1 t) = (V x + V p) / 2) by (rewrite S1, N2, A3; reflexivity).
  exists s, t, (shr_limbs c 1 t). split; [exact A1|]. split; [exact N1|]. split.
  - unfold fshr. replace ((0 <=? 1) && (1 <=? B)) with true; [eexists; reflexivity|].
    symmetry. apply andb_true_iff. split; apply Z.leb_le; lia.
  - split; [|exact Vr].
    assert (Len : length (shr_limbs c 1 t) = N) by (rewrite S3, N4, A4; exact (proj1 Hx)).
    split; [exact Len|]. apply (nrm_canon B _ N HB0 S2 Len). rewrite Vr.
    split; [apply Z.div_pos; lia|apply Z.div_lt_upper_bound; lia].
Qed.

Lemma inv_even_spec p a fuel : big_wf c p -> V p mod 2 = 1 -> forall u x,
  big_wf c u -> big_wf c x -> 0 < V u -> V u < 2 ^ Z.of_nat fuel -> V x < V p -> (V p | V x * a - V u) ->
  exists u' x' k, inv_even fuel c p u x = Some (u', x') /\ big_wf c u' /\ big_wf c x' /\ V u = 2 ^ k * V u' /\ 0 <= k
    /\ 0 < V u' /\ V u' mod 2 = 1 /\ V x' < V p /\ (V p | V x' * a - V u').
Proof.
  intros Wp Op. induction fuel as [|f IH]; intros u x Hu Hx Hu0 Huf Hxp Hc.
  - change (2 ^ Z.of_nat 0) with 1 in Huf. lia.
  - cbn [inv_even]. rewrite (parity_wf c Hok u Hu).
    pose proof (Z.mod_pos_bound (V u) 2 ltac:(lia)) as Mu. pose proof (Z.div_mod (V u) 2 ltac:(lia)) as Du.
    destruct (Z.eqb_spec (V u mod 2) 0) as [E|E].
    + destruct (half_spec u Hu) as [u1 [U1 [U2 U3]]]. rewrite U1. cbn [bind].
      rewrite E, <- U3 in Du. rewrite (parity_wf c Hok x Hx).
      assert (St : exists x1 b x2, (if V x mod 2 =? 0 then Some x else x0 <- add c x p;; norm c x0) = Some x1
         /\ fshr c x1 1 = Some (b, x2) /\ big_wf c x2 /\ V x2 < V p /\ (V p | V x2 * a - V u1)).
      { pose proof (brange x Hx) as Rx.
        destruct (Z.eqb_spec (V x mod 2) 0) as [Ex|Ex].
        - destruct (half_spec x Hx) as [x2 [X1 [X2 X3]]]. exists x, (V x mod 2), x2. split; [reflexivity|]. split; [exact X1|].
          split; [exact X2|]. pose proof (Z.div_mod (V x) 2 ltac:(lia)) as Dx. rewrite Ex, <- X3 in Dx.
          split; [pose proof (brange x2 X2); lia|]. apply cong_half; [exact Op|].
          replace (2 * V x2) with (V x) by lia. replace (2 * V u1) with (V u) by lia. exact Hc.
        - destruct (half_add x p Hx Wp Hxp) as [s [t [x2 [A1 [A2 [[b A3] [A4 A5]]]]]]].
          exists t, b, x2. rewrite A1. cbn [bind]. split; [exact A2|]. split; [exact A3|]. split; [exact A4|].
          assert (Ev : (V x + V p) mod 2 = 0).
          { rewrite Z.add_mod, Op by lia. pose proof (Z.mod_pos_bound (V x) 2 ltac:(lia)).
            replace (V x mod 2) with 1 by lia. reflexivity. }
          pose proof (Z.div_mod (V x + V p) 2 ltac:(lia)) as Dx. rewrite Ev, <- A5 in Dx.
          split; [lia|]. apply cong_half; [exact Op|].
          replace (2 * V x2) with (V x + V p) by lia. replace (2 * V u1) with (V u) by lia.
          replace ((V x + V p) * a - V u) with ((V x * a - V u) + V p * a) by ring.
          apply Z.divide_add_r; [exact Hc|]. apply Z.divide_factor_l. }
      destruct St as [x1 [b [x2 [T1 [T2 [T3 [T4 T5]]]]]]]. rewrite T1. cbn [bind]. rewrite T2. cbn [bind snd].
      destruct (IH u1 x2 U2 T3) as [u' [x' [k [I1 [I2 [I3 [I4 [I5 [I6 [I7 [I8 I9]]]]]]]]]]]; try assumption.
      { lia. } { rewrite Nat2Z.inj_succ, Z.pow_succ_r in Huf by lia. lia. }
      exists u', x', (k + 1). split; [exact I1|]. split; [exact I2|]. split; [exact I3|]. split.
      { rewrite Z.pow_add_r by lia. change (2 ^ 1) with 2. rewrite Du, I4. ring. }
      split; [lia|]. repeat (split; [assumption|]). assumption.
    + exists u, x, 0. change (2 ^ 0) with 1. split; [reflexivity|].
      split; [exact Hu|]. split; [exact Hx|]. split; [lia|]. split; [lia|]. split; [exact Hu0|]. split; [lia|]. split; assumption.
Qed.

(** divergence: a zero argument is halved for ever *)
Lemma inv_even_zero p fuel : forall u x, big_wf c u -> V u = 0 -> inv_even fuel c p u x = None.
Proof.
  induction fuel as [|f IH]; intros u x Hu Hz; cbn [inv_even]; rewrite (parity_wf c Hok u Hu), Hz; change (0 mod 2 =? 0) with true; cbn iota; [reflexivity|].
  destruct (half_spec u Hu) as [u1 [U1 [U2 U3]]]. rewrite U1. cbn [bind].
  destruct (if parity x =? 0 then Some x else x0 <- add c x p;; norm c x0) as [x1|]; [|reflexivity]. cbn [bind].
  destruct (fshr c x1 1) as [xx|]; [|reflexivity]. cbn [bind snd]. apply IH; [exact U2|]. rewrite U3, Hz. reflexivity.
Qed.

Lemma sub_wf a b : big_wf c a -> big_wf c b -> V b <= V a -> exists s r, sub c a b = Some s /\ norm c s = Some r /\ big_wf c r /\ V r = V a - V b.
Proof.
  intros Ha Hb Hle. destruct (sub_norm c Hok N HN2 a b Ha Hb) as [s [r [S1 [S2 [S3 [S4 _]]]]]].
  exists s, r. split; [exact S1|]. split; [exact S2|]. split; [|exact S4].
  apply (nn_wf c Hok N); [exact S3|]. rewrite S4. pose proof (brange a Ha). pose proof (brange b Hb).
  change (cap c N) with K. lia.
Qed.

Lemma inv_sub_spec p u v x1 x2 : big_wf c p -> big_wf c u -> big_wf c v -> big_wf c x1 -> big_wf c x2 ->
  V v <= V u -> V x1 < V p -> V x2 < V p ->
  exists u' x', inv_sub c p u v x1 x2 = Some (u', x') /\ big_wf c u' /\ big_wf c x' /\ V u' = V u - V v
    /\ V x' < V p /\ (V p | V x' - (V x1 - V x2)).
Proof.
  intros Wp Wu Wv W1 W2 Hle H1 H2. unfold inv_sub.
  destruct (sub_wf u v Wu Wv Hle) as [s [r [S1 [S2 [S3 S4]]]]]. rewrite S1. cbn [bind]. rewrite S2. cbn [bind].
  rewrite Z.leb_antisym, (comp_lt c HB x1 x2) by (first [apply canon_nrm; apply W1 | apply canon_nrm; apply W2 | rewrite (proj1 W1), (proj1 W2); reflexivity]).
  pose proof (brange x1 W1) as R1. pose proof (brange x2 W2) as R2. pose proof (brange p Wp) as Rp.
  destruct (Z.ltb_spec (V x1) (V x2)) as [Lt|Ge]; cbn [negb].
  - destruct (sub_total c HB HC 0 (X - 1) 0 (X - 1) p x2) as [t [A1 A2]].
    { apply canon_within; exact (proj2 Wp). } { apply canon_within; exact (proj2 W2). }
    { rewrite (proj1 W2), (proj1 Wp); reflexivity. } { lia. } { lia. }
    pose proof (sub_val c p x2 t A1 ltac:(rewrite (proj1 W2), (proj1 Wp); reflexivity)) as [A3 A4].
    rewrite A1. cbn [bind].
    destruct (add_total c HB HC 0 (X - 1) (0 - (X - 1)) (X - 1 - 0) x1 t) as [q [Q1 Q2]].
    { apply canon_within; exact (proj2 W1). } { exact A2. }
    { rewrite (proj1 W1), A4, (proj1 Wp); reflexivity. } { lia. } { lia. }
    pose proof (add_val c x1 t q Q1 ltac:(rewrite (proj1 W1), A4, (proj1 Wp); reflexivity)) as [Q3 Q4].
    rewrite Q1. cbn [bind].
    destruct (norm_total c HB HC q) as [y [N1 [N2 [N3 N4]]]].
    { apply (within_small c (0 + (0 - (X - 1))) (X - 1 + (X - 1 - 0))); [exact Q2|lia|lia]. }
    rewrite N1. cbn [bind]. exists r, y. split; [reflexivity|]. split; [exact S3|].
    assert (Vy : V y = V x1 + (V p - V x2)) by (rewrite N2, Q3, A3; reflexivity).
    split.
    { assert (Ly : length y = N) by (rewrite N4, Q4; exact (proj1 W1)). split; [exact Ly|].
      apply (nrm_canon B y N HB0 N3 Ly). rewrite Vy. lia. }
    split; [exact S4|]. rewrite Vy. split; [lia|]. exists 1. lia.
  - destruct (sub_wf x1 x2 W1 W2 Ge) as [s2 [r2 [T1 [T2 [T3 T4]]]]]. rewrite T1. cbn [bind]. rewrite T2. cbn [bind].
    exists r, r2. split; [reflexivity|]. split; [exact S3|]. split; [exact T3|]. split; [exact S4|]. rewrite T4. split; [lia|].
    exists 0. lia.
Qed.

Definition pot (u v : Z) : Z := if (u * v) mod 2 =? 0 then u * v else 2 * (u * v).

Lemma pot_step u v u' v' ku kv d : 0 < u' -> 0 < v' -> 0 <= ku -> 0 <= kv -> u = 2 ^ ku * u' -> v = 2 ^ kv * v' ->
  u' mod 2 = 1 -> v' mod 2 = 1 -> 0 < d -> d mod 2 = 0 -> (d <= u' /\ 0 < d -> True) ->
  (d <= u' -> 2 * pot d v' <= pot u v) /\ (d <= v' -> 2 * pot u' d <= pot u v).
Proof.
  intros Hu Hv Hku Hkv Eu Ev Ou Ov Hd Ed _.
  assert (G : 2 * (u' * v') <= pot u v).
  { assert (O : (u' * v') mod 2 = 1) by (rewrite Z.mul_mod, Ou, Ov by lia; reflexivity).
    assert (P : 0 < u' * v') by (apply Z.mul_pos_pos; lia).
    assert (Eq : u * v = 2 ^ (ku + kv) * (u' * v')) by (rewrite Z.pow_add_r, Eu, Ev by lia; ring).
    unfold pot. rewrite Eq.
    destruct (Z.eq_dec (ku + kv) 0) as [E0|E0].
    - rewrite E0. change (2 ^ 0) with 1. rewrite Z.mul_1_l, O. change (1 =? 0) with false. cbn iota. lia.
    - replace (ku + kv) with (1 + (ku + kv - 1)) by lia. rewrite Z.pow_add_r by lia. change (2 ^ 1) with 2.
      assert (1 <= 2 ^ (ku + kv - 1)) by (pose proof (pow2_pos (ku + kv - 1) ltac:(lia)); lia).
      set (T := 2 ^ (ku + kv - 1)) in *.
      assert (2 * (u' * v') <= 2 * T * (u' * v')) by (apply Z.mul_le_mono_nonneg_r; lia).
      replace ((2 * T * (u' * v')) mod 2) with 0.
      2:{ replace (2 * T * (u' * v')) with (T * (u' * v') * 2) by ring. symmetry. apply Z.mod_mul. lia. }
      cbn [Z.eqb]. lia. }
  assert (P1 : pot d v' = d * v').
  { unfold pot. rewrite Z.mul_mod, Ed by lia. reflexivity. }
  assert (P2 : pot u' d = u' * d).
  { unfold pot. rewrite Z.mul_mod, Ed, Z.mul_0_r by lia. reflexivity. }
  split; intros Hle; [rewrite P1|rewrite P2].
  - assert (d * v' <= u' * v') by (apply Z.mul_le_mono_nonneg_r; lia). lia.
  - assert (u' * d <= u' * v') by (apply Z.mul_le_mono_nonneg_l; lia). lia.
Qed.

Lemma inv_loop_spec p a one fuel : big_wf c p -> V p mod 2 = 1 -> 1 < V p -> big_wf c one -> V one = 1 -> forall u v x1 x2,
  big_wf c u -> big_wf c v -> big_wf c x1 -> big_wf c x2 -> 0 < V u -> 0 < V v ->
  Z.gcd (V u) (V v) = 1 -> V x1 < V p -> V x2 < V p ->
  (V p | V x1 * a - V u) -> (V p | V x2 * a - V v) -> pot (V u) (V v) < 2 ^ Z.of_nat fuel ->
  exists r, inv_loop fuel c p one u v x1 x2 = Some r /\ big_wf c r /\ V r < V p /\ (V p | V r * a - 1).
Proof.
  intros Wp Op P1 Wo Vo. induction fuel as [|f IH]; intros u v x1 x2 Wu Wv W1 W2 Pu Pv G L1 L2 C1 C2 Hpot.
  - exfalso. change (2 ^ Z.of_nat 0) with 1 in Hpot. assert (0 < V u * V v) by (apply Z.mul_pos_pos; lia).
    unfold pot in Hpot. destruct ((V u * V v) mod 2 =? 0); lia.
  - cbn [inv_loop].
    assert (CU : (comp u one =? 0) = (V u =? 1)).
    { rewrite <- Vo. apply (comp_eq c HB); [apply canon_nrm; apply Wu|apply canon_nrm; apply Wo|rewrite (proj1 Wu), (proj1 Wo); reflexivity]. }
    assert (CV : (comp v one =? 0) = (V v =? 1)).
    { rewrite <- Vo. apply (comp_eq c HB); [apply canon_nrm; apply Wv|apply canon_nrm; apply Wo|rewrite (proj1 Wv), (proj1 Wo); reflexivity]. }
    rewrite CU, CV.
    destruct (Z.eqb_spec (V u) 1) as [U1|U1]; cbn [negb andb].
    { exists x1. split; [reflexivity|]. split; [exact W1|]. split; [exact L1|]. rewrite <- U1. exact C1. }
    destruct (Z.eqb_spec (V v) 1) as [V1|V1]; cbn [negb].
    { exists x2. split; [reflexivity|]. split; [exact W2|]. split; [exact L2|]. rewrite <- V1. exact C2. }
    pose proof (fuel_cap p Wp) as Fp. pose proof (brange u Wu) as Ru. pose proof (brange v Wv) as Rv.
    destruct (inv_even_spec p a (loop_fuel c p) Wp Op u x1 Wu W1 Pu ltac:(lia) L1 C1)
      as [u' [y1 [ku [I1 [I2 [I3 [I4 [I5 [I6 [I7 [I8 I9]]]]]]]]]]].
    destruct (inv_even_spec p a (loop_fuel c p) Wp Op v x2 Wv W2 Pv ltac:(lia) L2 C2)
      as [v' [y2 [kv [J1 [J2 [J3 [J4 [J5 [J6 [J7 [J8 J9]]]]]]]]]]].
    rewrite I1. cbn [bind]. rewrite J1. cbn [bind].
    assert (G' : Z.gcd (V u') (V v') = 1).
    { assert (D : (Z.gcd (V u') (V v') | 1)).
      { rewrite <- G. apply Z.gcd_greatest.
        - rewrite I4. apply Z.divide_mul_r. apply Z.gcd_divide_l.
        - rewrite J4. apply Z.divide_mul_r. apply Z.gcd_divide_r. }
      apply Z.divide_1_r_nonneg in D; [exact D|apply Z.gcd_nonneg]. }
    assert (NE : V u' <> V v').
    { intros E. rewrite E, Z.gcd_diag, Z.abs_eq in G' by lia. rewrite G' in *.
      (* both even or one of them was 1 *)
      destruct (Z.eq_dec ku 0) as [->|Hku]; [rewrite E in I4; change (2 ^ 0) with 1 in I4; lia|].
      destruct (Z.eq_dec kv 0) as [->|Hkv]; [change (2 ^ 0) with 1 in J4; lia|].
      assert (D : (2 | 1)).
      { rewrite <- G. apply Z.gcd_greatest; [rewrite I4|rewrite J4].
        - replace ku with (1 + (ku - 1)) by lia. rewrite Z.pow_add_r by lia. change (2 ^ 1) with 2. rewrite <- Z.mul_assoc. apply Z.divide_factor_l.
        - replace kv with (1 + (kv - 1)) by lia. rewrite Z.pow_add_r by lia. change (2 ^ 1) with 2. rewrite <- Z.mul_assoc. apply Z.divide_factor_l. }
      apply Z.divide_pos_le in D; lia. }
    rewrite Z.leb_antisym, (comp_lt c HB u' v') by (first [apply canon_nrm; apply I2 | apply canon_nrm; apply J2 | rewrite (proj1 I2), (proj1 J2); reflexivity]).
    rewrite Nat2Z.inj_succ, Z.pow_succ_r in Hpot by lia.
    destruct (Z.ltb_spec (V u') (V v')) as [Lt|Ge]; cbn [negb].
    + destruct (inv_sub_spec p v' u' y2 y1 Wp J2 I2 J3 I3 ltac:(lia) J8 I8) as [v1 [z [Q1 [Q2 [Q3 [Q4 [Q5 Q6]]]]]]].
      rewrite Q1. cbn [bind fst snd]. apply IH; try assumption; try lia.
      * rewrite Q4, Z.gcd_comm, gcd_sub, Z.gcd_comm. exact G'.
      * rewrite Q4. replace (V z * a - (V v' - V u')) with ((V z - (V y2 - V y1)) * a + (V y2 * a - V v') - (V y1 * a - V u')) by ring.
        apply Z.divide_sub_r; [|exact I9]. apply Z.divide_add_r; [|exact J9]. apply Z.divide_mul_l. exact Q6.
      * rewrite Q4. destruct (pot_step (V u) (V v) (V u') (V v') ku kv (V v' - V u')) as [_ PS]; try assumption; try lia.
        rewrite Zminus_mod, I7, J7. reflexivity.
    + destruct (inv_sub_spec p u' v' y1 y2 Wp I2 J2 I3 J3 ltac:(lia) I8 J8) as [u1 [z [Q1 [Q2 [Q3 [Q4 [Q5 Q6]]]]]]].
      rewrite Q1. cbn [bind fst snd]. apply IH; try assumption; try lia.
      * rewrite Q4, gcd_sub. exact G'.
      * rewrite Q4. replace (V z * a - (V u' - V v')) with ((V z - (V y1 - V y2)) * a + (V y1 * a - V u') - (V y2 * a - V v')) by ring.
        apply Z.divide_sub_r; [|exact J9]. apply Z.divide_add_r; [|exact I9]. apply Z.divide_mul_l. exact Q6.
      * rewrite Q4. destruct (pot_step (V u) (V v) (V u') (V v') ku kv (V u' - V v')) as [PS _]; try assumption; try lia.
        rewrite Zminus_mod, I7, J7. reflexivity.
Qed.

Lemma invmodp_spec x p : big_wf c x -> big_wf c p -> 1 < V p -> V p mod 2 = 1 -> Z.gcd (V x) (V p) = 1 ->
  exists r, invmodp c x p = Some r /\ big_wf c r /\ V r < V p /\ (V r * V x) mod V p = 1.
Proof.
  intros Wx Wp P1 Op G. unfold invmodp.
  destruct (rmod_spec c Hok x p Wx Wp ltac:(lia)) as [u [U1 [U2 U3]]]. rewrite U1. cbn [bind].
  destruct (one_wf c Hok) as [O1 O2]. destruct (zero_wf c Hok) as [Z1 Z2].
  assert (Gu : Z.gcd (V u) (V p) = 1) by (rewrite U3, Z.gcd_mod, Z.gcd_comm by lia; exact G).
  pose proof (Z.mod_pos_bound (V x) (V p) ltac:(lia)) as Mb.
  assert (Pu : 0 < V u).
  { destruct (Z.eq_dec (V u) 0) as [E|E]; [|lia]. rewrite E, Z.gcd_0_l, Z.abs_eq in Gu by lia. lia. }
  pose proof (brange p Wp) as Rp. pose proof (fuel_cap p Wp) as Fp.
  destruct (inv_loop_spec p (V u) (big_new_int c 1) (S (2 * loop_fuel c p)) Wp Op P1 O1 O2 u p (big_new_int c 1) (big_new c))
    as [r [R1 [R2 [R3 R4]]]]; try assumption; try lia.
  - rewrite O2. exists 0. lia.
  - rewrite Z2. exists (-1). lia.
  - assert (V u * V p < K * K) by (apply Z.mul_lt_mono_nonneg; lia).
    assert (K * K <= 2 ^ Z.of_nat (loop_fuel c p) * 2 ^ Z.of_nat (loop_fuel c p)) by (apply Z.mul_le_mono_nonneg; lia).
    rewrite <- (Z.pow_add_r 2 (Z.of_nat (loop_fuel c p))) in H0 by lia.
    replace (Z.of_nat (S (2 * loop_fuel c p))) with (Z.succ (Z.of_nat (loop_fuel c p) + Z.of_nat (loop_fuel c p))) by lia.
    rewrite Z.pow_succ_r by lia. unfold pot.
    assert (0 < V u * V p) by (apply Z.mul_pos_pos; lia).
    destruct ((V u * V p) mod 2 =? 0); lia.
  - exists r. split; [exact R1|]. split; [exact R2|]. split; [exact R3|].
    rewrite <- Z.mul_mod_idemp_r, <- U3 by lia. destruct R4 as [k Hk].
    replace (V r * V u) with (1 + k * V p) by lia. rewrite Z.mod_add by lia. apply Z.mod_small. lia.
Qed.

Lemma invmodp_zero x p : big_wf c x -> big_wf c p -> 1 < V p -> V x mod V p = 0 -> invmodp c x p = None.
Proof.
  intros Wx Wp P1 E. unfold invmodp.
  destruct (rmod_spec c Hok x p Wx Wp ltac:(lia)) as [u [U1 [U2 U3]]]. rewrite U1. cbn [bind].
  destruct (one_wf c Hok) as [O1 O2]. cbn [inv_loop].
  rewrite (comp_eq c HB u) by (first [apply canon_nrm; apply U2 | apply canon_nrm; apply O1 | rewrite (proj1 U2), (proj1 O1); reflexivity]).
  rewrite (comp_eq c HB p) by (first [apply canon_nrm; apply Wp | apply canon_nrm; apply O1 | rewrite (proj1 Wp), (proj1 O1); reflexivity]).
  rewrite O2, U3, E. destruct (Z.eqb_spec 0 1); [lia|]. destruct (Z.eqb_spec (V p) 1); [lia|]. cbn [negb andb].
  rewrite inv_even_zero; [reflexivity|exact U2|]. rewrite U3; exact E.
Qed.
End WithCfg.
