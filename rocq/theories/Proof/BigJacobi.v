(** big.rs jacobi computes the Jacobi symbol. *)
From Verif Require Import Base.Word Model.Big Spec.BigSpec Spec.Bytes Proof.BigVal Proof.BigShift Proof.BigBytes Proof.BigMul Proof.BigSqr Proof.BigMod Proof.BigInv Proof.NumTheory Proof.Reciprocity.
From Verif Require Import Spec.JacobiSpec.
From Coq Require Import Psatz Zpow_facts Znumtheory.

Lemma odd_mod2 n : Z.odd n = true <-> n mod 2 = 1.
Proof. rewrite Zmod_odd. destruct (Z.odd n); intuition; discriminate. Qed.
Lemma gcd_strip k x n : 0 <= k -> Z.odd n = true -> Z.gcd (2 ^ k * x) n = Z.gcd x n.
Proof.
  intros Hk Ho. apply Z.divide_antisym_nonneg; try apply Z.gcd_nonneg.
  - apply Z.gcd_greatest; [|apply Z.gcd_divide_r].
    apply (Z.gauss _ (2 ^ k)); [apply Z.gcd_divide_l|].
    assert (D : (Z.gcd (Z.gcd (2 ^ k * x) n) (2 ^ k) | 1)).
    { rewrite <- (gcd_pow2_odd k n Hk Ho). apply Z.gcd_greatest; [apply Z.gcd_divide_r|].
      eapply Z.divide_trans; [apply Z.gcd_divide_l|apply Z.gcd_divide_r]. }
    apply Z.divide_1_r_nonneg in D; [exact D|apply Z.gcd_nonneg].
  - apply Z.gcd_greatest; [apply Z.divide_mul_r, Z.gcd_divide_l|apply Z.gcd_divide_r].
Qed.
Lemma sgn_mod2 a : sgn (a mod 2) = sgn a.
Proof. apply sgn_ext. pose proof (Z.div_mod a 2 ltac:(lia)). exists (- (a / 2)). lia. Qed.
Lemma n8_law n : Z.odd n = true -> sgn ((n * n - 1) / 8) = sgn (((n mod 8) * (n mod 8) - 1) / 8).
Proof.
  intros Ho. pose proof (Z.div_mod n 8 ltac:(lia)) as E. pose proof (Z.mod_pos_bound n 8 ltac:(lia)) as Bd.
  set (q := n / 8) in *. set (r := n mod 8) in *.
  assert (Hr : r = 1 \/ r = 3 \/ r = 5 \/ r = 7).
  { rewrite E in Ho. rewrite Z.odd_add, Z.odd_mul in Ho. cbn [Z.odd andb xorb] in Ho.
    assert (C : r = 0 \/ r = 1 \/ r = 2 \/ r = 3 \/ r = 4 \/ r = 5 \/ r = 6 \/ r = 7) by lia.
    destruct C as [C|[C|[C|[C|[C|[C|[C|C]]]]]]]; rewrite C in Ho; try discriminate Ho; auto. }
  apply sgn_ext. exists (q * r + 4 * (q * q)).
  assert (E2 : n * n - 1 = (r * r - 1) + (2 * (q * r) + 8 * (q * q)) * 8) by (rewrite E; ring).
  rewrite E2, Z.div_add by lia. ring.
Qed.
Lemma recip_law n x : 0 < n -> Z.odd n = true -> 0 < x -> Z.odd x = true ->
  sgn (Z.of_nat (hlf x) * Z.of_nat (hlf n)) = sgn ((n mod 8 - 1) * (x mod 4 - 1) / 4).
Proof.
  intros Hn Hno Hx Hxo. pose proof (half_odd n Hn Hno) as E1. pose proof (half_odd x Hx Hxo) as E2.
  set (u := Z.of_nat (hlf x)) in *. set (v := Z.of_nat (hlf n)) in *.
  pose proof (Z.div_mod n 8 ltac:(lia)) as D1. pose proof (Z.div_mod x 4 ltac:(lia)) as D2.
  set (q1 := n / 8) in *. set (r1 := n mod 8) in *. set (q2 := x / 4) in *. set (r2 := x mod 4) in *.
  assert (F1 : r1 - 1 = 2 * (v - 4 * q1)) by lia. assert (F2 : r2 - 1 = 2 * (u - 2 * q2)) by lia.
  rewrite F1, F2. replace (2 * (v - 4 * q1) * (2 * (u - 2 * q2))) with ((v - 4 * q1) * (u - 2 * q2) * 4) by ring.
  rewrite Z.div_mul by lia. apply sgn_ext. exists (v * q2 + 2 * q1 * u - 4 * q1 * q2). ring.
Qed.
(** one step of the algorithm *)
Lemma jac_step n x k : 0 < n -> Z.odd n = true -> 0 < x -> Z.odd x = true ->
  jac (2 ^ Z.of_nat k * x) n =
  sgn ((if Z.odd (Z.of_nat k) then ((n mod 8) * (n mod 8) - 1) / 8 else 0) + (n mod 8 - 1) * (x mod 4 - 1) / 4) * jac (n mod x) x.
Proof.
  intros Hn Hno Hx Hxo. unfold jac. rewrite gcd_strip by (lia || assumption).
  rewrite (Z.gcd_comm (n mod x)). rewrite <- (Z.gcd_mod n x) by lia. rewrite (Z.gcd_comm (n mod x) x), (Z.gcd_comm x (n mod x)).
  rewrite Z.gcd_mod by lia. 
  destruct (Z.eqb_spec (Z.gcd x n) 1) as [G|G]; [|ring].
  assert (G2 : Z.gcd 2 n = 1) by (change 2 with (2 ^ 1); apply gcd_pow2_odd; [lia|exact Hno]).
  rewrite (J_mul n Hn Hno); [|apply gcd_pow2_odd; [lia|exact Hno]|exact G].
  rewrite (J_pow n Hn Hno 2 k G2), (J_two n Hn Hno), (n8_law n Hno).
  rewrite sgn_add. pose proof (reciprocity x n Hn Hno Hx Hxo G) as R. rewrite (recip_law n x Hn Hno Hx Hxo) in R.
  rewrite (J_mod (n mod x) n x) by (apply Z.mod_mod; lia).
  assert (E1 : sgn (((n mod 8) * (n mod 8) - 1) / 8) ^ Z.of_nat k = sgn (if Z.odd (Z.of_nat k) then ((n mod 8) * (n mod 8) - 1) / 8 else 0)).
  { set (z := ((n mod 8) * (n mod 8) - 1) / 8). clear. induction k as [|k IH]; [reflexivity|].
    rewrite Nat2Z.inj_succ, Z.pow_succ_r, IH, Z.odd_succ, <- Z.negb_odd by lia.
    destruct (Z.odd (Z.of_nat k)); cbn [negb]; [rewrite sgn_sq|change (sgn 0) with 1; rewrite Z.mul_1_r]; reflexivity. }
  rewrite E1, <- R. pose proof (J_sq n x) as Q.
  transitivity (sgn (if Z.odd (Z.of_nat k) then ((n mod 8) * (n mod 8) - 1) / 8 else 0) * J x n * (J n x * J n x)); [rewrite Q; ring|ring].
Qed.

Section WithCfg.
Variable c : cfg.
Hypothesis Hok : cfg_ok c.
Notation B := (BASEBITS c).
Notation C := (CHUNK c).
Notation N := (NLEN c).
Notation V := (val (BASEBITS c)).
Notation K := (2 ^ (BASEBITS c * Z.of_nat (NLEN c))).
Let F := cfg_ok_facts c Hok.
Let HB16 : 16 <= B. Proof. exact (cf_B c F). Qed.
Let HB : 8 <= B. Proof. lia. Qed.
Let HC : B + 3 <= C. Proof. exact (cf_C c F). Qed.
Let HN2 : (2 <= N)%nat. Proof. exact (cf_N c F). Qed.

Lemma shr1_wf x : big_wf c x -> exists r, shr c x 1 = Some r /\ big_wf c r /\ V r = V x / 2.
Proof.
  intros Hx. destruct (shr_spec c HB HC x 1) as [r [S1 [S2 [S3 S4]]]].
  - rewrite (proj1 Hx). split; [lia|]. apply Z.lt_le_trans with (16 * 1); [lia|]. apply Z.mul_le_mono_nonneg; lia.
  - exact (proj2 Hx).
  - exists r. split; [exact S1|]. split; [split; [rewrite S4; exact (proj1 Hx)|exact S3]|exact S2].
Qed.
Lemma lastbits_wf x k : big_wf c x -> 0 <= k <= 8 -> lastbits c x k = Some (V x mod 2 ^ k, x).
Proof.
  intros Hx Hk. unfold lastbits. rewrite (norm_wf c Hok x Hx). cbn [bind].
  rewrite (get0_land c); [reflexivity|lia|exact (bne c Hok x Hx)].
Qed.

Lemma jac_strip_spec fuel : forall x k, big_wf c x -> 0 < V x < 2 ^ Z.of_nat fuel ->
  exists x' j, jac_strip fuel c x k = Some (x', k + Z.of_nat j) /\ big_wf c x' /\ V x = 2 ^ Z.of_nat j * V x' /\ Z.odd (V x') = true /\ 0 < V x'.
Proof.
  induction fuel as [|f IH]; intros x k Hx Hf.
  - change (2 ^ Z.of_nat 0) with 1 in Hf. lia.
  - cbn [jac_strip]. rewrite (parity_wf c Hok x Hx). pose proof (Z.div_mod (V x) 2 ltac:(lia)) as D.
    destruct (Z.eqb_spec (V x mod 2) 0) as [E|E].
    + destruct (shr1_wf x Hx) as [x1 [S1 [S2 S3]]]. rewrite S1. cbn [bind]. rewrite E, <- S3 in D.
      rewrite Nat2Z.inj_succ, Z.pow_succ_r in Hf by lia.
      destruct (IH x1 (k + 1) S2 ltac:(lia)) as [x' [j [I1 [I2 [I3 [I4 I5]]]]]].
      exists x', (S j). split; [rewrite I1; do 2 f_equal; lia|]. split; [exact I2|]. split; [|split; [exact I4|exact I5]].
      rewrite Nat2Z.inj_succ, Z.pow_succ_r by lia. rewrite D, I3. ring.
    + exists x, 0%nat. split; [do 2 f_equal; lia|]. split; [exact Hx|]. split; [change (2 ^ Z.of_nat 0) with 1; lia|].
      split; [apply odd_mod2; pose proof (Z.mod_pos_bound (V x) 2 ltac:(lia)); lia|lia].
Qed.

Lemma jac_one a : jac a 1 = 1.
Proof. unfold jac. rewrite Z.gcd_1_r. reflexivity. Qed.
Lemma jac_zero n : 1 < n -> jac 0 n = 0.
Proof. intros H. unfold jac. rewrite Z.gcd_0_l, Z.abs_eq by lia. destruct (Z.eqb_spec n 1); lia. Qed.

Lemma jac_loop_spec fuel : forall x n m, big_wf c x -> big_wf c n -> 0 < V n -> Z.odd (V n) = true ->
  V x * V n < 2 ^ Z.of_nat fuel -> (V n = 1 \/ V x < V n) -> (m = 0 \/ m = 1) ->
  jac_loop fuel c (big_new_int c 1) x n m = Some (sgn m * jac (V x) (V n)).
Proof.
  destruct (one_wf c Hok) as [O1 O2].
  induction fuel as [|f IH]; intros x n m Hx Hn Hn0 Hno Hf Hlt Hm; cbn [jac_loop].
  all: rewrite (comp_spec c HB) by (first [apply canon_nrm; first [exact (proj2 Hn)|exact (proj2 O1)]|rewrite (proj1 Hn), (proj1 O1); reflexivity|lia]).
  all: rewrite O2; destruct (Z.compare_spec (V n) 1) as [E|E|E]; try lia; cbn [Z.ltb Z.compare].
  all: pose proof (brange c Hok x Hx) as Rx.
  1,3: rewrite E, jac_one; destruct Hm as [-> | ->]; reflexivity.
  all: change (0 <? 1) with true; cbv iota.
  all: rewrite (iszilch_spec c HB) by (first [apply canon_nrm; exact (proj2 Hx)|lia]).
  all: destruct (Z.eqb_spec (V x) 0) as [Ex|Ex]; [rewrite Ex, jac_zero, Z.mul_0_r by lia; reflexivity|].
  - exfalso. change (2 ^ Z.of_nat 0) with 1 in Hf. assert (1 * 1 <= V x * V n) by (apply Z.mul_le_mono_nonneg; lia). lia.
  - rewrite (lastbits_wf n 3 Hn) by lia. cbn [bind fst snd]. change (2 ^ 3) with 8.
    destruct (jac_strip_spec (loop_fuel c x) x 0 Hx) as [x' [j [S1 [S2 [S3 [S4 S5]]]]]].
    { pose proof (fuel_cap c Hok x Hx). lia. }
    rewrite S1. cbn [bind]. rewrite (lastbits_wf x' 2 S2) by lia. cbn [bind fst snd]. change (2 ^ 2) with 4.
    destruct (rmod_spec c Hok n x' Hn S2 S5) as [t [T1 [T2 T3]]]. rewrite T1. cbn [bind].
    assert (Hxx : V x' <= V x).
    { rewrite S3. rewrite <- (Z.mul_1_l (V x')) at 1. apply Z.mul_le_mono_nonneg_r; [lia|]. pose proof (Z.pow_pos_nonneg 2 (Z.of_nat j)). lia. }
    pose proof (Z.mod_pos_bound (V n) (V x') S5) as Mb.
    rewrite IH; [|exact T2|exact S2|exact S5|exact S4| | | ].
    + f_equal. rewrite T3, S3, sgn_mod2. rewrite (jac_step (V n) (V x') j) by assumption.
      rewrite Z.add_0_l. rewrite Z.rem_mod_nonneg, Zmod_odd by lia.
      destruct (Z.odd (Z.of_nat j)); [change (1 =? 1) with true|change (0 =? 1) with false]; cbv iota; rewrite !sgn_add; [ring|change (sgn 0) with 1; ring].
    + rewrite T3. rewrite Nat2Z.inj_succ, Z.pow_succ_r in Hf by lia.
      assert (2 * (V n mod V x') < V n).
      { pose proof (Z.div_mod (V n) (V x') ltac:(lia)) as D. assert (1 <= V n / V x') by (apply Z.div_le_lower_bound; lia).
        assert (V x' * 1 <= V x' * (V n / V x')) by (apply Z.mul_le_mono_nonneg_l; lia). lia. }
      assert (2 * (V n mod V x') * V x' <= V n * V x) by (apply Z.mul_le_mono_nonneg; lia). lia.
    + right. rewrite T3. apply Mb.
    + match goal with |- ?z mod 2 = 0 \/ _ => pose proof (Z.mod_pos_bound z 2 ltac:(lia)) as Mz; clear - Mz; lia end.
Qed.

Lemma jacobi_spec x p : big_wf c x -> big_wf c p -> 1 < V p -> Z.odd (V p) = true ->
  jacobi c x p = Some (jac (V x) (V p)).
Proof.
  intros Hx Hp Hp1 Ho. destruct (one_wf c Hok) as [O1 O2]. unfold jacobi.
  rewrite (parity_wf c Hok p Hp). rewrite (proj1 (odd_mod2 (V p)) Ho). change (1 =? 0) with false. cbn [orb].
  rewrite (iszilch_spec c HB) by (first [apply canon_nrm; exact (proj2 Hx)|lia]).
  rewrite (comp_spec c HB) by (first [apply canon_nrm; first [exact (proj2 Hp)|exact (proj2 O1)]|rewrite (proj1 Hp), (proj1 O1); reflexivity|lia]).
  rewrite O2. destruct (Z.compare_spec (V p) 1) as [E|E|E]; try lia. change (1 <=? 0) with false. rewrite orb_false_r.
  destruct (Z.eqb_spec (V x) 0) as [Ex|Ex]; [rewrite Ex, jac_zero by lia; reflexivity|].
  rewrite (norm_wf c Hok x Hx). cbn [bind]. destruct (rmod_spec c Hok x p Hx Hp ltac:(lia)) as [t [T1 [T2 T3]]]. rewrite T1. cbn [bind].
  pose proof (Z.mod_pos_bound (V x) (V p) ltac:(lia)) as Mb.
  rewrite jac_loop_spec; try assumption; try lia.
  - change (sgn 0) with 1. rewrite Z.mul_1_l, T3. f_equal. unfold jac.
    rewrite (gcd_mod_eq (V x mod V p) (V x)), (J_mod (V x mod V p) (V x)) by (first [apply Z.mod_mod; lia|lia]). reflexivity.
  - pose proof (fuel_cap c Hok p Hp) as Fc. pose proof (brange c Hok p Hp) as Rp. rewrite Nat2Z.inj_succ, Z.pow_succ_r by lia.
    replace (Z.of_nat (2 * loop_fuel c p)) with (Z.of_nat (loop_fuel c p) + Z.of_nat (loop_fuel c p)) by lia. rewrite Z.pow_add_r by lia.
    set (L := 2 ^ Z.of_nat (loop_fuel c p)) in *. rewrite T3.
    assert (V x mod V p * V p < L * L).
    { apply Z.le_lt_trans with (V p * V p); [apply Z.mul_le_mono_nonneg_r; lia|]. apply Z.mul_lt_mono_nonneg; lia. }
    lia.
Qed.
End WithCfg.

(** ** the specification *)
Lemma jac_is_legendre p a : prime p -> Z.odd p = true -> is_legendre p a (jac a p).
Proof.
  intros Hp Ho. pose proof (prime_ge_2 p Hp). unfold jac, is_legendre.
  destruct (Z.eq_dec (a mod p) 0) as [E|E].
  - left. split; [exact E|].
    destruct (Z.eqb_spec (Z.gcd a p) 1) as [G|G]; [|reflexivity]. exfalso.
    assert (D : (p | Z.gcd a p)) by (apply Z.gcd_greatest; [apply Z.mod_divide; [lia|exact E]|apply Z.divide_refl]).
    rewrite G in D. apply Z.divide_1_r_nonneg in D; lia.
  - right. rewrite (prime_coprime p a Hp E). change (1 =? 1) with true. cbv iota.
    pose proof (J_legendre p a Hp Ho E) as L. destruct (J_cases a p) as [Q|Q].
    + left. split; [exact E|]. split; [apply L; exact Q|exact Q].
    + right. split; [exact E|]. split; [|exact Q]. intros Ex. apply L in Ex. lia.
Qed.
Lemma jac_is_jacobi a : forall ps, Forall (fun p => prime p /\ Z.odd p = true) ps ->
  is_jacobi a ps (jac a (product ps)) /\ 0 < product ps /\ Z.odd (product ps) = true.
Proof.
  induction ps as [|p ps IH]; intros H.
  - cbn. split; [rewrite jac_one; constructor|]. split; [lia|reflexivity].
  - inversion H as [|? ? [Hp Ho] Hps]; subst. destruct (IH Hps) as [I1 [I2 I3]]. pose proof (prime_ge_2 p Hp).
    cbn [product fold_right]. fold (product ps). split; [|split].
    + rewrite jac_mul_r by (lia || assumption). constructor; auto. apply jac_is_legendre; auto.
    + apply Z.mul_pos_pos; lia.
    + rewrite Z.odd_mul, Ho, I3. reflexivity.
Qed.
Lemma odd_factor n : 0 < n -> Z.odd n = true -> exists ps, Forall (fun p => prime p /\ Z.odd p = true) ps /\ product ps = n.
Proof.
  intros Hn. assert (H : 0 <= n) by lia. revert Hn. pattern n. revert n H. apply (Z_lt_induction); intros n IH Hn Ho.
  destruct (Z.eq_dec n 1) as [->|N1]; [exists []; split; [constructor|reflexivity]|].
  destruct (prime_dec n) as [P|P]; [exists [n]; split; [constructor; [split; assumption|constructor]|cbn; lia]|].
  apply not_prime_divide in P; [|lia]. destruct P as [m [Hm [q E]]].
  assert (Hq : 1 < q < n).
  { assert (0 < q) by (apply (Z.mul_pos_cancel_r q m); lia). split.
    - destruct (Z.eq_dec q 1); [subst q; lia|lia].
    - rewrite E. rewrite <- (Z.mul_1_r q) at 1. apply Z.mul_lt_mono_pos_l; lia. }
  rewrite E, Z.odd_mul in Ho. apply andb_true_iff in Ho. destruct Ho as [Oq Om].
  destruct (IH m ltac:(lia) ltac:(lia) Om) as [l1 [A1 A2]]. destruct (IH q ltac:(lia) ltac:(lia) Oq) as [l2 [B1 B2]].
  exists (l2 ++ l1). split; [apply Forall_app; auto|].
  assert (G : forall l l', product (l ++ l') = product l * product l').
  { induction l; intros l'; cbn [app product fold_right]; [fold (product l'); lia|]. fold (product (l ++ l')) (product l). rewrite IHl. ring. }
  rewrite G, A2, B2. symmetry. exact E.
Qed.
Lemma jac_zero_iff a n : jac a n = 0 <-> Z.gcd a n <> 1.
Proof.
  unfold jac. destruct (Z.eqb_spec (Z.gcd a n) 1) as [E|E]; [|tauto]. split; [|lia].
  intros Q. destruct (J_cases a n); lia.
Qed.
