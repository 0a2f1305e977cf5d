(** The simplified SWU map over F_p(i): which of the two candidates is a square, decided by norms. *)
From Verif Require Import Spec.TowerSpec Spec.SswuSpec Spec.Sswu2Spec Proof.NumTheory Proof.FpSqrt Proof.SswuMath Proof.TowerRing Proof.Fp12Ops Proof.TowerInv Proof.Fp2Sqrt.
From Coq Require Import ZArith Lia Znumtheory.
Open Scope Z_scope.

Section M.
Variable p : Z.
Hypothesis Hp : prime p.
Hypothesis H34 : p mod 4 = 3.
Variables A B Zc : Z2.
Hypothesis HA : norm2 A mod p <> 0.
Hypothesis HZ : (norm2 Zc ^ ((p - 1) / 2)) mod p = (-1) mod p.
Notation h := ((p - 1) / 2).
Notation "x == y" := (eq2 p x y) (at level 70).
Let P3 : 3 <= p. Proof. pose proof (prime_ge_2 p Hp). destruct (Z.eq_dec p 2) as [->|]; [discriminate H34|lia]. Qed.
Let P0 : p <> 0. Proof. lia. Qed.
Notation g := (gx2 A B).
Notation t u := (zu2 Zc u).
Notation tv u := (inv0_2 p (add2 (mul2 (zu2 Zc u) (zu2 Zc u)) (zu2 Zc u))).

Lemma norm2_cong x y : x == y -> norm2 x mod p = norm2 y mod p.
Proof. intros [E1 E2]. unfold norm2. rewrite Z.add_mod, (Z.mul_mod (fst x)), (Z.mul_mod (snd x)), E1, E2, <- !Z.mul_mod, <- Z.add_mod by exact P0. reflexivity. Qed.
Lemma g_cong x y : x == y -> g x == g y.
Proof. intros E. unfold gx2. apply eq2_add; [exact P0| |apply eq2_refl]. apply eq2_add; [exact P0| |]; repeat apply eq2_mul; try exact P0; try exact E; apply eq2_refl. Qed.
Lemma zero2b_iff v : zero2b p v = true <-> v == zero2.
Proof.
  unfold zero2b, eq2, zero2. cbn [fst snd]. rewrite Bool.andb_true_iff, !Z.eqb_eq, Z.mod_0_l by exact P0. tauto.
Qed.
Lemma norm_z v : norm2 v mod p = 0 <-> v == zero2.
Proof.
  split; [exact (norm2_zero p Hp v H34)|]. intros E. rewrite (norm2_cong _ _ E). reflexivity.
Qed.
Lemma inv_z a : zero2b p (inv0_2 p a) = zero2b p a.
Proof.
  assert (Q : a == zero2 -> inv0_2 p a == zero2).
  { intros [E1 E2]. unfold inv0_2, scale2, conj2, eq2, zero2 in *. cbn [fst snd] in *. rewrite Z.mod_0_l in * by exact P0. split; rewrite Z.mul_mod by exact P0; [rewrite E1|rewrite (Z.mod_opp_l_z (snd a) p P0 E2)]; rewrite Z.mul_0_r; apply Z.mod_0_l; exact P0. }
  destruct (zero2b p a) eqn:E; [apply zero2b_iff, Q, zero2b_iff, E|]. destruct (zero2b p (inv0_2 p a)) eqn:E2; [|reflexivity]. exfalso. apply zero2b_iff in E2.
  assert (Na : norm2 a mod p <> 0) by (intros K; apply norm_z, zero2b_iff in K; congruence). pose proof (inv2v_ok p Hp a Na) as I. change (inv2v p a) with (inv0_2 p a) in I.
  assert (K : mul2 a (inv0_2 p a) == mul2 a zero2) by (apply eq2_mul; [exact P0|apply eq2_refl|exact E2]).
  destruct I as [I _]. destruct K as [K _]. rewrite I in K. unfold one2, zero2, mul2 in K. cbn [fst snd] in K. rewrite !Z.mul_0_r, Z.mod_1_l, Z.mod_0_l in K by lia. discriminate K.
Qed.

(** the only exceptional u is zero *)
Lemma nsq_Z : ~ is_sq p (norm2 Zc).
Proof.
  intros S. assert (Nz : norm2 Zc mod p <> 0). { intros E. rewrite (pow_cg p Hp H34 _ 0 h (h0 p Hp H34)) in HZ by (rewrite E; symmetry; apply Z.mod_0_l; exact P0).
    rewrite Z.pow_0_l, Z.mod_0_l, (pm1 p Hp H34) in HZ; [lia|exact P0|]. pose proof (h2 p H34). pose proof (h0 p Hp H34). lia. }
  rewrite (sq_pow p Hp H34 _ Nz S) in HZ. symmetry in HZ. exact (one_ne p Hp H34 HZ).
Qed.
Lemma nz_Z : norm2 Zc mod p <> 0.
Proof. intros E. apply nsq_Z. exists 0. rewrite E. reflexivity. Qed.
Lemma exc_zero u : zero2b p (tv u) = true -> u == zero2.
Proof.
  rewrite inv_z. intros E. apply zero2b_iff in E.
  assert (E1 : mul2 (t u) (add2 (t u) one2) == zero2) by (eapply eq2_trans; [|exact E]; replace (mul2 (t u) (add2 (t u) one2)) with (add2 (mul2 (t u) (t u)) (t u)) by ring; apply eq2_refl).
  apply norm_z in E1. rewrite norm2_mul in E1. apply (prime_mul_zero p _ _ Hp) in E1. destruct E1 as [E1|E1].
  - unfold zu2 in E1. rewrite !norm2_mul in E1. apply (prime_mul_zero p _ _ Hp) in E1. destruct E1 as [E1|E1]; [destruct (nz_Z E1)|]. apply (prime_mul_zero p _ _ Hp) in E1. apply norm_z. tauto.
  - apply norm_z in E1. exfalso. assert (E2 : t u == neg2 one2).
    { apply (eq2_add p P0 _ (neg2 one2) _ (neg2 one2)) in E1; [|apply eq2_refl]. replace (add2 (add2 (t u) one2) (neg2 one2)) with (t u) in E1 by ring. replace (add2 zero2 (neg2 one2)) with (neg2 one2) in E1 by ring. exact E1. }
    apply norm2_cong in E2. unfold zu2 in E2. rewrite !norm2_mul in E2. change (norm2 (neg2 one2)) with 1 in E2.
    apply nsq_Z. set (n := norm2 u) in *. assert (Nn : n mod p <> 0). { intros K. rewrite Z.mul_assoc, Z.mul_mod, K, Z.mul_0_r, Z.mod_0_l, Z.mod_1_l in E2 by lia. discriminate E2. }
    pose proof (fermat_inv p n Hp Nn) as I. exists (n ^ (p - 2)). set (i := n ^ (p - 2)) in *. rewrite <- (Z.mod_1_l p) in I by lia. apply (cdiv p Hp H34) in E2, I. apply (cdiv p Hp H34).
    replace (i * i - norm2 Zc) with ((norm2 Zc * (n * n) - 1) * (- (i * i)) + (n * i - 1) * (norm2 Zc * (n * i + 1))) by ring. apply Z.divide_add_r; apply Z.divide_mul_l; assumption.
Qed.

(** gx2 = (Z u^2)^3 gx1 outside the exceptional case *)
Lemma gx_rel u : zero2b p (tv u) = false -> g (sswu2_x2 p A B Zc u) == mul2 (mul2 (mul2 (t u) (t u)) (t u)) (g (sswu2_x1 p A B Zc u)).
Proof.
  intros E. unfold sswu2_x2, sswu2_x1. cbv zeta. rewrite E. rewrite inv_z in E.
  assert (Na : norm2 (add2 (mul2 (t u) (t u)) (t u)) mod p <> 0) by (intros K; apply norm_z, zero2b_iff in K; congruence).
  pose proof (inv2v_ok p Hp _ Na) as I. pose proof (inv2v_ok p Hp _ HA) as IA. unfold inv2v in I, IA. fold (inv0_2 p A) in IA. fold (inv0_2 p (add2 (mul2 (t u) (t u)) (t u))) in I.
  clear E Na. generalize dependent (inv0_2 p (add2 (mul2 (t u) (t u)) (t u))). intros i I. generalize dependent (inv0_2 p A). intros ai IA. generalize dependent (t u). intros s I.
  apply (eq2_ex p) in I; [|exact P0]. apply (eq2_ex p) in IA; [|exact P0]. destruct I as [d2 I]. destruct IA as [d1 IA]. apply (eq2_ex p); [exact P0|].
  exists (neg2 (add2 (mul2 d2 (mul2 B (sub2 one2 s))) (mul2 d1 (mul2 B (mul2 (add2 one2 i) (sub2 s (mul2 s (mul2 s s)))))))). unfold gx2.
  set (x := mul2 (mul2 (neg2 B) ai) (add2 one2 i)).
  transitivity (add2 (mul2 (mul2 (mul2 s s) s) (add2 (add2 (mul2 (mul2 x x) x) (mul2 A x)) B)) (add2 (mul2 (mul2 A x) (sub2 s (mul2 (mul2 s s) s))) (mul2 B (sub2 one2 (mul2 (mul2 s s) s))))); [ring|]. f_equal.
  transitivity (add2 (mul2 (neg2 B) (mul2 (mul2 A ai) (mul2 (add2 one2 i) (sub2 s (mul2 (mul2 s s) s))))) (mul2 B (sub2 one2 (mul2 (mul2 s s) s)))); [unfold x; ring|]. rewrite IA.
  transitivity (add2 (mul2 (k2 p) (neg2 (mul2 d1 (mul2 B (mul2 (add2 one2 i) (sub2 s (mul2 s (mul2 s s)))))))) (add2 (mul2 (neg2 B) (add2 (sub2 s (mul2 (mul2 s s) s)) (mul2 (mul2 (add2 (mul2 s s) s) i) (sub2 one2 s)))) (mul2 B (sub2 one2 (mul2 (mul2 s s) s))))); [ring|]. rewrite I. ring.
Qed.
(** so exactly one of two non-zero candidates has a square norm *)
Lemma gx_norm u : zero2b p (tv u) = false -> norm2 (g (sswu2_x1 p A B Zc u)) mod p <> 0 ->
  (is_sq p (norm2 (g (sswu2_x1 p A B Zc u))) <-> ~ is_sq p (norm2 (g (sswu2_x2 p A B Zc u)))) /\ norm2 (g (sswu2_x2 p A B Zc u)) mod p <> 0.
Proof.
  intros E N1. pose proof nz_Z as NZ. pose proof (gx_rel u E) as R. apply norm2_cong in R. rewrite !norm2_mul in R. unfold zu2 in R at 1 2 3. rewrite !norm2_mul in R.
  assert (Nu : norm2 u mod p <> 0).
  { intros K. rewrite inv_z in E. assert (Q : zero2b p (add2 (mul2 (t u) (t u)) (t u)) = true); [|congruence]. apply zero2b_iff. apply norm_z in K. apply norm_z.
    replace (add2 (mul2 (t u) (t u)) (t u)) with (mul2 u (mul2 (mul2 Zc u) (add2 (t u) one2))) by (unfold zu2; ring). rewrite norm2_mul, Z.mul_mod, (proj2 (norm_z u) K), Z.mul_0_l by exact P0. apply Z.mod_0_l. exact P0. }
  set (n1 := norm2 (g (sswu2_x1 p A B Zc u))) in *. set (n2 := norm2 (g (sswu2_x2 p A B Zc u))) in *. set (nu := norm2 u) in *. set (nz := norm2 Zc) in *. clearbody n1 n2 nu nz.
  set (w := nz * (nu * nu * nu)). assert (R' : n2 mod p = (w * w * nz * n1) mod p) by (rewrite R; f_equal; unfold w; ring). clear R.
  assert (Mz : forall a b, a mod p <> 0 -> b mod p <> 0 -> (a * b) mod p <> 0) by (intros a b Ha Hb K; apply (prime_mul_zero p _ _ Hp) in K; tauto).
  assert (Nw : w mod p <> 0) by (unfold w; repeat apply Mz; assumption). assert (N2 : n2 mod p <> 0) by (rewrite R'; repeat apply Mz; assumption).
  split; [|exact N2]. pose proof (h0 p Hp H34) as H0.
  assert (Q : (n2 ^ h) mod p = ((-1) * (n1 ^ h)) mod p).
  { rewrite (pow_cg p Hp H34 _ _ h H0 R'), !Z.pow_mul_l. rewrite <- Z.pow_add_r, <- (h2 p H34) by exact H0. rewrite Z.mul_mod, (Z.mul_mod (w ^ (p - 1))), (fermat p w Hp Nw), HZ, Z.mul_1_l, Z.mod_mod, <- Z.mul_mod by exact P0. reflexivity. }
  assert (O1 : (1 mod p) = 1) by (apply Z.mod_1_l; lia). pose proof (one_ne p Hp H34) as ON.
  split.
  - intros S1 S2. rewrite (sq_pow p Hp H34 _ N2 S2), Z.mul_mod, (sq_pow p Hp H34 _ N1 S1), Z.mul_1_r, Z.mod_mod in Q by exact P0. symmetry in Q. exact (ON Q).
  - intros S2. destruct (sq_cases p Hp H34 n1) as [[S1 _]|[_ [_ S1]]]; [exists (sqrt_3mod4 p n1); apply (root_sq p Hp H34); exact S1|]. exfalso.
    rewrite (nsq_pow p Hp H34 _ N2 S2), Z.mul_mod, S1, <- Z.mul_mod in Q by exact P0. change (-1 * -1) with 1 in Q. rewrite O1 in Q. exact (ON Q).
Qed.
Lemma sq_norm v : square2 p v -> is_sq p (norm2 v).
Proof. exact (norm_sq p Hp H34 v). Qed.
Lemma real_square v : snd v mod p = 0 -> square2 p v.
Proof.
  intros E. destruct (real_sq p Hp H34 (fst v)) as [w Hw]. exists w. eapply eq2_trans; [exact Hw|]. split; cbn [fst snd]; [reflexivity|]. rewrite E. apply Z.mod_0_l. exact P0.
Qed.
Lemma real_norm v : snd v mod p = 0 -> is_sq p (norm2 v).
Proof. intros E. apply sq_norm, real_square. exact E. Qed.
End M.
