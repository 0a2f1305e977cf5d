(** The simplified SWU map over a prime field lands on the curve (RFC 9380 section 6.6.2). *)
From Verif Require Import Base.Word Spec.CurveSpec Spec.SswuSpec Proof.NumTheory Proof.FpOps Proof.FpSqrt.
From Coq Require Import Lia Znumtheory.

Section M.
Variable p : Z.
Hypothesis Hp : prime p.
Hypothesis H34 : p mod 4 = 3.
Let Hp2 : 2 < p. Proof. pose proof (prime_ge_2 p Hp). destruct (Z.eq_dec p 2) as [E|E]; [rewrite E in H34; discriminate|lia]. Qed.
Notation h := ((p - 1) / 2).
Lemma h0 : 0 <= h. Proof. apply Z.div_pos; lia. Qed.
Lemma h2 : p - 1 = h + h.
Proof. pose proof (Z.div_mod p 4 ltac:(lia)) as D. rewrite H34 in D. replace (p - 1) with ((2 * (p / 4) + 1) * 2) by lia. rewrite Z.div_mul by lia. lia. Qed.
Lemma q4 : (p + 1) / 4 + (p + 1) / 4 = h + 1.
Proof. pose proof (Z.div_mod p 4 ltac:(lia)) as D. rewrite H34 in D. assert (h = 2 * (p / 4) + 1) by (replace (p - 1) with ((2 * (p / 4) + 1) * 2) by lia; apply Z.div_mul; lia). replace (p + 1) with ((p / 4 + 1) * 4) by lia. rewrite Z.div_mul by lia. lia. Qed.
Lemma q0 : 0 <= (p + 1) / 4. Proof. apply Z.div_pos; lia. Qed.
Lemma pm1 : (-1) mod p = p - 1. Proof. rewrite <- (Z.mod_add _ 1) by lia. rewrite Z.mod_small; lia. Qed.
(** Euler's criterion *)
Lemma euler3 a : a mod p <> 0 -> (a ^ h) mod p = 1 \/ (a ^ h) mod p = (-1) mod p.
Proof.
  intros Ha. pose proof (fermat p a Hp Ha) as E. rewrite h2, Z.pow_add_r in E by apply h0.
  assert (Q : ((a ^ h - 1) * (a ^ h + 1)) mod p = 0). { replace ((a ^ h - 1) * (a ^ h + 1)) with (a ^ h * a ^ h - 1) by ring. rewrite Zminus_mod, E. rewrite (Z.mod_small 1) by lia. apply Z.mod_0_l. lia. }
  apply prime_mul_zero in Q; [|exact Hp]. destruct Q as [Q|Q]; [left|right].
  - transitivity (1 mod p); [|apply Z.mod_small; lia]. apply mod_eq_divide; [lia|]. apply Z.mod_divide; [lia|exact Q].
  - apply mod_eq_divide; [lia|]. apply Z.mod_divide; [lia|]. replace (a ^ h - -1) with (a ^ h + 1) by ring. exact Q.
Qed.
Lemma zero_pow a e : 0 < e -> a mod p = 0 -> (a ^ e) mod p = 0.
Proof. intros He Ha. rewrite <- pow_mod_l, Ha, Z.pow_0_l by lia. apply Z.mod_0_l. lia. Qed.
Lemma pow_cg a b e : 0 <= e -> a mod p = b mod p -> (a ^ e) mod p = (b ^ e) mod p.
Proof. intros He E. rewrite <- (pow_mod_l a), <- (pow_mod_l b), E by lia. reflexivity. Qed.
Lemma h_pos : 0 < h. Proof. pose proof h2. lia. Qed.
Lemma nz_pow a e : 0 <= e -> a mod p <> 0 -> (a ^ e) mod p <> 0.
Proof.
  intros He Ha. pattern e. apply natlike_ind; [|intros n Hn IH|exact He].
  - rewrite Z.pow_0_r, Z.mod_small by lia. lia.
  - rewrite Z.pow_succ_r by exact Hn. intros E. apply prime_mul_zero in E; [|exact Hp]. tauto.
Qed.
Lemma sq_cases a : (is_square_b p a = true /\ (a mod p = 0 \/ (a ^ h) mod p = 1)) \/ (is_square_b p a = false /\ a mod p <> 0 /\ (a ^ h) mod p = (-1) mod p).
Proof.
  unfold is_square_b. destruct (Z.eq_dec (a mod p) 0) as [E|E].
  - left. rewrite (zero_pow a h h_pos E). auto.
  - destruct (euler3 a E) as [Q|Q]; rewrite Q; [left; auto|right]. rewrite pm1. split; [|auto]. destruct (Z.eqb_spec (p - 1) 0); [lia|]. destruct (Z.eqb_spec (p - 1) 1); [lia|reflexivity].
Qed.
Lemma sq_cong a b : a mod p = b mod p -> is_square_b p a = is_square_b p b.
Proof. intros E. unfold is_square_b. rewrite (pow_cg a b h h0 E). reflexivity. Qed.
(** the candidate root squares to a exactly when a is a square *)
Lemma root_b a : let w := a ^ ((p + 1) / 4) in (a mod p =? (w * w) mod p) = is_square_b p a.
Proof.
  intros w. assert (W : (w * w) mod p = (a * a ^ h) mod p). { unfold w. rewrite <- Z.pow_add_r by apply q0. rewrite q4. replace (h + 1) with (Z.succ h) by lia. rewrite Z.pow_succ_r by apply h0. reflexivity. }
  rewrite W. destruct (sq_cases a) as [[-> [E|E]]|[-> [N E]]]; [apply Z.eqb_eq..|apply Z.eqb_neq].
  - rewrite Zmult_mod, E, Z.mul_0_l. rewrite Z.mod_0_l by lia. reflexivity.
  - rewrite Zmult_mod, E, Z.mul_1_r. rewrite Z.mod_mod by lia. reflexivity.
  - intros Q. rewrite Zmult_mod, E, <- Zmult_mod in Q. assert (D : (2 * a) mod p = 0). { replace (2 * a) with (a - a * -1) by ring. rewrite Zminus_mod, Q, Z.sub_diag. apply Z.mod_0_l. lia. }
    apply prime_mul_zero in D; [|exact Hp]. destruct D as [D|D]; [rewrite Z.mod_small in D by lia; lia|contradiction].
Qed.
Lemma root_sq a : is_square_b p a = true -> (sqrt_3mod4 p a * sqrt_3mod4 p a) mod p = a mod p.
Proof. intros H. pose proof (root_b a) as Q. cbv zeta in Q. rewrite H in Q. apply Z.eqb_eq in Q. unfold sqrt_3mod4. rewrite <- Zmult_mod. congruence. Qed.
Lemma inv0_ok a : a mod p <> 0 -> (a * inv0 p a) mod p = 1.
Proof. intros H. unfold inv0. rewrite Z.mul_mod_idemp_r by lia. apply fermat_inv; assumption. Qed.
Lemma inv0_zero a : (inv0 p a =? 0) = (a mod p =? 0).
Proof.
  unfold inv0. destruct (Z.eqb_spec (a mod p) 0) as [E|E].
  - rewrite zero_pow by (lia || exact E). reflexivity.
  - apply Z.eqb_neq. apply nz_pow; [lia|exact E].
Qed.

Variables A B Zc : Z.
Hypothesis HA : A mod p <> 0.
Hypothesis HZ : (Zc ^ h) mod p = (-1) mod p.
Hypothesis Hexc : is_square_b p (gx p A B ((B * inv0 p (Zc * A)) mod p)) = true.
Notation G := (gx p A B).
Lemma gx_val x : G x mod p = (x * x * x + A * x + B) mod p.
Proof. unfold gx. rewrite Z.mod_mod by lia. f_equal. ring. Qed.
Lemma gx_cong x y : x mod p = y mod p -> G x = G y.
Proof. intros E. unfold gx. apply cg_add; [|reflexivity]. apply cg_add; [apply pow_cg; [lia|exact E]|]. apply cg_mul; [reflexivity|exact E]. Qed.
Lemma x1_eq u : (Zc ^ 2 * u ^ 4 + Zc * u ^ 2) mod p <> 0 -> let d := Zc ^ 2 * u ^ 4 + Zc * u ^ 2 in (A * sswu_x1 p A B Zc u * d) mod p = (- (B * (1 + d))) mod p.
Proof.
  intros Hd d. unfold sswu_x1. fold d in Hd |- *. rewrite inv0_zero. destruct (Z.eqb_spec (d mod p) 0) as [E|_]; [contradiction|].
  pose proof (inv0_ok A HA) as IA. pose proof (inv0_ok d Hd) as ID. set (ia := inv0 p A) in *. set (w := inv0 p d) in *.
  transitivity ((- B * (A * ia) * (d + d * w)) mod p).
  - replace (A * ((- B * ia * (1 + w)) mod p) * d) with (A * d * ((- B * ia * (1 + w)) mod p)) by ring. rewrite Z.mul_mod_idemp_r by lia. f_equal. ring.
  - replace (- (B * (1 + d))) with (- B * 1 * (d + 1)) by ring. apply cg_mul; [apply cg_mul; [reflexivity|]|apply cg_add; [reflexivity|]]; rewrite (Z.mod_small 1) by lia; assumption.
Qed.
(** g(x2) = (Z u^2)^3 g(x1) *)
Lemma g2 u : (Zc ^ 2 * u ^ 4 + Zc * u ^ 2) mod p <> 0 -> let x1 := sswu_x1 p A B Zc u in G (Zc * u ^ 2 * x1) mod p = ((Zc * u ^ 2) ^ 3 * G x1) mod p.
Proof.
  intros Hd x1. pose proof (x1_eq u Hd) as E. cbv zeta in E. fold x1 in E. set (t := Zc * u ^ 2) in *. replace (Zc ^ 2 * u ^ 4 + t) with (t * t + t) in * by (unfold t; ring).
  rewrite gx_val, Zmult_mod, gx_val, <- Zmult_mod.
  replace (t * x1 * (t * x1) * (t * x1) + A * (t * x1) + B) with (t ^ 3 * (x1 * x1 * x1 + A * x1 + B) + (1 - t) * (A * x1 * (t * t + t) - - (B * (1 + (t * t + t))))) by ring.
  rewrite (Zplus_mod (t ^ 3 * _)), (Zmult_mod (1 - t)), (Zminus_mod (A * x1 * _)), E, Z.sub_diag, Z.mod_0_l, Z.mul_0_r, Z.mod_0_l, Z.add_0_r, Z.mod_mod by lia. reflexivity.
Qed.
Lemma gx2_square u : is_square_b p (G (sswu_x1 p A B Zc u)) = false -> is_square_b p (G ((Zc * u ^ 2 * sswu_x1 p A B Zc u) mod p)) = true.
Proof.
  intros H. rewrite (gx_cong _ (Zc * u ^ 2 * sswu_x1 p A B Zc u)) by (apply Z.mod_mod; lia).
  destruct (Z.eq_dec ((Zc ^ 2 * u ^ 4 + Zc * u ^ 2) mod p) 0) as [E|E].
  - exfalso. unfold sswu_x1 in H. rewrite inv0_zero, E in H. cbn [Z.eqb] in H. congruence.
  - rewrite (sq_cong _ _ (g2 u E)). set (x1 := sswu_x1 p A B Zc u) in *. unfold is_square_b at 1.
    destruct (sq_cases (G x1)) as [[Q _]|[_ [N1 E1]]]; [congruence|].
    assert (Hu : u mod p <> 0). { intros Q. apply E. replace (Zc ^ 2 * u ^ 4 + Zc * u ^ 2) with (u * (Zc ^ 2 * u ^ 3 + Zc * u)) by ring. rewrite Zmult_mod, Q, Z.mul_0_l. apply Z.mod_0_l. lia. }
    assert (T : ((Zc * u ^ 2) ^ h) mod p = (-1) mod p).
    { rewrite Z.pow_mul_l. rewrite <- (Z.pow_mul_r u 2 h) by (lia || apply h0). replace (2 * h) with (p - 1) by (rewrite Z.mul_comm, <- Zred_factor1; exact h2). rewrite Zmult_mod, HZ, (fermat p u Hp Hu), Z.mul_1_r. apply Z.mod_mod. lia. }
    assert (Q : (((Zc * u ^ 2) ^ 3 * G x1) ^ h) mod p = 1).
    { set (t := Zc * u ^ 2) in *. pose proof h0. rewrite (Z.pow_mul_l (t ^ 3) (G x1) h). rewrite <- (Z.pow_mul_r t 3 h) by lia. rewrite (Z.mul_comm 3), (Z.pow_mul_r t h 3) by lia. rewrite Zmult_mod, E1, (pow_cg _ (-1) 3 ltac:(lia) T), <- Zmult_mod. change ((-1) ^ 3 * -1) with 1. apply Z.mod_small. lia. }
    rewrite Q. reflexivity.
Qed.
(** whichever candidate is taken, its g-value is a square and the root is a root *)
Definition pre (u : Z) : Z * Z := let x1 := sswu_x1 p A B Zc u in let x2 := (Zc * u ^ 2 * x1) mod p in if is_square_b p (G x1) then (x1, sqrt_3mod4 p (G x1)) else (x2, sqrt_3mod4 p (G x2)).
Lemma pre_curve u : (snd (pre u) * snd (pre u)) mod p = G (fst (pre u)).
Proof.
  unfold pre. cbv zeta. set (x1 := sswu_x1 p A B Zc u). assert (MM : forall z, G z mod p = G z) by (intros z; unfold gx; apply Z.mod_mod; lia).
  destruct (is_square_b p (G x1)) eqn:E; cbn [fst snd]; rewrite root_sq; [apply MM|exact E|apply MM|apply gx2_square; exact E].
Qed.
Lemma sswu_pre u : sswu p A B Zc u = (fst (pre u), if sgn0 p u =? sgn0 p (snd (pre u)) then snd (pre u) else (- snd (pre u)) mod p).
Proof. unfold sswu, pre. cbv zeta. destruct (is_square_b p (G (sswu_x1 p A B Zc u))); reflexivity. Qed.
Hypothesis Hno2 : no_order2 p A B.
Lemma gx_nz x : G x <> 0.
Proof. unfold gx. intros E. apply (Hno2 x). unfold cong. rewrite Z.mod_0_l by lia. rewrite <- E. f_equal. ring. Qed.
Lemma pre_nz u : snd (pre u) mod p <> 0.
Proof. intros E. apply (gx_nz (fst (pre u))). rewrite <- pre_curve, Zmult_mod, E. reflexivity. Qed.
Lemma neg_par y : y mod p <> 0 -> sgn0 p (- y) = 1 - sgn0 p y.
Proof.
  intros H. unfold sgn0. pose proof (Z.mod_pos_bound y p ltac:(lia)). replace (- y) with (0 - y) by ring. rewrite Zminus_mod. rewrite (Z.mod_0_l p) by lia. replace (0 - y mod p) with (p - y mod p + -1 * p) by ring. rewrite Z.mod_add by lia.
  rewrite (Z.mod_small (p - y mod p)) by lia. assert (O : p mod 2 = 1). { rewrite (Z.div_mod p 4) at 1 by lia. rewrite H34. replace (4 * (p / 4) + 3) with (1 + (2 * (p / 4) + 1) * 2) by ring. rewrite Z.mod_add by lia. reflexivity. }
  rewrite Zminus_mod, O. pose proof (Z.mod_pos_bound (y mod p) 2 ltac:(lia)). assert (Q : (y mod p) mod 2 = 0 \/ (y mod p) mod 2 = 1) by lia. destruct Q as [-> | ->]; reflexivity.
Qed.
Lemma sgn01 a : sgn0 p a = 0 \/ sgn0 p a = 1. Proof. unfold sgn0. pose proof (Z.mod_pos_bound (a mod p) 2 ltac:(lia)). lia. Qed.
Theorem sswu_ok u : let xy := sswu p A B Zc u in (snd xy * snd xy) mod p = (fst xy ^ 3 + A * fst xy + B) mod p /\ sgn0 p (snd xy) = sgn0 p u.
Proof.
  cbv zeta. rewrite sswu_pre. cbn [fst snd]. pose proof (pre_curve u) as C. pose proof (pre_nz u) as N. change ((fst (pre u) ^ 3 + A * fst (pre u) + B) mod p) with (G (fst (pre u))).
  destruct (Z.eqb_spec (sgn0 p u) (sgn0 p (snd (pre u)))) as [E|E]; [auto|]. split.
  - rewrite <- Zmult_mod. rewrite <- C. f_equal. ring.
  - transitivity (sgn0 p (- snd (pre u))); [unfold sgn0; rewrite Z.mod_mod by lia; reflexivity|]. rewrite (neg_par _ N). pose proof (sgn01 u). pose proof (sgn01 (snd (pre u))). lia.
Qed.
End M.
