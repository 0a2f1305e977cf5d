(** The rational map of RFC 9380 appendix E.2 sends E' into E, and its poles. *)
From Verif Require Import Base.Word Spec.IsoSpec Spec.SswuSpec Spec.CurveSpec Proof.NumTheory Proof.FpOps Proof.FpSqrt Proof.PolyCheck Proof.IsoCert Proof.Primes.
From Coq Require Import Lia Znumtheory.
Notation q := bls381_p.
Lemma c1 : pmul iK iK = padd E2_x_den (map (Z.mul q) iQ1). Proof. apply peqb_ok. vm_cast_no_check (eq_refl true). Qed.
Lemma c2 : pmul iK E2_x_den = padd E2_y_den (map (Z.mul q) iQ2). Proof. apply peqb_ok. vm_cast_no_check (eq_refl true). Qed.
Lemma c3 : pmul E2_y_num E2_y_num = padd iS (map (Z.mul q) iQ3). Proof. apply peqb_ok. vm_cast_no_check (eq_refl true). Qed.
Lemma c4 : pmul E2_x_num E2_x_num = padd iT (map (Z.mul q) iQ4). Proof. apply peqb_ok. vm_cast_no_check (eq_refl true). Qed.
Lemma c5 : pmul [E11_B; E11_A; 0; 1] iS = padd (padd (pmul E2_x_num iT) (map (Z.mul 4) (pmul E2_y_den E2_y_den))) (map (Z.mul q) iQ5). Proof. apply peqb_ok. vm_cast_no_check (eq_refl true). Qed.
Lemma q_pos : 0 < q. Proof. reflexivity. Qed.
Notation xn := (peval E2_x_num).
Notation xd := (peval E2_x_den).
Notation yn := (peval E2_y_num).
Notation yd := (peval E2_y_den).
Lemma tomod a b k : a = b + q * k -> a mod q = b mod q.
Proof. intros ->. rewrite Z.mul_comm. apply Z.mod_add. pose proof q_pos. lia. Qed.
Lemma use a b d k : pmul a b = padd d (map (Z.mul q) k) -> forall x, (peval a x * peval b x) mod q = peval d x mod q.
Proof. intros H x. apply (tomod _ _ (peval k x)). rewrite <- ev_pmul, H, ev_add, ev_scale. reflexivity. Qed.
Lemma use5 a b d e f k : pmul a b = padd (padd (pmul d e) (map (Z.mul 4) (pmul f f))) (map (Z.mul q) k) -> forall x, (peval a x * peval b x) mod q = (peval d x * peval e x + 4 * (peval f x * peval f x)) mod q.
Proof. intros H x. apply (tomod _ _ (peval k x)). rewrite <- ev_pmul, H, !ev_add, !ev_scale, !ev_pmul. reflexivity. Qed.
Lemma e1 : forall x, (peval iK x * peval iK x) mod q = xd x mod q. Proof. exact (use _ _ _ _ c1). Qed.
Lemma e2 : forall x, (peval iK x * xd x) mod q = yd x mod q. Proof. exact (use _ _ _ _ c2). Qed.
Lemma e3 : forall x, (yn x * yn x) mod q = peval iS x mod q. Proof. exact (use _ _ _ _ c3). Qed.
Lemma e4 : forall x, (xn x * xn x) mod q = peval iT x mod q. Proof. exact (use _ _ _ _ c4). Qed.
Lemma ev4 a b x : peval [b; a; 0; 1] x = x * x * x + a * x + b. Proof. cbn [peval fold_right]. ring. Qed.
Lemma e5 x : ((x * x * x + E11_A * x + E11_B) * peval iS x) mod q = (xn x * peval iT x + 4 * (yd x * yd x)) mod q.
Proof. rewrite <- ev4. exact (use5 _ _ _ _ _ _ c5 x). Qed.
Lemma ev_den x : (yd x * yd x) mod q = (xd x * xd x * xd x) mod q.
Proof.
  transitivity ((peval iK x * xd x * (peval iK x * xd x)) mod q); [symmetry; apply cg_mul; apply e2|].
  replace (peval iK x * xd x * (peval iK x * xd x)) with (peval iK x * peval iK x * (xd x * xd x)) by ring. replace (xd x * xd x * xd x) with (xd x * (xd x * xd x)) by ring. apply cg_mul; [apply e1|reflexivity].
Qed.
(** g(x) y_num^2 = x_num^3 + 4 x_den^3 *)
Lemma ev_iso x : ((x * x * x + E11_A * x + E11_B) * (yn x * yn x)) mod q = (xn x * xn x * xn x + 4 * (xd x * xd x * xd x)) mod q.
Proof.
  transitivity ((xn x * peval iT x + 4 * (yd x * yd x)) mod q).
  - rewrite <- e5. apply cg_mul; [reflexivity|apply e3].
  - apply cg_add; [|apply cg_mul; [reflexivity|apply ev_den]]. replace (xn x * xn x * xn x) with (xn x * (xn x * xn x)) by ring. apply cg_mul; [reflexivity|]. symmetry. apply e4.
Qed.
Lemma yd_zero x : yd x mod q = 0 <-> xd x mod q = 0.
Proof.
  pose proof (ev_den x) as E. pose proof prime_bls381_p as Hp. pose proof q_pos. split; intros Z0.
  - rewrite Zmult_mod, Z0 in E. cbn [Z.mul] in E. rewrite Z.mod_0_l in E by lia. symmetry in E. apply prime_mul_zero in E; [|exact Hp]. destruct E as [E|E]; [|exact E]. apply prime_mul_zero in E; [|exact Hp]. tauto.
  - rewrite (Zmult_mod (xd x * xd x)), Z0, Z.mul_0_r, Z.mod_0_l in E by lia. apply prime_mul_zero in E; [|exact Hp]. tauto.
Qed.
(** numerator and kernel polynomial have no common root, so a point of order 2 on E' would give one on E *)
Lemma c6 : padd (pmul iBs E2_x_num) (pmul iBt iK) = padd [1] (map (Z.mul q) iQ6). Proof. apply peqb_ok. vm_cast_no_check (eq_refl true). Qed.
Lemma use6 a b d e k : padd (pmul a b) (pmul d e) = padd [1] (map (Z.mul q) k) -> forall x, (peval a x * peval b x + peval d x * peval e x) mod q = 1 mod q.
Proof. intros H x. apply (tomod _ _ (peval k x)). rewrite <- !ev_pmul, <- ev_add, H, ev_add, ev_scale. cbn [peval fold_right]. ring. Qed.
Lemma e6 x : (peval iBs x * xn x + peval iBt x * peval iK x) mod q = 1 mod q. Proof. exact (use6 _ _ _ _ _ c6 x). Qed.
Lemma no_common x : xn x mod q = 0 -> xd x mod q = 0 -> False.
Proof.
  intros H1 H2. assert (HK : peval iK x mod q = 0). { rewrite <- e1 in H2. apply (prime_mul_zero q _ _ prime_bls381_p) in H2. tauto. }
  pose proof (e6 x) as H. assert (E : (peval iBs x * xn x + peval iBt x * peval iK x) mod q = 0).
  { replace 0 with ((peval iBs x * 0 + peval iBt x * 0) mod q) by (rewrite !Z.mul_0_r; reflexivity). apply cg_add; apply cg_mul; try reflexivity; [rewrite H1|rewrite HK]; reflexivity. }
  rewrite E in H. discriminate H.
Qed.
