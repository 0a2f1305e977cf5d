(** el2/el4/el12 versus the interval representation; inverses, unitary squaring. *)
From Verif Require Import Base.Word Base.Arr Model.Big Model.Roms Model.Fp Model.Fp2 Model.Fp4 Model.Fp12 Spec.BigSpec Spec.RomSpec Spec.FpSpec Spec.TowerSpec Spec.TowerRep
  Proof.BigVal Proof.NumTheory Proof.FpBase Proof.FpRed Proof.FpOps Proof.FpIv Proof.Fp2Ops Proof.Fp4Step Proof.Fp4Ops Proof.TowerRing Proof.Fp12Ops Proof.Fp12Sparse.
From Coq Require Import Znumtheory.

Section El.
Variable r : rom.
Hypothesis Hf : fp_ok r.
Lemma el1_frep e f v : el1 r e f v <-> frep r 0 1 e f v.
Proof.
  split.
  - intros [H1 H2]. apply rep_frep1; assumption.
  - intros H. split; [apply (frep_rep r Hf 0 1 e); [lia|lia|exact H]|apply (frep_e _ _ _ _ _ _ H)].
Qed.
Lemma el2_rep e x v : el2 r e x v <-> rep2 r 0 1 e x v.
Proof. unfold el2, rep2. rewrite !el1_frep. tauto. Qed.
Lemma el4_rep e x v : el4 r e x v <-> rep4 r 0 1 e x v.
Proof. unfold el4, rep4. rewrite !el2_rep. tauto. Qed.
Lemma el12_rep e x v : el12 r e x v <-> rep12 r e x v.
Proof. unfold el12, rep12. rewrite !el4_rep. tauto. Qed.
Lemma el2_cong e x v v' : eq2 (pmod r) v v' -> el2 r e x v -> el2 r e x v'.
Proof. rewrite !el2_rep. apply (rep2_cong r). Qed.
Lemma el4_cong e x v v' : eq4 (pmod r) v v' -> el4 r e x v -> el4 r e x v'.
Proof. rewrite !el4_rep. apply (rep4_cong r). Qed.
Lemma el12_cong e x v v' : eq12 (pmod r) v v' -> el12 r e x v -> el12 r e x v'.
Proof. unfold el12, eq12. intros [A [B C]] [D [E F]]. split; [|split]; eapply el4_cong; eassumption. Qed.
(** an object determines its value *)
Lemma el2_inj e e' x v v' : el2 r e x v -> el2 r e' x v' -> eq2 (pmod r) v v'.
Proof.
  assert (K : forall e e' f a b, el1 r e f a -> el1 r e' f b -> a mod pmod r = b mod pmod r).
  { intros ? ? f a b [[_ H1] _] [[_ H2] _]. unfold den in *. apply (mod_cancel a b (fK r) (pmod r) (p_pos r Hf) (gcd_K r Hf)). congruence. }
  intros [A B] [C D]. split; eapply K; eassumption.
Qed.
Lemma el4_inj e e' x v v' : el4 r e x v -> el4 r e' x v' -> eq4 (pmod r) v v'.
Proof. intros [A B] [C D]. split; eapply el2_inj; eassumption. Qed.
Lemma el12_inj e e' x v v' : el12 r e x v -> el12 r e' x v' -> eq12 (pmod r) v v'.
Proof. intros [A [B C]] [D [E F]]. split; [|split]; eapply el4_inj; eassumption. Qed.
End El.

Section Inv.
Variable p : Z.
Hypothesis Hpr : prime p.
Let Hp0 : p <> 0. Proof. pose proof (prime_ge_2 p Hpr). lia. Qed.
Let Hp1 : 1 < p. Proof. pose proof (prime_ge_2 p Hpr). lia. Qed.

Lemma unit2_norm u w : eq2 p (mul2 u w) one2 -> norm2 u mod p <> 0.
Proof.
  intros H. apply (eq2_ex p) in H; [|exact Hp0]. destruct H as [d H]. apply (f_equal norm2) in H. rewrite norm2_mul in H. intros E.
  assert (K : (norm2 u * norm2 w) mod p = 1).
  { rewrite H. destruct d as [d0 d1]. unfold norm2, add2, one2, mul2, k2. cbn [fst snd].
    replace ((1 + (p * d0 - 0 * d1)) * (1 + (p * d0 - 0 * d1)) + (0 + (p * d1 + 0 * d0)) * (0 + (p * d1 + 0 * d0))) with (1 + (2 * d0 + p * d0 * d0 + p * d1 * d1) * p) by ring.
    rewrite Z.mod_add by exact Hp0. apply Z.mod_1_l. exact Hp1. }
  rewrite Z.mul_mod, E, Z.mul_0_l, Z.mod_0_l in K by exact Hp0. discriminate.
Qed.
Lemma inv2v_ok u : norm2 u mod p <> 0 -> eq2 p (mul2 u (inv2v p u)) one2.
Proof.
  intros H. unfold inv2v. pose proof (fermat_inv p (norm2 u) Hpr H) as F. set (k := norm2 u ^ (p - 2)) in *.
  replace (mul2 u (scale2 k (conj2 u))) with (norm2 u * k, 0). { unfold eq2, one2. cbn [fst snd]. split; [|reflexivity]. rewrite F. symmetry. apply Z.mod_1_l. exact Hp1. }
  destruct u. unfold norm2, mul2, scale2, conj2. cbn [fst snd]. f_equal; ring.
Qed.
Lemma unit4_norm u w : eq4 p (mul4 u w) one4 -> eq2 p (mul2 (norm4 u) (norm4 w)) one2.
Proof.
  intros H. rewrite <- norm4_mul. apply (eq4_ex p) in H; [|exact Hp0]. destruct H as [[d0 d1] ->]. apply eq2_ex; [exact Hp0|].
  unfold norm4, add4, one4, mul4, k4. cbn [fst snd].
  exists (add2 (add2 d0 d0) (sub2 (mul2 (k2 p) (mul2 d0 d0)) (mul2 xi (mul2 (k2 p) (mul2 d1 d1))))). ring.
Qed.
Lemma inv4v_ok u : norm2 (norm4 u) mod p <> 0 -> eq4 p (mul4 u (inv4v p u)) one4.
Proof.
  intros H. pose proof (inv2v_ok (norm4 u) H) as K. unfold inv4v. set (w := inv2v p (norm4 u)) in *.
  replace (mul4 u (mul2 (fst u) w, neg2 (mul2 (snd u) w))) with (of2 (mul2 (norm4 u) w)).
  { split; cbn [of2 one4 fst snd]; [exact K|apply eq2_refl]. }
  destruct u. unfold of2, norm4, mul4. cbn [fst snd]. f_equal; ring.
Qed.
Lemma unit12_norm u w : eq12 p (mul12 u w) one12 -> eq4 p (mul4 (norm12 u) (norm12 w)) one4.
Proof.
  intros H. rewrite <- norm12_mul. apply (eq12_ex p) in H; [|exact Hp0]. destruct H as [[[d0 d1] d2] ->]. apply eq4_ex; [exact Hp0|].
  unfold norm12, adj12, add12, one12, mul12, k12, c0, c1, c2. cbn [fst snd]. generalize (k4 p). generalize w4. intros w4 q.
  exists (add4 (add4 d0 (add4 d0 d0)) (add4 (mul4 q (sub4 (add4 (mul4 d0 d0) (add4 (mul4 d0 d0) (mul4 d0 d0))) (mul4 w4 (add4 (mul4 d1 d2) (add4 (mul4 d1 d2) (mul4 d1 d2))))))
     (mul4 q (mul4 q (sub4 (add4 (mul4 d0 (mul4 d0 d0)) (add4 (mul4 w4 (mul4 d1 (mul4 d1 d1))) (mul4 (mul4 w4 w4) (mul4 d2 (mul4 d2 d2)))))
        (mul4 w4 (add4 (mul4 d0 (mul4 d1 d2)) (add4 (mul4 d0 (mul4 d1 d2)) (mul4 d0 (mul4 d1 d2)))))))))). ring.
Qed.
Lemma inv12v_ok u : norm2 (norm4 (norm12 u)) mod p <> 0 -> eq12 p (mul12 u (inv12v p u)) one12.
Proof.
  intros H. pose proof (inv4v_ok (norm12 u) H) as K. unfold inv12v. set (w := inv4v p (norm12 u)) in *.
  replace (mul12 u _) with (of4 (mul4 (norm12 u) w)).
  { split; [|split]; cbn [of4 one12 c0 c1 c2 fst snd]; [exact K|apply eq4_refl|apply eq4_refl]. }
  destruct u as [[a b] d]. unfold of4, norm12, adj12, mul12, c0, c1, c2. cbn [fst snd]. generalize w4. intros w4. apply f_equal2; [apply f_equal2|]; ring.
Qed.
Lemma unit2 u w : eq2 p (mul2 u w) one2 -> norm2 u mod p <> 0. Proof. exact (unit2_norm u w). Qed.
Lemma unit4 u w : eq4 p (mul4 u w) one4 -> norm2 (norm4 u) mod p <> 0. Proof. intros H. apply unit4_norm in H. apply unit2_norm in H. exact H. Qed.
Lemma unit12 u w : eq12 p (mul12 u w) one12 -> norm2 (norm4 (norm12 u)) mod p <> 0. Proof. intros H. apply unit12_norm in H. apply unit4 in H. exact H. Qed.

(** for p = 3 mod 4 every non-zero element of level 2 is a unit *)
Lemma norm2_zero u : p mod 4 = 3 -> norm2 u mod p = 0 -> eq2 p u zero2.
Proof.
  intros H3 H. destruct u as [a b]. unfold norm2 in H. cbn [fst snd] in H. unfold eq2, zero2. cbn [fst snd]. rewrite Z.mod_0_l by exact Hp0.
  assert (Hh : p - 1 = 2 * ((p - 1) / 2) /\ Z.odd ((p - 1) / 2) = true).
  { pose proof (Z.div_mod p 4 ltac:(lia)) as D. rewrite H3 in D. rewrite D. replace (4 * (p / 4) + 3 - 1) with ((2 * (p / 4) + 1) * 2) by ring. rewrite Z.div_mul by lia.
    split; [ring|]. rewrite Z.odd_add, Z.odd_mul. reflexivity. }
  set (h := (p - 1) / 2) in *. destruct Hh as [Hh Ho].
  assert (Hh0 : 0 <= h) by lia.
  assert (Hsq : (a * a) mod p = (- (b * b)) mod p). { apply mod_ex; [exact Hp0|]. apply Z.mod_divide in H; [|exact Hp0]. destruct H as [k H]. exists k. lia. }
  assert (N : forall x, (x * x) ^ h = x ^ (p - 1)). { intros x. rewrite Hh, <- Z.pow_2_r. rewrite <- Z.pow_mul_r by lia. reflexivity. }
  assert (P : (a ^ (p - 1)) mod p = (- (b ^ (p - 1))) mod p).
  { rewrite <- !N. rewrite <- (pow_mod_l (a * a) h p), Hsq, pow_mod_l by lia. rewrite Z.pow_opp_odd; [reflexivity|]. apply Z.odd_spec. exact Ho. }
  destruct (Z.eq_dec (b mod p) 0) as [Eb|Eb].
  - split; [|exact Eb]. destruct (Z.eq_dec (a mod p) 0) as [Ea|Ea]; [exact Ea|]. exfalso.
    pose proof (fermat p a Hpr Ea) as F. rewrite F in P. rewrite <- (Z.sub_0_l (b ^ (p - 1))) in P. rewrite Zminus_mod in P. rewrite <- (pow_mod_l b) in P by lia. rewrite Eb in P.
    rewrite Z.pow_0_l in P by lia. rewrite !Z.mod_0_l in P by exact Hp0. cbn in P. discriminate.
  - exfalso. pose proof (fermat p b Hpr Eb) as Fb. destruct (Z.eq_dec (a mod p) 0) as [Ea|Ea].
    + rewrite <- (pow_mod_l a) in P by lia. rewrite Ea, Z.pow_0_l, Z.mod_0_l in P by lia. rewrite <- (Z.sub_0_l (b ^ (p - 1))) in P. rewrite Zminus_mod, Fb, Z.mod_0_l in P by exact Hp0.
      change (0 - 1) with (-1) in P. replace (-1) with ((p - 1) + (-1) * p) in P by ring. rewrite Z.mod_add, Z.mod_small in P by lia. lia.
    + pose proof (fermat p a Hpr Ea) as F. rewrite F in P. rewrite <- (Z.sub_0_l (b ^ (p - 1))) in P. rewrite Zminus_mod, Fb, Z.mod_0_l in P by exact Hp0.
      change (0 - 1) with (-1) in P. replace (-1) with ((p - 1) + (-1) * p) in P by ring. rewrite Z.mod_add, Z.mod_small in P by lia. assert (p = 2) by lia. subst p. cbn in H3. discriminate.
Qed.

(** Granger-Scott: on the cyclotomic subgroup the cheap formula is the square *)
Lemma gs12_sqr v : eq12 p (mul12 v (conj12 v)) one12 -> eq4 p (norm12 v) one4 -> eq12 p (gs12 v) (mul12 v v).
Proof.
  intros H1 H2.
  assert (A : eq12 p (mul12 v (adj12 v)) one12). { rewrite norm12_adj. split; [|split]; cbn [of4 one12 c0 c1 c2 fst snd]; [exact H2|apply eq4_refl|apply eq4_refl]. }
  assert (E : eq12 p (conj12 v) (adj12 v)).
  { apply (eq12_trans p _ (mul12 (conj12 v) (mul12 v (adj12 v)))).
    - replace (conj12 v) with (mul12 (conj12 v) one12) at 1 by ring. apply eq12_mul; [exact Hp0|apply eq12_refl|apply eq12_sym; exact A].
    - replace (mul12 (conj12 v) (mul12 v (adj12 v))) with (mul12 (mul12 v (conj12 v)) (adj12 v)) by ring.
      replace (adj12 v) with (mul12 one12 (adj12 v)) at 2 by ring. apply eq12_mul; [exact Hp0|exact H1|apply eq12_refl]. }
  destruct v as [[a b] d]. unfold conj12, adj12, eq12, c0, c1, c2 in E. cbn [fst snd] in E. destruct E as [E0 [E1 E2]].
  apply (eq4_ex p) in E0; [|exact Hp0]. apply (eq4_ex p) in E1; [|exact Hp0]. apply (eq4_ex p) in E2; [|exact Hp0].
  destruct E0 as [x0 E0], E1 as [x1 E1], E2 as [x2 E2].
  assert (E1' : conj4 b = neg4 (add4 (sub4 (mul4 w4 (mul4 d d)) (mul4 a b)) (mul4 (k4 p) x1))). { rewrite <- E1. ring. }
  unfold gs12, mul12, eq12, three4, c0, c1, c2. cbn [fst snd]. rewrite E0, E1', E2.
  split; [|split]; apply eq4_ex; try exact Hp0; [exists (neg4 (add4 x0 x0))|exists (neg4 (add4 x1 x1))|exists (neg4 (add4 x2 x2))]; ring.
Qed.
End Inv.

(** every element of each level is the value of some object *)
Fixpoint dig (B : Z) (n : nat) (z : Z) : list Z := match n with O => [] | S k => z mod 2 ^ B :: dig B k (z / 2 ^ B) end.
Lemma dig_ok B n : forall z, 0 <= B -> 0 <= z < 2 ^ (B * Z.of_nat n) -> length (dig B n z) = n /\ canon B (dig B n z) /\ val B (dig B n z) = z.
Proof.
  induction n as [|n IH]; intros z HB Hz; cbn [dig].
  - rewrite Z.mul_0_r in Hz. change (2 ^ 0) with 1 in Hz. split; [reflexivity|]. split; [constructor|cbn [val]; lia].
  - assert (P : 0 < 2 ^ B) by (apply pow2_pos; exact HB). replace (B * Z.of_nat (S n)) with (B + B * Z.of_nat n) in Hz by lia. rewrite Z.pow_add_r in Hz by lia.
    destruct (IH (z / 2 ^ B) HB) as [I1 [I2 I3]]. { split; [apply Z.div_pos; lia|apply Z.div_lt_upper_bound; lia]. }
    cbn [length val]. split; [lia|]. split; [constructor; [apply Z.mod_pos_bound; exact P|exact I2]|]. rewrite I3. pose proof (Z.div_mod z (2 ^ B) ltac:(lia)). lia.
Qed.
Section Ex.
Variable r : rom.
Hypothesis Hf : fp_ok r.
Hypothesis Hs : special r = false.
Lemma el1_new_big x : big_wf (r_cfg r) x -> exists f, fp_new_big r x = Some f /\ el1 r 2 f (bval (r_cfg r) x).
Proof. intros W. destruct (nres_rep r Hf x W) as [f [E [X Q]]]; [congruence|]. exists f. split; [exact E|split; assumption]. Qed.
Lemma el2_new_bigs a b : big_wf (r_cfg r) a -> big_wf (r_cfg r) b -> exists f, fp2_new_bigs r a b = Some f /\ el2 r 2 f (bval (r_cfg r) a, bval (r_cfg r) b).
Proof.
  intros Wa Wb. unfold fp2_new_bigs. destruct (el1_new_big a Wa) as [f [Ef Qf]]. destruct (el1_new_big b Wb) as [g [Eg Qg]]. rewrite Ef. cbn [bind]. rewrite Eg. cbn [bind].
  eexists. split; [reflexivity|]. split; assumption.
Qed.
Lemma big_ex z : 0 <= z < pmod r -> exists a, big_wf (r_cfg r) a /\ bval (r_cfg r) a = z.
Proof.
  intros Hz. pose proof (ff_ok r (fp_ok_facts r Hf)) as Hok. pose proof (cf_B _ (cfg_ok_facts _ Hok)) as HB. pose proof (SHp_lt r Hf) as HR. pose proof (SH_pos r Hf). pose proof (p_pos r Hf).
  assert (pmod r < bmax (r_cfg r)) by (assert (1 * pmod r <= 2 ^ r_SH r * pmod r) by (apply Z.mul_le_mono_nonneg_r; lia); lia).
  destruct (dig_ok (BASEBITS (r_cfg r)) (NLEN (r_cfg r)) z) as [L [C V]]; [lia|unfold bmax in *; lia|]. exists (dig (BASEBITS (r_cfg r)) (NLEN (r_cfg r)) z). split; [split; assumption|exact V].
Qed.
Lemma el2_ex u : exists x, el2 r 2 x u.
Proof.
  pose proof (p_pos r Hf). destruct (big_ex (fst u mod pmod r)) as [a [Wa Va]]; [apply Z.mod_pos_bound; lia|]. destruct (big_ex (snd u mod pmod r)) as [b [Wb Vb]]; [apply Z.mod_pos_bound; lia|].
  destruct (el2_new_bigs a b Wa Wb) as [f [_ Q]]. exists f. rewrite Va, Vb in Q. refine (el2_cong r Hf _ _ _ _ _ Q). split; cbn [fst snd]; apply Z.mod_mod; lia.
Qed.
Lemma el4_ex u : exists x, el4 r 2 x u.
Proof. destruct (el2_ex (fst u)) as [a Ha], (el2_ex (snd u)) as [b Hb]. exists (mkfp4 a b). split; assumption. Qed.
Lemma el12_ex t u : exists x, el12 r 2 x u /\ f12t x = t.
Proof. destruct (el4_ex (c0 u)) as [a Ha], (el4_ex (c1 u)) as [b Hb], (el4_ex (c2 u)) as [d Hd]. exists (mkfp12 a b d t). split; [split; [|split]; assumption|reflexivity]. Qed.
End Ex.
