(** C19 (FP2) and C20 (FP4, FP12).  [el2 r e x u]: the object x is normalised, its excess counters are at most e, and it
    stores the class modulo p of the element u of Z[i]; el4 and el12 likewise one and two levels up (Spec/TowerRep.v,
    Spec/TowerSpec.v).  add, sub, neg and mul_ip leave digits unnormalised: their results are stated after the norm() the API
    asks for.  Every theorem also says that no intermediate word overflows ([Some _]). *)
From Verif Require Import Base.Word Base.Arr Model.Big Model.Roms Model.Fp Model.Fp2 Model.Fp4 Model.Fp12 Spec.BigSpec Spec.RomSpec Spec.FpSpec Spec.TowerSpec Spec.TowerRep
  Proof.BigVal Proof.NumTheory Proof.RomCheck Proof.FpBase Proof.FpRed Proof.FpOps Proof.FpIv Proof.Fp2Ops Proof.Fp4Step Proof.Fp4Ops Proof.TowerRing Proof.Fp12Ops Proof.Fp12Sparse Proof.TowerInv Proof.Fp12Pow.
From Coq Require Import Znumtheory.

(** the conditions hold for the shipped pairing curves, with two exceptions *)
Definition pairing_roms : list rom :=
  [rom_bls381_32; rom_bls381_64; rom_bls383_32; rom_bls383_64; rom_bls48_32; rom_bls48_64; rom_bn254_32; rom_bn254_64; rom_bn254cx_32; rom_bn254cx_64; rom_fp256bn_32; rom_fp256bn_64; rom_fp512bn_64].
Definition tower_okb (r : rom) : bool := negb (special r) && (16383 <=? FEXCESS r) && (4 * Z.min 524288 (FEXCESS r) * pmod r <=? bmax (r_cfg r)).
Theorem pairing_roms_ok : Forall (fun r => fp_ok r /\ tower_ok r) pairing_roms.
Proof.
  assert (G : forall r, checkb r = true -> fp_okb r = true -> tower_okb r = true -> fp_ok r /\ tower_ok r).
  { intros r H1 H2 H3. split; [split; [apply checkb_ok; exact H1|exact H2]|]. unfold tower_okb in H3. rewrite !andb_true_iff, negb_true_iff, !Z.leb_le in H3. unfold tower_ok. tauto. }
  unfold pairing_roms. repeat (apply Forall_cons; [apply G; vm_compute; reflexivity|]). apply Forall_nil.
Qed.
Print Assumptions pairing_roms_ok.

Ltac el := repeat match goal with H : el2 _ _ _ _ |- _ => apply el2_rep in H; [|assumption] | H : el4 _ _ _ _ |- _ => apply el4_rep in H; [|assumption] | H : el12 _ _ _ _ |- _ => apply el12_rep in H; [|assumption] end.
Ltac mg := match goal with Hf : fp_ok ?r |- _ => pose proof (maxg_ge r Hf) end.

Ltac nrm Q z Ez Qz := match type of Q with rep2 ?r ?lo ?hi ?e ?x ?u => match goal with Hf : fp_ok r |- _ => destruct (norm2_ok r Hf lo hi e x u) as [z [Ez Qz]]; [lia|lia|lia|lia|exact Q|] end end.

(** ** C19 *)
Theorem C19_add : forall r e1 e2 x y u v, fp_ok r -> el2 r e1 x u -> el2 r e2 y v ->
  exists s z, fp2_add r x y = Some s /\ fp2_norm r s = Some z /\ el2 r (e1 + e2) z (add2 u v).
Proof.
  intros r e1 e2 x y u v Hf H1 H2. el. mg. destruct (add2_ok r Hf 0 1 e1 0 1 e2 x y u v) as [s [Es Qs]]; try assumption; try lia.
  nrm Qs z Ez Qz. exists s, z. rewrite el2_rep by assumption. auto.
Qed.
Print Assumptions C19_add.
Theorem C19_sub : forall r e1 e2 x y u v, fp_ok r -> special r = false -> el2 r e1 x u -> el2 r e2 y v ->
  exists s z, fp2_sub r x y = Some s /\ fp2_norm r s = Some z /\ el2 r (e1 + 9 * e2) z (sub2 u v).
Proof.
  intros r e1 e2 x y u v Hf Hs H1 H2. el. mg. destruct (w_sub r Hf 0 1 e1 e2 x y u v) as [s [Es Qs]]; try assumption; try lia.
  nrm Qs z Ez Qz. exists s, z. rewrite el2_rep by assumption. auto.
Qed.
Print Assumptions C19_sub.
Theorem C19_neg : forall r e x u, fp_ok r -> special r = false -> el2 r e x u ->
  exists s z, fp2_neg r x = Some s /\ fp2_norm r s = Some z /\ el2 r (9 * e) z (neg2 u).
Proof.
  intros r e x u Hf Hs H1. el. mg. destruct (w_neg r Hf e x u) as [s [Es Qs]]; try assumption; try lia.
  nrm Qs z Ez Qz. exists s, z. rewrite el2_rep by assumption. auto.
Qed.
Print Assumptions C19_neg.
Theorem C19_conj : forall r e x u, fp_ok r -> el2 r e x u -> exists z, fp2_conj r x = Some z /\ el2 r (4 * e) z (conj2 u).
Proof. intros r e x u Hf H1. el. destruct (conj2_ok r Hf e x u H1) as [z [Ez Qz]]. exists z. rewrite el2_rep by assumption. auto. Qed.
Print Assumptions C19_conj.
Theorem C19_mul : forall r e1 e2 x y u v, fp_ok r -> special r = false -> 4 * e2 <= FEXCESS r -> el2 r e1 x u -> el2 r e2 y v ->
  exists z, fp2_mul r x y = Some z /\ el2 r 3 z (mul2 u v).
Proof.
  intros r e1 e2 x y u v Hf Hs He H1 H2. el. destruct (mul2_ok r Hf Hs e1 e2 x y u v) as [z [Ez Qz]]; try assumption.
  { pose proof (p_pos r Hf). pose proof (SHp_lt r Hf) as HR. pose proof (Z.le_min_l e2 (FEXCESS r)). rewrite (FEX r) in *. assert (4 * Z.min e2 (2 ^ r_SH r - 1) * pmod r <= 2 ^ r_SH r * pmod r) by (apply Z.mul_le_mono_nonneg_r; lia). lia. }
  exists z. rewrite el2_rep by assumption. auto.
Qed.
Print Assumptions C19_mul.
Theorem C19_sqr : forall r e x u, fp_ok r -> special r = false -> el2 r e x u -> exists z, fp2_sqr r x = Some z /\ el2 r 2 z (mul2 u u).
Proof. intros r e x u Hf Hs H1. el. destruct (sqr2_ok r Hf Hs e x u H1) as [z [Ez Qz]]. exists z. rewrite el2_rep by assumption. auto. Qed.
Print Assumptions C19_sqr.
(** mul_ip multiplies by 1 + i, div_ip undoes it *)
Theorem C19_mul_ip : forall r e x u, fp_ok r -> el2 r e x u -> exists s z, fp2_mul_ip r x = Some s /\ fp2_norm r s = Some z /\ el2 r (5 * e) z (mul2 (1, 1) u).
Proof.
  intros r e x u Hf H1. el. mg. destruct (mul_ip2_ok r Hf e x u H1) as [s [Es Qs]].
  nrm Qs z Ez Qz. exists s, z. rewrite el2_rep by assumption. auto.
Qed.
Print Assumptions C19_mul_ip.
Theorem C19_div_ip : forall r e x u w, fp_ok r -> el2 r e x u -> eq2 (pmod r) (mul2 (1, 1) w) u -> exists z, fp2_div_ip r x = Some z /\ el2 r (5 * e) z w.
Proof.
  intros r e x u w Hf H1 Hw. el. mg. unfold fp2_div_ip. destruct (div_ip2_ok r Hf 0 1 e x u) as [t [Et Qt]]; try assumption; try lia. rewrite Et. cbn [bind].
  destruct (div22_ok r Hf (5 * e) t (mul2 (1, -1) u) w Qt) as [z [Ez Qz]].
  { pose proof (p_pos r Hf). apply eq2_trans with (mul2 (1, -1) (mul2 (1, 1) w)).
    - replace (scale2 2 w) with (mul2 (1, -1) (mul2 (1, 1) w)); [apply eq2_refl|]. destruct w. unfold scale2, mul2. cbn [fst snd]. f_equal; ring.
    - apply eq2_mul; [lia|apply eq2_refl|exact Hw]. }
  exists z. rewrite el2_rep by assumption. auto.
Qed.
Print Assumptions C19_div_ip.
(** inverse of a unit; for p = 3 mod 4 (all shipped pairing curves) every non-zero element is one *)
Theorem C19_inverse : forall r e x u w, fp_ok r -> special r = false -> prime (pmod r) -> el2 r e x u -> eq2 (pmod r) (mul2 u w) one2 ->
  exists z, fp2_inverse r x = Some z /\ el2 r 2 z w.
Proof.
  intros r e x u w Hf Hs Hp H1 Hu. el. mg. destruct (inverse2_ok r Hf Hs 0 1 e x u) as [z [Ez Qz]]; try assumption; try lia. exists z. split; [exact Ez|].
  rewrite el2_rep by assumption. apply (rep2_cong r _ _ _ _ (inv2v (pmod r) u)); [|exact Qz]. pose proof (p_pos r Hf). pose proof (inv2v_ok _ Hp u (unit2 _ Hp u w Hu)) as I. set (k := inv2v (pmod r) u) in *.
  apply eq2_trans with (mul2 (mul2 u w) k); [|replace (mul2 (mul2 u w) k) with (mul2 w (mul2 u k)) by ring].
  - replace k with (mul2 one2 k) at 1 by ring. apply eq2_mul; [lia|apply eq2_sym; exact Hu|apply eq2_refl].
  - replace w with (mul2 w one2) at 2 by ring. apply eq2_mul; [lia|apply eq2_refl|exact I].
Qed.
Print Assumptions C19_inverse.
Theorem C19_inverse_nonzero : forall r e x u, fp_ok r -> special r = false -> prime (pmod r) -> pmod r mod 4 = 3 -> el2 r e x u -> ~ eq2 (pmod r) u zero2 ->
  exists z w, fp2_inverse r x = Some z /\ el2 r 2 z w /\ eq2 (pmod r) (mul2 u w) one2.
Proof.
  intros r e x u Hf Hs Hp H3 H1 Hu. assert (N : norm2 u mod pmod r <> 0) by (intros E; apply Hu; apply (norm2_zero _ Hp u H3 E)).
  pose proof (inv2v_ok _ Hp u N) as I. destruct (C19_inverse r e x u _ Hf Hs Hp H1 I) as [z [Ez Qz]]. exists z, (inv2v (pmod r) u). auto.
Qed.
Print Assumptions C19_inverse_nonzero.
(** inverse(0) = 0 *)
Theorem C19_inverse_zero : forall r e x u, fp_ok r -> special r = false -> el2 r e x u -> eq2 (pmod r) u zero2 -> exists z, fp2_inverse r x = Some z /\ el2 r 2 z zero2.
Proof.
  intros r e x u Hf Hs H1 Hu. apply (el2_cong r Hf _ _ _ _ Hu) in H1. el. mg. destruct (inverse2_ok r Hf Hs 0 1 e x zero2) as [z [Ez Qz]]; try assumption; try lia. exists z. split; [exact Ez|].
  rewrite el2_rep by assumption. replace zero2 with (scale2 (norm2 zero2 ^ (pmod r - 2)) (conj2 zero2)) at 1; [exact Qz|]. unfold scale2, conj2, zero2. cbn [fst snd]. f_equal; ring.
Qed.
Print Assumptions C19_inverse_zero.
Theorem C19_equals : forall r e1 e2 x y u v, fp_ok r -> el2 r e1 x u -> el2 r e2 y v ->
  exists b, fp2_equals r x y = Some b /\ (b = true <-> eq2 (pmod r) u v).
Proof.
  intros r e1 e2 x y u v Hf H1 H2. el. mg. eexists. split; [apply (equals2_ok r Hf 0 1 e1 0 1 e2 x y u v); try assumption; lia|].
  rewrite andb_true_iff, !Z.eqb_eq. reflexivity.
Qed.
Print Assumptions C19_equals.

(** ** C20: FP4 = FP2[w], w^2 = 1 + i *)
Ltac nrm4 Q z Ez Qz := match type of Q with rep4 ?r ?lo ?hi ?e ?x ?u => match goal with Hf : fp_ok r |- _ => destruct (norm4_ok r Hf lo hi e x u) as [z [Ez Qz]]; [lia|lia|lia|lia|exact Q|] end end.
Theorem C20_fp4_add_sub : forall r e1 e2 x y u v, fp_ok r -> tower_ok r -> el4 r e1 x u -> el4 r e2 y v ->
  (exists s z, fp4_add r x y = Some s /\ fp4_norm r s = Some z /\ el4 r (e1 + e2) z (add4 u v)) /\
  (18 * e2 <= FEXCESS r -> exists s z, fp4_sub r x y = Some s /\ fp4_norm r s = Some z /\ el4 r (e1 + 19 * e2) z (sub4 u v)).
Proof.
  intros r e1 e2 x y u v Hf Ht H1 H2. el. mg. split.
  - destruct (add4_ok r Hf 0 1 e1 0 1 e2 x y u v) as [s [Es Qs]]; try assumption; try lia. nrm4 Qs z Ez Qz. exists s, z. rewrite el4_rep by assumption. auto.
  - intros He. destruct (sub4_ok r Hf 0 1 e1 e2 x y u v) as [s [Es Qs]]; try assumption; try lia. nrm4 Qs z Ez Qz. exists s, z. rewrite el4_rep by assumption. auto.
Qed.
Print Assumptions C20_fp4_add_sub.
Theorem C20_fp4_conj : forall r e x u, fp_ok r -> tower_ok r -> el4 r e x u ->
  (exists z, fp4_conj r x = Some z /\ el4 r (9 * e) z (conj4 u)) /\ (exists z, fp4_nconj r x = Some z /\ el4 r (9 * e) z (neg4 (conj4 u))).
Proof.
  intros r e x u Hf Ht H1. el. split; [destruct (conj4_ok r Hf e x u H1) as [z [Ez Qz]]|destruct (nconj4_ok r Hf e x u H1) as [z [Ez Qz]]]; exists z; rewrite el4_rep by assumption; auto.
Qed.
Print Assumptions C20_fp4_conj.
Theorem C20_fp4_mul : forall r e1 e2 x y u v, fp_ok r -> tower_ok r -> 2 * e2 <= 524288 -> el4 r e1 x u -> el4 r e2 y v ->
  exists z, fp4_mul r x y = Some z /\ el4 r 57 z (mul4 u v).
Proof. intros r e1 e2 x y u v Hf Ht He H1 H2. el. destruct (mul4_ok r Hf Ht e1 e2 x y u v He H1 H2) as [z [Ez Qz]]. exists z. rewrite el4_rep by assumption. auto. Qed.
Print Assumptions C20_fp4_mul.
Theorem C20_fp4_sqr : forall r e x u, fp_ok r -> tower_ok r -> 6 * e <= 524288 -> el4 r e x u -> exists z, fp4_sqr r x = Some z /\ el4 r 165 z (mul4 u u).
Proof. intros r e x u Hf Ht He H1. el. destruct (sqr4_ok r Hf Ht e x u He H1) as [z [Ez Qz]]. exists z. rewrite el4_rep by assumption. auto. Qed.
Print Assumptions C20_fp4_sqr.
Theorem C20_fp4_inverse : forall r e x u w, fp_ok r -> tower_ok r -> prime (pmod r) -> el4 r e x u -> eq4 (pmod r) (mul4 u w) one4 ->
  exists z, fp4_inverse r x = Some z /\ el4 r 3 z w.
Proof.
  intros r e x u w Hf Ht Hp H1 Hu. el. destruct (inverse4_ok r Hf Ht e x u H1) as [z [Ez Qz]]. exists z. split; [exact Ez|].
  rewrite el4_rep by assumption. apply (rep4_cong r _ _ _ _ (inv4v (pmod r) u)); [|exact Qz]. pose proof (p_pos r Hf). pose proof (inv4v_ok _ Hp u (unit4 _ Hp u w Hu)) as I. set (k := inv4v (pmod r) u) in *.
  apply eq4_trans with (mul4 (mul4 u w) k); [|replace (mul4 (mul4 u w) k) with (mul4 w (mul4 u k)) by ring].
  - replace k with (mul4 one4 k) at 1 by ring. apply eq4_mul; [lia|apply eq4_sym; exact Hu|apply eq4_refl].
  - replace w with (mul4 w one4) at 2 by ring. apply eq4_mul; [lia|apply eq4_refl|exact I].
Qed.
Print Assumptions C20_fp4_inverse.

(** ** C20: FP12 = FP4[z], z^3 = w *)
Theorem C20_fp12_mul : forall r e1 e2 x y u v, fp_ok r -> tower_ok r -> 4 * e2 <= 524288 -> el12 r e1 x u -> el12 r e2 y v ->
  exists z, fp12_mul r x y = Some z /\ el12 r 11172 z (mul12 u v).
Proof. intros r e1 e2 x y u v Hf Ht He H1 H2. el. destruct (mul12_ok r Hf Ht e1 e2 x y u v He H1 H2) as [z [Ez [Qz _]]]. exists z. rewrite el12_rep by assumption. auto. Qed.
Print Assumptions C20_fp12_mul.
Theorem C20_fp12_conj : forall r e x u, fp_ok r -> tower_ok r -> el12 r e x u -> exists z, fp12_conj r x = Some z /\ el12 r (9 * e) z (conj12 u).
Proof. intros r e x u Hf Ht H1. el. destruct (conj12_ok r Hf e x u H1) as [z [Ez [Qz _]]]. exists z. rewrite el12_rep by assumption. auto. Qed.
Print Assumptions C20_fp12_conj.
(** conj12 is an involutive ring automorphism *)
Theorem C20_conj_automorphism : forall x y, conj12 (mul12 x y) = mul12 (conj12 x) (conj12 y) /\ conj12 (add12 x y) = add12 (conj12 x) (conj12 y) /\ conj12 one12 = one12.
Proof. intros x y. split; [apply conj12_mul|]. split; [apply conj12_add|reflexivity]. Qed.
Print Assumptions C20_conj_automorphism.
(** squaring relies on a truthful sparsity tag and returns one *)
Theorem C20_fp12_sqr : forall r tw e x u, fp_ok r -> tower_ok r -> 1 <= e -> 18 * e <= 524288 -> typed tw (f12t x) u -> el12 r e x u ->
  exists z, fp12_sqr r x = Some z /\ el12 r (Z.max e 11172) z (mul12 u u) /\ typed tw (f12t z) (mul12 u u).
Proof. intros r tw e x u Hf Ht H1 He Ty HA. el. destruct (sqr12_ok r Hf Ht tw e x u Ty He H1 HA) as [z [Ez [Qz Tz]]]. exists z. rewrite el12_rep by assumption. auto. Qed.
Print Assumptions C20_fp12_sqr.
(** the sparse product agrees with the dense one, whatever the tags, as long as they are truthful *)
Theorem C20_fp12_ssmul : forall r tw e1 e2 x y u v, fp_ok r -> tower_ok r -> 1 <= e1 -> 1 <= e2 -> 4 * e2 <= 524288 ->
  typed tw (f12t x) u -> typed tw (f12t y) v -> el12 r e1 x u -> el12 r e2 y v ->
  (exists z, fp12_ssmul r tw x y = Some z /\ el12 r (Z.max (Z.max e1 e2) 11172) z (mul12 u v) /\ typed tw (f12t z) (mul12 u v)) /\
  (exists z, fp12_mul r x y = Some z /\ el12 r 11172 z (mul12 u v)).
Proof.
  intros r tw e1 e2 x y u v Hf Ht H1 H2 He Tx Ty HA HB. split; [|apply (C20_fp12_mul r e1 e2); assumption]. el.
  destruct (ssmul_ok r Hf Ht tw e1 e2 x y u v He H1 H2 Tx Ty HA HB) as [z [Ez [Qz Tz]]]. exists z. rewrite el12_rep by assumption. auto.
Qed.
Print Assumptions C20_fp12_ssmul.
Theorem C20_fp12_smul : forall r tw e1 e2 x y u v, fp_ok r -> tower_ok r -> 2 * e2 <= 524288 ->
  typed tw T_SPARSER u -> typed tw T_SPARSER v -> el12 r e1 x u -> el12 r e2 y v ->
  exists z, fp12_smul r tw x y = Some z /\ el12 r 11172 z (mul12 u v) /\ typed tw (f12t z) (mul12 u v).
Proof.
  intros r tw e1 e2 x y u v Hf Ht He Tx Ty HA HB. el.
  destruct (smul_ok r Hf Ht tw e1 e2 x y u v He (typed_sparser _ _ _ Tx ltac:(reflexivity) ltac:(discriminate)) (typed_sparser _ _ _ Ty ltac:(reflexivity) ltac:(discriminate)) HA HB) as [z [Ez [Qz Tz]]].
  exists z. rewrite el12_rep by assumption. auto.
Qed.
Print Assumptions C20_fp12_smul.
Theorem C20_fp12_inverse : forall r e x u w, fp_ok r -> tower_ok r -> prime (pmod r) -> 6 * e <= 524288 -> el12 r e x u -> eq12 (pmod r) (mul12 u w) one12 ->
  exists z, fp12_inverse r x = Some z /\ el12 r 57 z w.
Proof.
  intros r e x u w Hf Ht Hp He H1 Hu. el. destruct (inverse12_ok r Hf Ht e x u He H1) as [z [Ez [Qz _]]]. exists z. split; [exact Ez|].
  rewrite el12_rep by assumption. apply (rep12_cong r Hf _ _ (inv12v (pmod r) u)); [|exact Qz]. pose proof (p_pos r Hf). pose proof (inv12v_ok _ Hp u (unit12 _ Hp u w Hu)) as I. set (k := inv12v (pmod r) u) in *.
  apply eq12_trans with (mul12 (mul12 u w) k); [|replace (mul12 (mul12 u w) k) with (mul12 w (mul12 u k)) by ring].
  - replace k with (mul12 one12 k) at 1 by ring. apply eq12_mul; [lia|apply eq12_sym; exact Hu|apply eq12_refl].
  - replace w with (mul12 w one12) at 2 by ring. apply eq12_mul; [lia|apply eq12_refl|exact I].
Qed.
Print Assumptions C20_fp12_inverse.
(** usqr squares the elements of the cyclotomic subgroup: v * conj v = 1 and norm v = 1, where v * adj12 v = norm12 v *)
Theorem C20_fp12_usqr : forall r e x u, fp_ok r -> tower_ok r -> prime (pmod r) -> 6 * e <= 524288 -> el12 r e x u ->
  eq12 (pmod r) (mul12 u (conj12 u)) one12 -> eq4 (pmod r) (norm12 u) one4 ->
  exists z, fp12_usqr r x = Some z /\ el12 r 1 z (mul12 u u).
Proof.
  intros r e x u Hf Ht Hp He HA H1 H2. el. destruct (usqr_sq r Hf Ht Hp e x u He (conj H1 H2) HA) as [z [Ez Qz]]. exists z. rewrite el12_rep by assumption. auto.
Qed.
Print Assumptions C20_fp12_usqr.
Theorem C20_norm_adj : forall v, mul12 v (adj12 v) = of4 (norm12 v).
Proof. exact norm12_adj. Qed.
Print Assumptions C20_norm_adj.
(** powers of cyclotomic elements: pinpow on every curve, pow on the 32-bit ones *)
Theorem C20_fp12_pinpow : forall r eb x v e bts, fp_ok r -> tower_ok r -> prime (pmod r) -> eb <= 11172 -> el12 r eb x v ->
  eq12 (pmod r) (mul12 v (conj12 v)) one12 -> eq4 (pmod r) (norm12 v) one4 -> 0 <= bts <= 32 -> 0 <= e < 2 ^ bts ->
  exists z, fp12_pinpow r x e bts = Some z /\ el12 r 11172 z (pow12 v (Z.to_nat e)).
Proof.
  intros r eb x v e bts Hf Ht Hp He HA H1 H2 Hb H0. el. destruct (pinpow_ok r Hf Ht Hp eb x v e bts ltac:(lia) (conj H1 H2) Hb H0 HA) as [z [Ez Qz]]. exists z. rewrite el12_rep by assumption. auto.
Qed.
Print Assumptions C20_fp12_pinpow.
Theorem C20_fp12_pow_partial : forall r eb x v ex, fp_ok r -> tower_ok r -> prime (pmod r) -> FEXCESS r <= 87381 -> el12 r eb x v ->
  eq12 (pmod r) (mul12 v (conj12 v)) one12 -> eq4 (pmod r) (norm12 v) one4 ->
  big_wf (r_cfg r) ex -> 0 < bval (r_cfg r) ex -> 3 * bval (r_cfg r) ex < bmax (r_cfg r) ->
  exists z, fp12_pow r x ex = Some z /\ el12 r 1 z (pow12 v (Z.to_nat (bval (r_cfg r) ex))).
Proof.
  intros r eb x v ex Hf Ht Hp HF HA H1 H2 We H0 H3. el. destruct (pow12_ok r Hf Ht Hp eb x v ex HF (conj H1 H2) We H0 H3 HA) as [z [Ez Qz]]. exists z. rewrite el12_rep by assumption. auto.
Qed.
Print Assumptions C20_fp12_pow_partial.

(** ** the hypotheses are met: every class of every level has an object, with any tag, on every pairing curve, and a
    non-trivial cyclotomic element of BN254 is exhibited *)
Theorem C20_objects_exist : Forall (fun r => (forall u, exists x, el2 r 2 x u) /\ (forall u, exists x, el4 r 2 x u) /\ (forall t u, exists x, el12 r 2 x u /\ f12t x = t)) pairing_roms.
Proof.
  eapply Forall_impl; [|exact pairing_roms_ok]. cbv beta. intros r [Hf [Hs _]]. split; [intros u; apply el2_ex; assumption|]. split; [intros u; apply el4_ex; assumption|intros t u; apply el12_ex; assumption].
Qed.
Print Assumptions C20_objects_exist.
Theorem C19_new_bigs : forall r a b, fp_ok r -> special r = false -> big_wf (r_cfg r) a -> big_wf (r_cfg r) b ->
  exists x, fp2_new_bigs r a b = Some x /\ el2 r 2 x (bval (r_cfg r) a, bval (r_cfg r) b).
Proof. intros r a b Hf Hs. apply el2_new_bigs; assumption. Qed.
Print Assumptions C19_new_bigs.
Definition cyc_elt : Z12 :=
  (((0x20eb50785b9a74fbbec35690da3d96d38141eff02b518016719e6ed08808706b, 0x2161399068620f1365ce183cecbd63aa8ce1ab557d79f7ec5d9adbfd71445ea0), (0x6a926449df77175f3383b67efe13d9f9816cd80bfe2cefd0db29f50e67b0f10, 0x208c6fc2081b123215f2d0a84e5d859e4bf900e3d74d525a8888c30eee42c664)),
   ((0xf5147f09f506d71472e4cecd53bfec1be79183a60561286148f012fd3cfb664, 0xc0c6e91a88b62f70412709643de04f55c6743a2e55c2f3894acc0f1f5727bb4), (0x630a42a9d399920a6580b0d1c2406ffaf3bcc80cbbc20d3ffd6fd42740632c2, 0xe7a05ab423db01092f3aa19a00373fa8c23e1eca7941c95dd37f91accec5256)),
   ((0x673b1d02131c77d2cc3c48fc533d2aba161904760c689baa4de38cdbda23e0f, 0xa7613cdf8d2ad57704b4118b8fa424d4083f8784bf01f097a7709d653acc7db), (0x1a781934c826a946a12e36e746356fa3fc89faed3ee02dcdc814d17afe3ba3b4, 0xe9e46aef7badda628d13e9aaea0c2789b22baccc65bf763975c417e01130d75))).
Definition eq2b (p : Z) (x y : Z2) : bool := (fst x mod p =? fst y mod p) && (snd x mod p =? snd y mod p).
Definition eq4b (p : Z) (x y : Z4) : bool := eq2b p (fst x) (fst y) && eq2b p (snd x) (snd y).
Definition eq12b (p : Z) (x y : Z12) : bool := eq4b p (c0 x) (c0 y) && eq4b p (c1 x) (c1 y) && eq4b p (c2 x) (c2 y).
Example cyc_witness : eq12b (pmod rom_bn254_64) (mul12 cyc_elt (conj12 cyc_elt)) one12 = true /\ eq4b (pmod rom_bn254_64) (norm12 cyc_elt) one4 = true /\ cyc_elt <> one12.
Proof. split; [vm_compute; reflexivity|]. split; [vm_compute; reflexivity|]. unfold cyc_elt, one12, one4. intros H. inversion H. Qed.
(** a sparse product with honest tags, both twists *)
Example typed_witness : typed DType T_SPARSER (((2, 3), (5, 7)), ((11, 13), zero2), zero4) /\ typed MType T_SPARSER (((2, 3), (5, 7)), zero4, (zero2, (11, 13))) /\ pmod rom_bls381_64 mod 4 = 3.
Proof. split; [|split]; [right; right; left; split; [reflexivity|split; reflexivity]..|vm_compute; reflexivity]. Qed.

(** ** refuted: without the bound on the second operand's excess, FP2::mul of legal objects returns an illegal one.  It reduces
    only [self] when the combined excess is too large (fp2.rs:235-242), then stores excess 2 next to a value of at least 2p. *)
Definition legalb (r : rom) (f : fp) : bool :=
  Nat.eqb (length (fx f)) (NLEN (r_cfg r)) && forallb (fun z => (0 <=? z) && (z <=? 2 ^ BASEBITS (r_cfg r) - 1)) (fx f) && (1 <=? fxes f) && (fxes f <=? FEXCESS r) && (0 <=? bval (r_cfg r) (fx f)) && (bval (r_cfg r) (fx f) <? fxes f * pmod r).
Lemma legalb_ok r f : legalb r f = true -> legal r 1 f.
Proof.
  unfold legalb. intros H. rewrite !andb_true_iff in H. destruct H as [[[[[H1 H2] H3] H4] H5] H6]. apply Nat.eqb_eq in H1. apply Z.leb_le in H3, H4, H5. apply Z.ltb_lt in H6. rewrite forallb_forall in H2.
  split; [exact H1|]. split; [|lia]. unfold graded, within. apply Forall_forall. intros z Hz. specialize (H2 z Hz). apply andb_true_iff in H2. destruct H2 as [H2 H2']. apply Z.leb_le in H2, H2'. lia.
Qed.
Definition bad_pair (r : rom) : fp2 * fp2 :=
  let d := dig (BASEBITS (r_cfg r)) (NLEN (r_cfg r)) in
  (mkfp2 (mkfp (d (pmod r - 67)) 1) (mkfp (d (pmod r - 100)) 1),
   mkfp2 (mkfp (d (FEXCESS r * pmod r - 575)) (FEXCESS r)) (mkfp (d (FEXCESS r * pmod r - 211)) (FEXCESS r))).
Definition bad_pairb (r : rom) : bool :=
  let (x, y) := bad_pair r in
  legalb r (f2a x) && legalb r (f2b x) && (legalb r (f2a y) && legalb r (f2b y)) &&
  match fp2_mul r x y with Some z => fxes (f2b z) * pmod r <=? bval (r_cfg r) (fx (f2b z)) | None => false end.
Lemma bad_pairb_ok r : bad_pairb r = true -> exists x y z,
  (legal r 1 (f2a x) /\ legal r 1 (f2b x)) /\ (legal r 1 (f2a y) /\ legal r 1 (f2b y)) /\ fp2_mul r x y = Some z /\ ~ legal r 1 (f2b z).
Proof.
  unfold bad_pairb. destruct (bad_pair r) as [x y]. intros H. apply andb_true_iff in H. destruct H as [H H3]. rewrite !andb_true_iff in H. destruct H as [[A1 A2] [B1 B2]].
  destruct (fp2_mul r x y) as [z|] eqn:E; [|discriminate]. exists x, y, z. apply Z.leb_le in H3. repeat (split; [split; apply legalb_ok; assumption|]). split; [exact E|]. intros [_ [_ [_ [_ L]]]]. lia.
Qed.
Theorem C19_mul_excess_refuted : let r := rom_bls381_64 in exists x y z,
  (legal r 1 (f2a x) /\ legal r 1 (f2b x)) /\ (legal r 1 (f2a y) /\ legal r 1 (f2b y)) /\ fp2_mul r x y = Some z /\ ~ legal r 1 (f2b z).
Proof. cbv zeta. apply bad_pairb_ok. vm_compute. reflexivity. Qed.
Print Assumptions C19_mul_excess_refuted.
