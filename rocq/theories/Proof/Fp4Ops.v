(** FP4 operations on limbs compute in Z[i][w], w^2 = 1+i, modulo p. *)
From Verif Require Import Base.Word Model.Big Model.Roms Model.Fp Model.Fp2 Model.Fp4 Spec.BigSpec Spec.RomSpec Spec.FpSpec Spec.TowerSpec Spec.TowerRep
  Proof.BigVal Proof.FpBase Proof.FpRed Proof.FpOps Proof.FpIv Proof.Fp2Ops Proof.Fp4Step.

Definition rep4 (r : rom) (lo hi e : Z) (x : fp4) (v : Z4) : Prop := rep2 r lo hi e (f4a x) (fst v) /\ rep2 r lo hi e (f4b x) (snd v).

Section Fp4.
Variable r : rom.
Hypothesis Hf : fp_ok r.
Hypothesis Ht : tower_ok r.
Notation p := (pmod r).
Let Hs : special r = false. Proof. exact (proj1 Ht). Qed.
Let HFX : 16383 <= FEXCESS r. Proof. exact (proj1 (proj2 Ht)). Qed.
Let Hp0 : 0 < p := p_pos r Hf.
Let Hmg : 4 <= maxg r := maxg_ge r Hf.

Lemma rep4_mono lo hi e lo' hi' e' x v : lo <= lo' -> hi <= hi' -> e <= e' -> rep4 r lo hi e x v -> rep4 r lo' hi' e' x v.
Proof. intros H1 H2 H3 [A D]. split; eapply (rep2_mono r Hf); try eassumption. Qed.
Lemma rep4_cap lo hi e x v : rep4 r lo hi e x v -> rep4 r lo hi (FEXCESS r) x v.
Proof. intros [A D]. split; eapply w_cap; eassumption. Qed.
Lemma rep4_e lo hi e x v : rep4 r lo hi e x v -> 1 <= e.
Proof. intros [[A _] _]. pose proof (frep_e _ _ _ _ _ _ A). lia. Qed.
Lemma rep4_cong lo hi e x v v' : eq4 p v v' -> rep4 r lo hi e x v -> rep4 r lo hi e x v'.
Proof. intros [H1 H2] [A D]. split; eapply rep2_cong; eassumption. Qed.

Lemma add4_ok lo1 hi1 e1 lo2 hi2 e2 x y u v : 0 <= lo1 -> 0 <= lo2 -> 1 <= hi1 -> 1 <= hi2 -> hi1 + hi2 <= maxg r -> lo1 + lo2 + 1 <= maxg r ->
  rep4 r lo1 hi1 e1 x u -> rep4 r lo2 hi2 e2 y v -> exists z, fp4_add r x y = Some z /\ rep4 r (lo1 + lo2) (hi1 + hi2) (e1 + e2) z (add4 u v).
Proof. intros H1 H2 H3 H4 H5 H6 [A1 A2] [B1 B2]. unfold fp4_add. do 2 gstep. eexists. split; [reflexivity|]. split; assumption. Qed.
Lemma dbl4_ok lo hi e x u : 0 <= lo -> 1 <= hi -> 2 * hi <= maxg r -> 2 * lo + 1 <= maxg r -> rep4 r lo hi e x u ->
  exists z, fp4_dbl r x = Some z /\ rep4 r (2 * lo) (2 * hi) (2 * e) z (add4 u u).
Proof. intros H1 H2 H3 H4 [A1 A2]. unfold fp4_dbl. do 2 gstep. eexists. split; [reflexivity|]. split; assumption. Qed.
Lemma norm4_ok lo hi e x u : 0 <= lo -> 1 <= hi -> hi <= maxg r -> lo + 1 <= maxg r -> rep4 r lo hi e x u -> exists z, fp4_norm r x = Some z /\ rep4 r 0 1 e z u.
Proof. intros H1 H2 H3 H4 [A1 A2]. unfold fp4_norm. do 2 gstep. eexists. split; [reflexivity|]. split; assumption. Qed.
Lemma reduce4_ok lo hi e x u : 0 <= lo -> 1 <= hi -> hi <= maxg r -> lo + 1 <= maxg r -> rep4 r lo hi e x u -> exists z, fp4_reduce r x = Some z /\ rep4 r 0 1 1 z u.
Proof. intros H1 H2 H3 H4 [A1 A2]. unfold fp4_reduce. do 2 gstep. eexists. split; [reflexivity|]. split; assumption. Qed.
Ltac fin4 := unfold fp4_norm; cbn [f4a f4b]; do 2 gstep; eexists; (split; [reflexivity|]); split; cbn [f4a f4b fst snd].
Lemma neg4_ok lo hi e x u : 0 <= lo -> 1 <= hi -> hi <= maxg r -> lo + 1 <= maxg r -> 18 * e <= FEXCESS r -> rep4 r lo hi e x u -> exists z, fp4_neg r x = Some z /\ rep4 r 0 1 (19 * e) z (neg4 u).
Proof.
  intros H1 H2 H3 H4 He HA. unfold fp4_neg. destruct (norm4_ok lo hi e x u H1 H2 H3 H4 HA) as [y [E [A1 A2]]]. rewrite E. cbn [bind]. clear E.
  gstep. gstep. gstep. gstep. fin4; gmono.
Qed.
Lemma conj4_ok e x u : rep4 r 0 1 e x u -> exists z, fp4_conj r x = Some z /\ rep4 r 0 1 (9 * e) z (conj4 u).
Proof. intros HA. pose proof (rep4_e _ _ _ _ _ HA) as He. destruct HA as [A1 A2]. unfold fp4_conj. gstep. fin4; gmono. Qed.
Lemma nconj4_ok e x u : rep4 r 0 1 e x u -> exists z, fp4_nconj r x = Some z /\ rep4 r 0 1 (9 * e) z (neg4 (conj4 u)).
Proof. intros HA. pose proof (rep4_e _ _ _ _ _ HA) as He. destruct HA as [A1 A2]. unfold fp4_nconj. gstep. fin4; gmono. Qed.
Lemma sub4_ok lo1 hi1 e1 e2 x y u v : 0 <= lo1 -> 1 <= hi1 -> hi1 + 1 <= maxg r -> lo1 + 1 <= maxg r -> 18 * e2 <= FEXCESS r -> rep4 r lo1 hi1 e1 x u -> rep4 r 0 1 e2 y v ->
  exists z, fp4_sub r x y = Some z /\ rep4 r lo1 (hi1 + 1) (e1 + 19 * e2) z (sub4 u v).
Proof.
  intros H1 H2 H3 H4 He HA HB. unfold fp4_sub. destruct (neg4_ok 0 1 e2 y v) as [m [E1 Q1]]; try lia; [assumption|]. rewrite E1. cbn [bind].
  destruct (add4_ok lo1 hi1 e1 0 1 (19 * e2) x m u (neg4 v)) as [z [E2 Q2]]; try lia; try assumption. exists z. split; [exact E2|].
  replace (sub4 u v) with (add4 u (neg4 v)) by (unfold add4, neg4, sub4; cbn [fst snd]; f_equal; ring2). rewrite Z.add_0_r in Q2. exact Q2.
Qed.
Lemma pmul4_ok e1 e2 x s u k : e2 <= 524288 -> rep4 r 0 1 e1 x u -> rep2 r 0 1 e2 s k -> exists z, fp4_pmul r x s = Some z /\ rep4 r 0 1 3 z (mul2 (fst u) k, mul2 (snd u) k).
Proof. intros He [A1 A2] Hk. unfold fp4_pmul. do 2 gstep. eexists. split; [reflexivity|]. split; assumption. Qed.
Lemma sqr4_ok e x u : 6 * e <= 524288 -> rep4 r 0 1 e x u -> exists z, fp4_sqr r x = Some z /\ rep4 r 0 1 165 z (mul4 u u).
Proof. intros He [A1 A2]. unfold fp4_sqr. do 13 gstep. fin4; gmono. Qed.
Lemma mul4_ok e1 e2 x y u v : 2 * e2 <= 524288 -> rep4 r 0 1 e1 x u -> rep4 r 0 1 e2 y v -> exists z, fp4_mul r x y = Some z /\ rep4 r 0 1 57 z (mul4 u v).
Proof. intros He [A1 A2] [B1 B2]. pose proof (rep2_mono r Hf 0 1 e2 0 1 e2) as _. unfold fp4_mul. do 14 gstep. fin4; gmono. Qed.
Lemma times_i4_ok e x u : rep4 r 0 1 e x u -> exists z, fp4_times_i r x = Some z /\ rep4 r 0 1 (5 * e) z (mul4 w4 u).
Proof. intros HA. pose proof (rep4_e _ _ _ _ _ HA) as He. destruct HA as [A1 A2]. unfold fp4_times_i. do 2 gstep. unfold w4, mul4. fin4; gmono. Qed.
Lemma inverse4_ok e x u : rep4 r 0 1 e x u -> exists z, fp4_inverse r x = Some z /\
  rep4 r 0 1 3 z (let n := norm4 u in let w := scale2 (norm2 n ^ (p - 2)) (conj2 n) in (mul2 (fst u) w, neg2 (mul2 (snd u) w))).
Proof.
  intros [A1 A2]. unfold fp4_inverse. do 10 gstep. eexists. split; [reflexivity|]. cbv zeta. unfold norm4. split; cbn [f4a f4b fst snd]; [gmono|].
  match goal with |- context [scale2 ?k ?m] => generalize dependent (scale2 k m) end. intros w. intros. gmono.
Qed.
Lemma frob4_ok e1 e2 x s u k : e2 <= 524288 -> 3 <= e1 -> rep4 r 0 1 e1 x u -> rep2 r 0 1 e2 s k -> exists z, fp4_frob r x s = Some z /\ rep4 r 0 1 (4 * e1) z (conj2 (fst u), mul2 (conj2 (snd u)) k).
Proof. intros He He1 [A1 A2] Hk. unfold fp4_frob. do 3 gstep. eexists. split; [reflexivity|]. split; cbn [f4a f4b fst snd]; gmono. Qed.
Lemma iszilch4_ok lo hi e x u : 0 <= lo -> 1 <= hi -> hi <= maxg r -> lo + 1 <= maxg r -> rep4 r lo hi e x u ->
  fp4_iszilch r x = Some ((fst (fst u) mod p =? 0) && (snd (fst u) mod p =? 0) && ((fst (snd u) mod p =? 0) && (snd (snd u) mod p =? 0))).
Proof.
  intros H1 H2 H3 H4 [A1 A2]. unfold fp4_iszilch. rewrite (iszilch2_ok r Hf _ _ _ _ _ H1 H2 H3 H4 A1). cbn [bind]. destruct (_ && _); [|reflexivity].
  rewrite (iszilch2_ok r Hf _ _ _ _ _ H1 H2 H3 H4 A2). reflexivity.
Qed.
End Fp4.
