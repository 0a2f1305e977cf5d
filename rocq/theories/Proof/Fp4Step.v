(** The FP2 operations packaged for symbolic execution of FP4 code, for ROMs with enough room between p and the radix. *)
From Verif Require Import Base.Word Model.Big Model.Roms Model.Fp Model.Fp2 Spec.BigSpec Spec.RomSpec Spec.FpSpec Spec.TowerSpec Spec.TowerRep
  Proof.BigVal Proof.FpBase Proof.FpRed Proof.FpOps Proof.FpIv Proof.Fp2Ops.

Section W.
Variable r : rom.
Hypothesis Hf : fp_ok r.
Hypothesis Ht : tower_ok r.
Notation p := (pmod r).
Let Hs : special r = false. Proof. exact (proj1 Ht). Qed.
Let Hp0 : 0 < p := p_pos r Hf.
Let Hmg : 4 <= maxg r := maxg_ge r Hf.

Lemma w_add lo1 hi1 e1 lo2 hi2 e2 x y u v : 0 <= lo1 -> 0 <= lo2 -> 1 <= hi1 -> 1 <= hi2 -> hi1 + hi2 <= maxg r -> lo1 + lo2 + 1 <= maxg r ->
  rep2 r lo1 hi1 e1 x u -> rep2 r lo2 hi2 e2 y v -> exists z, fp2_add r x y = Some z /\ rep2 r (lo1 + lo2) (hi1 + hi2) (e1 + e2) z (add2 u v).
Proof. intros. apply (add2_ok r Hf); try assumption; try lia. Qed.
Lemma w_dbl lo hi e x u : 0 <= lo -> 1 <= hi -> 2 * hi <= maxg r -> 2 * lo + 1 <= maxg r -> rep2 r lo hi e x u ->
  exists z, fp2_dbl r x = Some z /\ rep2 r (2 * lo) (2 * hi) (2 * e) z (add2 u u).
Proof. intros. apply (dbl2_ok r Hf); assumption. Qed.
Lemma w_norm lo hi e x u : 0 <= lo -> 1 <= hi -> hi <= maxg r -> lo + 1 <= maxg r -> rep2 r lo hi e x u -> exists z, fp2_norm r x = Some z /\ rep2 r 0 1 e z u.
Proof. intros. apply (norm2_ok r Hf lo hi); assumption. Qed.
Lemma w_reduce lo hi e x u : 0 <= lo -> 1 <= hi -> hi <= maxg r -> lo + 1 <= maxg r -> rep2 r lo hi e x u -> exists z, fp2_reduce r x = Some z /\ rep2 r 0 1 1 z u.
Proof. intros. apply (reduce2_ok r Hf lo hi e); assumption. Qed.
Lemma w_neg e x u : rep2 r 0 1 e x u -> exists z, fp2_neg r x = Some z /\ rep2 r 2 2 (9 * e) z (neg2 u).
Proof.
  intros [A1 A2]. unfold fp2_neg. pose proof (frep_e _ _ _ _ _ _ A1) as [X1 _]. do 4 fstep. eexists. split; [reflexivity|].
  split; cbn [f2a f2b neg2 fst snd]; [replace (- fst u) with (- (fst u + snd u) + snd u) by ring|replace (- snd u) with (- (fst u + snd u) + fst u) by ring]; fmono.
Qed.
Lemma w_neg2 e x u : 9 * e <= FEXCESS r -> rep2 r 0 2 e x u -> exists z, fp2_neg r x = Some z /\ rep2 r 2 1 (9 * e) z (neg2 u).
Proof. intros He HA. apply (neg2_ok r Hf 0 2 e x u); try lia. exact HA. Qed.
Lemma w_sub lo1 hi1 e1 e2 x y u v : 0 <= lo1 -> 1 <= hi1 -> hi1 + 2 <= maxg r -> lo1 + 3 <= maxg r -> rep2 r lo1 hi1 e1 x u -> rep2 r 0 1 e2 y v ->
  exists z, fp2_sub r x y = Some z /\ rep2 r (lo1 + 2) (hi1 + 2) (e1 + 9 * e2) z (sub2 u v).
Proof.
  intros H1 H2 H3 H4 HA HB. unfold fp2_sub. destruct (w_neg e2 y v HB) as [m [E1 Q1]]. rewrite E1. cbn [bind].
  destruct (w_add lo1 hi1 e1 2 2 (9 * e2) x m u (neg2 v)) as [z [E2 Q2]]; try lia; try assumption. exists z. split; [exact E2|].
  replace (sub2 u v) with (add2 u (neg2 v)) by (unfold add2, neg2, sub2; cbn [fst snd]; f_equal; lia). exact Q2.
Qed.
Lemma w_mul e1 e2 x y u v : e2 <= 524288 -> rep2 r 0 1 e1 x u -> rep2 r 0 1 e2 y v -> exists z, fp2_mul r x y = Some z /\ rep2 r 0 1 3 z (mul2 u v).
Proof.
  intros He HA HB. apply (mul2_ok r Hf Hs e1 e2); [|assumption|assumption]. pose proof Ht as [_ [_ H]]. eapply Z.le_trans; [|exact H]. apply Z.mul_le_mono_nonneg_r; lia.
Qed.
Lemma w_sqr e x u : rep2 r 0 1 e x u -> exists z, fp2_sqr r x = Some z /\ rep2 r 0 1 2 z (mul2 u u).
Proof. intros HA. apply (sqr2_ok r Hf Hs e). exact HA. Qed.
Lemma w_mul_ip e x u : rep2 r 0 1 e x u -> exists z, fp2_mul_ip r x = Some z /\ rep2 r 1 2 (5 * e) z (mul2 xi u).
Proof. intros HA. apply (mul_ip2_ok r Hf). exact HA. Qed.
Lemma w_times_i e x u : rep2 r 0 1 e x u -> exists z, fp2_times_i r x = Some z /\ rep2 r 1 1 (4 * e) z (mul2 i2 u).
Proof. intros HA. apply (times_i2_ok r Hf). exact HA. Qed.
Lemma w_conj e x u : rep2 r 0 1 e x u -> exists z, fp2_conj r x = Some z /\ rep2 r 0 1 (4 * e) z (conj2 u).
Proof. intros HA. apply (conj2_ok r Hf). exact HA. Qed.
Lemma w_inverse lo hi e x u : 0 <= lo -> 1 <= hi -> hi <= maxg r -> lo + 1 <= maxg r -> rep2 r lo hi e x u ->
  exists z, fp2_inverse r x = Some z /\ rep2 r 0 1 2 z (scale2 (norm2 u ^ (p - 2)) (conj2 u)).
Proof. intros. apply (inverse2_ok r Hf Hs lo hi e); assumption. Qed.
Lemma w_cap lo hi e x u : rep2 r lo hi e x u -> rep2 r lo hi (FEXCESS r) x u.
Proof. intros [[A1 [A2 A3]] [B1 [B2 B3]]]. split; (split; [assumption|]); (split; [lia|assumption]). Qed.
End W.

Ltac gnorm Q := lazymatch type of Q with rep2 ?r ?lo ?hi ?e ?f ?u =>
  let lo' := zlit lo in let hi' := zlit hi in let e' := zlit e in change (rep2 r lo' hi' e' f u) in Q end.
Ltac gfin E Q := rewrite E; cbn [bind]; clear E; gnorm Q.
Ltac ggo1 r lem a := lazymatch goal with Hf : fp_ok r |- _ => lazymatch goal with HA : rep2 r ?lo ?hi ?e a ?u |- _ =>
  let f := fresh "f" in let E := fresh "E" in let Q := fresh "Q" in
  destruct (lem r Hf lo hi e a u) as [f [E Q]]; [fside r ..|]; gfin E Q end end.
Ltac ggo2 r lem a b := lazymatch goal with Hf : fp_ok r |- _ => lazymatch goal with HA : rep2 r ?lo ?hi ?e a ?u |- _ => lazymatch goal with HB : rep2 r ?lo2 ?hi2 ?e2 b ?v |- _ =>
  let f := fresh "f" in let E := fresh "E" in let Q := fresh "Q" in
  destruct (lem r Hf lo hi e lo2 hi2 e2 a b u v) as [f [E Q]]; [fside r ..|]; gfin E Q end end end.
Ltac ggon r lem a := lazymatch goal with Hf : fp_ok r |- _ => lazymatch goal with HA : rep2 r 0 1 ?e a ?u |- _ =>
  let f := fresh "f" in let E := fresh "E" in let Q := fresh "Q" in
  destruct (lem r Hf e a u HA) as [f [E Q]]; gfin E Q end end.
Ltac ggont r lem a := lazymatch goal with Hf : fp_ok r |- _ => lazymatch goal with Ht : tower_ok r |- _ => lazymatch goal with HA : rep2 r 0 1 ?e a ?u |- _ =>
  let f := fresh "f" in let E := fresh "E" in let Q := fresh "Q" in
  destruct (lem r Hf Ht e a u HA) as [f [E Q]]; gfin E Q end end end.
Ltac ggoneg r a := lazymatch goal with Hf : fp_ok r |- _ => lazymatch goal with HA : rep2 r 0 ?h ?e a ?u |- _ =>
  let f := fresh "f" in let E := fresh "E" in let Q := fresh "Q" in
  lazymatch h with 1 => destruct (w_neg r Hf e a u HA) as [f [E Q]] | _ => destruct (w_neg2 r Hf e a u) as [f [E Q]]; [lia|exact HA|] end; gfin E Q end end.
Ltac ggomul r a b := lazymatch goal with Hf : fp_ok r |- _ => lazymatch goal with Ht : tower_ok r |- _ => lazymatch goal with HA : rep2 r 0 1 ?e a ?u |- _ => lazymatch goal with HB : rep2 r 0 1 ?e2 b ?v |- _ =>
  let f := fresh "f" in let E := fresh "E" in let Q := fresh "Q" in
  destruct (w_mul r Hf Ht e e2 a b u v) as [f [E Q]]; [lia|exact HA|exact HB|]; gfin E Q end end end end.
Ltac ggosub r a b := lazymatch goal with Hf : fp_ok r |- _ => lazymatch goal with HA : rep2 r ?lo ?hi ?e a ?u |- _ => lazymatch goal with HB : rep2 r 0 1 ?e2 b ?v |- _ =>
  let f := fresh "f" in let E := fresh "E" in let Q := fresh "Q" in
  destruct (w_sub r Hf lo hi e e2 a b u v) as [f [E Q]]; [fside r ..|]; gfin E Q end end end.
Ltac ggoinv r a := lazymatch goal with Hf : fp_ok r |- _ => lazymatch goal with Ht : tower_ok r |- _ => lazymatch goal with HA : rep2 r ?lo ?hi ?e a ?u |- _ =>
  let f := fresh "f" in let E := fresh "E" in let Q := fresh "Q" in
  destruct (w_inverse r Hf Ht lo hi e a u) as [f [E Q]]; [fside r ..|]; gfin E Q end end end.
Ltac gstep := lazymatch goal with
  | |- ex (fun z => bind (fp2_add ?r ?a ?b) _ = Some z /\ _) => ggo2 r w_add a b
  | |- ex (fun z => bind (fp2_sub ?r ?a ?b) _ = Some z /\ _) => ggosub r a b
  | |- ex (fun z => bind (fp2_neg ?r ?a) _ = Some z /\ _) => ggoneg r a
  | |- ex (fun z => bind (fp2_norm ?r ?a) _ = Some z /\ _) => ggo1 r w_norm a
  | |- ex (fun z => bind (fp2_reduce ?r ?a) _ = Some z /\ _) => ggo1 r w_reduce a
  | |- ex (fun z => bind (fp2_dbl ?r ?a) _ = Some z /\ _) => ggo1 r w_dbl a
  | |- ex (fun z => bind (fp2_inverse ?r ?a) _ = Some z /\ _) => ggoinv r a
  | |- ex (fun z => bind (fp2_mul ?r ?a ?b) _ = Some z /\ _) => ggomul r a b
  | |- ex (fun z => bind (fp2_sqr ?r ?a) _ = Some z /\ _) => ggont r w_sqr a
  | |- ex (fun z => bind (fp2_mul_ip ?r ?a) _ = Some z /\ _) => ggon r w_mul_ip a
  | |- ex (fun z => bind (fp2_times_i ?r ?a) _ = Some z /\ _) => ggon r w_times_i a
  | |- ex (fun z => bind (fp2_conj ?r ?a) _ = Some z /\ _) => ggon r w_conj a
  end.
(** equality of elements of Z[i]: componentwise ring identities *)
Ltac ring2 := unfold add4, sub4, neg4, conj4, mul4, w4, zero4, one4, of2, norm4; cbn [fst snd];
  unfold add2, sub2, neg2, mul2, conj2, scale2, xi, i2, zero2, one2; cbn [fst snd];
  repeat match goal with u : Z4 |- _ => destruct u as [? ?] | u : Z2 |- _ => destruct u as [? ?] end; cbn [fst snd]; first [reflexivity | f_equal; ring].
Ltac gmono := lazymatch goal with Hf : fp_ok ?r |- rep2 ?r _ _ _ ?f ?v => lazymatch goal with H : rep2 r ?lo ?hi ?e f ?u |- _ =>
  apply (rep2_mono r Hf lo hi e); [lia|lia|lia|first [exact H|replace v with u by ring2; exact H]] end end.
