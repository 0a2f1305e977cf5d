(** FP12 operations on limbs compute in the tower ring modulo p; the sparsity tag is truthful. *)
From Verif Require Import Base.Word Base.Arr Model.Big Model.Roms Model.Fp Model.Fp2 Model.Fp4 Model.Fp12 Spec.BigSpec Spec.RomSpec Spec.FpSpec Spec.TowerSpec Spec.TowerRep
  Proof.BigVal Proof.FpBase Proof.FpRed Proof.FpOps Proof.FpIv Proof.Fp2Ops Proof.Fp4Step Proof.Fp4Ops Proof.TowerRing.

Definition rep12 (r : rom) (e : Z) (x : fp12) (v : Z12) : Prop := rep4 r 0 1 e (f12a x) (c0 v) /\ rep4 r 0 1 e (f12b x) (c1 v) /\ rep4 r 0 1 e (f12c x) (c2 v).

Ltac hnorm Q := lazymatch type of Q with rep4 ?r ?lo ?hi ?e ?f ?u =>
  let lo' := zlit lo in let hi' := zlit hi in let e' := zlit e in change (rep4 r lo' hi' e' f u) in Q end.
Ltac hfin E Q := rewrite E; cbn [bind]; clear E; hnorm Q.
Ltac hgo1 r lem a := lazymatch goal with Hf : fp_ok r |- _ => lazymatch goal with HA : rep4 r ?lo ?hi ?e a ?u |- _ =>
  let f := fresh "f" in let E := fresh "E" in let Q := fresh "Q" in
  destruct (lem r Hf lo hi e a u) as [f [E Q]]; [fside r ..|]; hfin E Q end end.
Ltac hgo2 r lem a b := lazymatch goal with Hf : fp_ok r |- _ => lazymatch goal with HA : rep4 r ?lo ?hi ?e a ?u |- _ => lazymatch goal with HB : rep4 r ?lo2 ?hi2 ?e2 b ?v |- _ =>
  let f := fresh "f" in let E := fresh "E" in let Q := fresh "Q" in
  destruct (lem r Hf lo hi e lo2 hi2 e2 a b u v) as [f [E Q]]; [fside r ..|]; hfin E Q end end end.
Ltac hgon r lem a := lazymatch goal with Hf : fp_ok r |- _ => lazymatch goal with HA : rep4 r 0 1 ?e a ?u |- _ =>
  let f := fresh "f" in let E := fresh "E" in let Q := fresh "Q" in
  destruct (lem r Hf e a u HA) as [f [E Q]]; hfin E Q end end.
Ltac hgosqr r a := lazymatch goal with Hf : fp_ok r |- _ => lazymatch goal with Ht : tower_ok r |- _ => lazymatch goal with HA : rep4 r 0 1 ?e a ?u |- _ =>
  let f := fresh "f" in let E := fresh "E" in let Q := fresh "Q" in
  destruct (sqr4_ok r Hf Ht e a u) as [f [E Q]]; [lia|exact HA|]; hfin E Q end end end.
Ltac hgomul r a b := lazymatch goal with Hf : fp_ok r |- _ => lazymatch goal with Ht : tower_ok r |- _ => lazymatch goal with HA : rep4 r 0 1 ?e a ?u |- _ => lazymatch goal with HB : rep4 r 0 1 ?e2 b ?v |- _ =>
  let f := fresh "f" in let E := fresh "E" in let Q := fresh "Q" in
  destruct (mul4_ok r Hf Ht e e2 a b u v) as [f [E Q]]; [lia|exact HA|exact HB|]; hfin E Q end end end end.
Ltac hgopmul r a b := lazymatch goal with Hf : fp_ok r |- _ => lazymatch goal with Ht : tower_ok r |- _ => lazymatch goal with HA : rep4 r 0 1 ?e a ?u |- _ => lazymatch goal with HB : rep2 r 0 1 ?e2 b ?v |- _ =>
  let f := fresh "f" in let E := fresh "E" in let Q := fresh "Q" in
  destruct (pmul4_ok r Hf Ht e e2 a b u v) as [f [E Q]]; [lia|exact HA|exact HB|]; hfin E Q end end end end.
Ltac hgosub r a b := lazymatch goal with Hf : fp_ok r |- _ => lazymatch goal with HA : rep4 r ?lo ?hi ?e a ?u |- _ => lazymatch goal with HB : rep4 r 0 1 ?e2 b ?v |- _ =>
  let f := fresh "f" in let E := fresh "E" in let Q := fresh "Q" in
  destruct (sub4_ok r Hf lo hi e e2 a b u v) as [f [E Q]]; [fside r ..|]; hfin E Q end end end.
Ltac hgoneg r a := lazymatch goal with Hf : fp_ok r |- _ => lazymatch goal with HA : rep4 r ?lo ?hi ?e a ?u |- _ =>
  let f := fresh "f" in let E := fresh "E" in let Q := fresh "Q" in
  destruct (neg4_ok r Hf lo hi e a u) as [f [E Q]]; [fside r ..|]; hfin E Q end end.
Ltac hgoinv r a := lazymatch goal with Hf : fp_ok r |- _ => lazymatch goal with Ht : tower_ok r |- _ => lazymatch goal with HA : rep4 r 0 1 ?e a ?u |- _ =>
  let f := fresh "f" in let E := fresh "E" in let Q := fresh "Q" in
  destruct (inverse4_ok r Hf Ht e a u) as [f [E Q]]; [exact HA|]; hfin E Q end end end.
Ltac hstep := lazymatch goal with
  | |- ex (fun z => bind (fp4_add ?r ?a ?b) _ = Some z /\ _) => hgo2 r add4_ok a b
  | |- ex (fun z => bind (fp4_sub ?r ?a ?b) _ = Some z /\ _) => hgosub r a b
  | |- ex (fun z => bind (fp4_neg ?r ?a) _ = Some z /\ _) => hgoneg r a
  | |- ex (fun z => bind (fp4_norm ?r ?a) _ = Some z /\ _) => hgo1 r norm4_ok a
  | |- ex (fun z => bind (fp4_reduce ?r ?a) _ = Some z /\ _) => hgo1 r reduce4_ok a
  | |- ex (fun z => bind (fp4_dbl ?r ?a) _ = Some z /\ _) => hgo1 r dbl4_ok a
  | |- ex (fun z => bind (fp4_inverse ?r ?a) _ = Some z /\ _) => hgoinv r a
  | |- ex (fun z => bind (fp4_mul ?r ?a ?b) _ = Some z /\ _) => hgomul r a b
  | |- ex (fun z => bind (fp4_pmul ?r ?a ?b) _ = Some z /\ _) => hgopmul r a b
  | |- ex (fun z => bind (fp4_sqr ?r ?a) _ = Some z /\ _) => hgosqr r a
  | |- ex (fun z => bind (fp4_times_i ?r ?a) _ = Some z /\ _) => hgon r times_i4_ok a
  | |- ex (fun z => bind (fp4_conj ?r ?a) _ = Some z /\ _) => hgon r conj4_ok a
  | |- ex (fun z => bind (fp4_nconj ?r ?a) _ = Some z /\ _) => hgon r nconj4_ok a
  end.
Ltac hmono tac := lazymatch goal with Hf : fp_ok ?r |- rep4 ?r _ _ _ ?f ?v => lazymatch goal with H : rep4 r ?lo ?hi ?e f ?u |- _ =>
  apply (rep4_mono r Hf lo hi e); [lia|lia|lia|first [exact H|replace v with u by tac; exact H]] end end.
Ltac hnorm3 := unfold fp12_norm; cbn [f12a f12b f12c f12t]; do 3 hstep; eexists; (split; [reflexivity|]).
Ltac spl12 := split; [|split]; cbn [f12a f12b f12c f12t].
Ltac u12 := unfold mul12, add12, neg12, c0, c1, c2; cbn [fst snd].

Ltac o12 u := destruct u as [[? ?] ?]; unfold c0, c1, c2 in *; cbn [fst snd] in *.

Section Fp12.
Variable r : rom.
Hypothesis Hf : fp_ok r.
Hypothesis Ht : tower_ok r.
Variable tw : twist.
Notation p := (pmod r).
Let HFX : 16383 <= FEXCESS r. Proof. exact (proj1 (proj2 Ht)). Qed.
Let Hp0 : 0 < p := p_pos r Hf.
Let Hmg : 4 <= maxg r := maxg_ge r Hf.

Lemma rep12_mono e e' x v : e <= e' -> rep12 r e x v -> rep12 r e' x v.
Proof. intros H [A [D E]]. split; [|split]; eapply (rep4_mono r Hf); try eassumption; lia. Qed.
Lemma rep12_cap e x v : rep12 r e x v -> rep12 r (FEXCESS r) x v.
Proof. intros [A [D E]]. split; [|split]; eapply rep4_cap; eassumption. Qed.
Lemma rep12_e e x v : rep12 r e x v -> 1 <= e.
Proof. intros [A _]. apply (rep4_e r _ _ _ _ _ A). Qed.

Lemma norm12_ok e x u : rep12 r e x u -> exists z, fp12_norm r x = Some z /\ rep12 r e z u.
Proof. intros [A1 [A2 A3]]. hnorm3. spl12; assumption. Qed.
Lemma reduce12_ok e x u : rep12 r e x u -> exists z, fp12_reduce r x = Some z /\ rep12 r 1 z u /\ f12t z = f12t x.
Proof. intros [A1 [A2 A3]]. unfold fp12_reduce. do 3 hstep. eexists. split; [reflexivity|]. split; [|reflexivity]. spl12; assumption. Qed.
Lemma conj12_ok e x u : rep12 r e x u -> exists z, fp12_conj r x = Some z /\ rep12 r (9 * e) z (conj12 u) /\ f12t z = f12t x.
Proof. intros [A1 [A2 A3]]. unfold fp12_conj. do 3 hstep. eexists. split; [reflexivity|]. split; [|reflexivity]. spl12; assumption. Qed.

Lemma mul12_ok e1 e2 x y u v : 4 * e2 <= 524288 -> rep12 r e1 x u -> rep12 r e2 y v -> exists z, fp12_mul r x y = Some z /\ rep12 r 11172 z (mul12 u v) /\ f12t z = T_DENSE.
Proof.
  intros He [A1 [A2 A3]] [B1 [B2 B3]]. o12 u. o12 v. unfold fp12_mul. do 33 hstep. hnorm3. split; [|reflexivity]. spl12; u12; hmono ltac:(ring).
Qed.
Lemma sqr12_ok e x u : typed tw (f12t x) u -> 18 * e <= 524288 -> 1 <= e -> rep12 r e x u -> exists z, fp12_sqr r x = Some z /\ rep12 r (Z.max e 11172) z (mul12 u u) /\ typed tw (f12t z) (mul12 u u).
Proof.
  intros Ty He He1 HA. unfold fp12_sqr. destruct (Z.eqb_spec (f12t x) T_ONE) as [E1|E1].
  - unfold typed in Ty. rewrite E1 in Ty. unfold T_ONE, T_DENSE, T_SPARSE, T_SPARSER, T_ZERO in Ty. assert (u = one12) by (clear - Ty; lia || intuition lia). subst u.
    exists x. split; [reflexivity|]. assert (Q : mul12 one12 one12 = one12) by reflexivity. rewrite Q. split; [apply (rep12_mono e); [lia|exact HA]|]. rewrite E1. right. right. right. left. split; reflexivity.
  - destruct HA as [A1 [A2 A3]]. o12 u. do 11 hstep. cbv zeta. do 11 hstep. hnorm3. split; [spl12; u12; hmono ltac:(ring)|]. cbn [f12t].
    destruct (Z.eqb_spec (f12t x) T_SPARSER) as [E2|E2]; [|left; reflexivity]. right. left. split; [reflexivity|].
    unfold typed, c1, c2 in Ty. cbn [fst snd] in Ty. rewrite E2 in Ty. unfold T_ONE, T_DENSE, T_SPARSE, T_SPARSER, T_ZERO in Ty.
    destruct Ty as [?|[[? _]|[[_ Ty]|[[? _]|[? _]]]]]; try discriminate. destruct tw.
    + destruct Ty as [Ty1 ->]. u12. unfold add4, mul4, zero4. cbn [fst snd]. rewrite ?Ty1. ring.
    + destruct Ty as [-> Ty1]. u12. unfold add4, mul4, zero4, w4. cbn [fst snd]. rewrite ?Ty1. ring.
Qed.

(** unitary squaring: the Granger-Scott formula *)
Definition three4 (x : Z4) : Z4 := add4 x (add4 x x).
Definition gs12 (v : Z12) : Z12 :=
  (sub4 (three4 (mul4 (c0 v) (c0 v))) (add4 (conj4 (c0 v)) (conj4 (c0 v))),
   add4 (three4 (mul4 w4 (mul4 (c2 v) (c2 v)))) (add4 (conj4 (c1 v)) (conj4 (c1 v))),
   sub4 (three4 (mul4 (c1 v) (c1 v))) (add4 (conj4 (c2 v)) (conj4 (c2 v)))).
Lemma usqr12_ok e x u : 6 * e <= 524288 -> rep12 r e x u -> exists z, fp12_usqr r x = Some z /\ rep12 r 1 z (gs12 u) /\ f12t z = T_DENSE.
Proof.
  intros He [A1 [A2 A3]]. o12 u. unfold fp12_usqr. do 22 hstep. unfold fp12_reduce. cbn [f12a f12b f12c f12t]. do 3 hstep. eexists. split; [reflexivity|]. split; [|reflexivity].
  unfold gs12, three4. spl12; u12; hmono ltac:(ring).
Qed.

(** inverse: adjugate times the inverse of the norm to the middle field *)
Definition inv2v (q : Z) (u : Z2) : Z2 := scale2 (norm2 u ^ (q - 2)) (conj2 u).
Definition inv4v (q : Z) (u : Z4) : Z4 := let w := inv2v q (norm4 u) in (mul2 (fst u) w, neg2 (mul2 (snd u) w)).
Definition inv12v (q : Z) (v : Z12) : Z12 :=
  let n := inv4v q (norm12 v) in (mul4 (c0 (adj12 v)) n, mul4 (c1 (adj12 v)) n, mul4 (c2 (adj12 v)) n).
Lemma inverse12_ok e x u : 6 * e <= 524288 -> rep12 r e x u -> exists z, fp12_inverse r x = Some z /\ rep12 r 57 z (inv12v p u) /\ f12t z = T_DENSE.
Proof.
  intros He HA. pose proof (norm12_ok _ _ _ HA) as [y [Ey HB]]. unfold fp12_inverse. cbv zeta. rewrite Ey. cbn [bind]. clear Ey. destruct HA as [A1 [A2 A3]]. destruct HB as [B1 [B2 B3]]. o12 u.
  do 26 hstep. eexists. split; [reflexivity|]. split; [|reflexivity].
  match goal with H : rep4 r 0 1 3 ?f ?w |- _ => assert (W : w = inv4v p (norm12 (z, z0, z1))) end.
  { cbv zeta. unfold inv4v, inv2v. cbv zeta. match goal with |- context [norm4 ?t] => assert (T : t = norm12 (z, z0, z1)) by (unfold norm12, adj12; u12; ring) end. rewrite T. reflexivity. }
  rewrite W in *. unfold inv12v. cbv zeta. generalize dependent (inv4v p (norm12 (z, z0, z1))). intros n. intros. unfold adj12. spl12; u12; hmono ltac:(ring).
Qed.
End Fp12.
