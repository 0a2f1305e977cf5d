(** How many points (x, y) of a Weierstrass curve can satisfy y(m (x, y)) = - y: multiples are given by polynomials of bounded degree, so at
    most as many x as the degree; and an application: a subgroup of prime order n in which this holds is all of what n kills and this holds for. *)
From Coq Require Import ZArith List Lia Znumtheory Ring Field Bool.
From Verif Require Import Proof.NumTheory Proof.FieldP Proof.Weier Proof.EcpMul Spec.CurveSpec.
Import ListNotations.
Open Scope Z_scope.

Section P.
Variable p : Z.
Hypothesis Hp : prime p.
Hypothesis Hp3 : 3 < p.
Notation K := (F p).
Notation "0" := (f0 p) : F_scope.
Notation "1" := (f1 p) : F_scope.
Add Field Kf : (F_field p Hp).
Open Scope F_scope.
(** ** polynomials, lowest coefficient first *)
Fixpoint ev (f : list K) (x : K) : K := match f with [] => 0 | k :: t => k + x * ev t x end.
Fixpoint quo (s : K) (f : list K) : list K := match f with [] => [] | k :: t => match t with [] => [] | _ :: _ => ev t s :: quo s t end end.
Lemma quo_len s : forall k t, length (quo s (k :: t)) = length t.
Proof. intros k t. revert k. induction t as [|k' t IH]; intros k; [reflexivity|]. change (quo s (k :: k' :: t)) with (ev (k' :: t) s :: quo s (k' :: t)). cbn [length]. f_equal. apply IH. Qed.
Lemma quo_ev s x f : ev f x - ev f s = (x - s) * ev (quo s f) x.
Proof.
  induction f as [|k t IH]; [cbn; ring|]. destruct t as [|k' t]; [cbn; ring|].
  change (quo s (k :: k' :: t)) with (ev (k' :: t) s :: quo s (k' :: t)). set (u := k' :: t) in *. cbn [ev]. 
  transitivity (x * (ev u x - ev u s) + (x - s) * ev u s); [ring|]. rewrite IH. ring.
Qed.
Lemma roots : forall f l, NoDup l -> (forall s, In s l -> ev f s = 0) -> (exists x, ev f x <> 0) -> (length l < length f)%nat.
Proof.
  assert (G : forall n f l, length f = n -> NoDup l -> (forall s, In s l -> ev f s = 0) -> (exists x, ev f x <> 0) -> (length l < n)%nat).
  { induction n as [|n IH]; intros f l L N R [x X].
    - destruct f; [|discriminate L]. cbn in X. congruence.
    - destruct l as [|s l]; [cbn; lia|]. destruct f as [|k t]; [discriminate L|]. inversion N as [|? ? N1 N2]; subst. cbn [length]. apply -> Nat.succ_lt_mono.
      assert (RS : ev (k :: t) s = 0) by (apply R; left; reflexivity).
      apply (IH (quo s (k :: t))); [rewrite quo_len; cbn in L; lia|exact N2| |].
      + intros s' I. pose proof (quo_ev s s' (k :: t)) as Q. rewrite RS, (R s' (or_intror I)) in Q. destruct (F_integral p Hp (s' - s) (ev (quo s (k :: t)) s')) as [E|E]; [rewrite <- Q; ring| |exact E].
        exfalso. apply N1. replace s with s'; [exact I|]. transitivity (s' - s + s); [ring|rewrite E; ring].
      + exists x. intros E. apply X. pose proof (quo_ev s x (k :: t)) as Q. rewrite RS, E in Q. transitivity (ev (k :: t) x - 0); [ring|]. rewrite Q. ring. }
  intros f l. exact (G _ f l eq_refl).
Qed.
Fixpoint padd (u v : list K) : list K := match u, v with [], _ => v | _, [] => u | x :: u, y :: v => x + y :: padd u v end.
Lemma padd_ev u : forall v x, ev (padd u v) x = ev u x + ev v x.
Proof. induction u as [|k u IH]; intros [|k' v] x; cbn [padd ev]; try ring. rewrite IH. ring. Qed.
Lemma padd_len u : forall v, length (padd u v) = Nat.max (length u) (length v).
Proof. induction u as [|k u IH]; intros [|k' v]; cbn [padd length]; try reflexivity. rewrite IH. reflexivity. Qed.
Definition pscal (k : K) (u : list K) : list K := map (fun x => k * x) u.
Lemma pscal_ev k u x : ev (pscal k u) x = k * ev u x.
Proof. induction u as [|k' u IH]; cbn [pscal map ev]; [ring|]. fold (pscal k u). rewrite IH. ring. Qed.
Lemma pscal_len k u : length (pscal k u) = length u. Proof. apply map_length. Qed.
Fixpoint pmul (u v : list K) : list K := match u with [] => [] | k :: u => padd (pscal k v) (0 :: pmul u v) end.
Lemma pmul_ev u v x : ev (pmul u v) x = ev u x * ev v x.
Proof. induction u as [|k u IH]; cbn [pmul ev]; [ring|]. rewrite padd_ev, pscal_ev. cbn [ev]. rewrite IH. ring. Qed.
Lemma pmul_len u v : (length (pmul u v) <= length u + length v)%nat.
Proof. induction u as [|k u IH]; cbn [pmul length]; [lia|]. rewrite padd_len, pscal_len. cbn [length]. lia. Qed.

(** ** functions on the curve given by polynomials: u(x) + y v(x) *)
Variables a b : K.
Hypothesis Hno2 : forall x, x * x * x + a * x + b <> 0.
Definition crv (x y : K) : Prop := y * y = x * x * x + a * x + b.
Definition cub : list K := [b; a; 0; 1].
Lemma cub_ev x : ev cub x = x * x * x + a * x + b. Proof. cbn. ring. Qed.
Definition cls (d : Z) (f : K -> K -> K) : Prop :=
  exists u v, (Z.of_nat (length u) <= d)%Z /\ (Z.of_nat (length v) <= d)%Z /\ forall x y, crv x y -> f x y = ev u x + y * ev v x.
Lemma cls_mono d e f : (d <= e)%Z -> cls d f -> cls e f.
Proof. intros L [u [v [H1 [H2 H3]]]]. exists u, v. split; [lia|]. split; [lia|exact H3]. Qed.
Lemma cls_add d f g : cls d f -> cls d g -> cls d (fun x y => f x y + g x y).
Proof.
  intros [u [v [H1 [H2 H3]]]] [u' [v' [G1 [G2 G3]]]]. exists (padd u u'), (padd v v'). rewrite !padd_len. split; [lia|]. split; [lia|].
  intros x y C. rewrite (H3 x y C), (G3 x y C), !padd_ev. ring.
Qed.
Lemma cls_scal d k f : cls d f -> cls d (fun x y => k * f x y).
Proof.
  intros [u [v [H1 [H2 H3]]]]. exists (pscal k u), (pscal k v). rewrite !pscal_len. split; [exact H1|]. split; [exact H2|]. intros x y C. rewrite (H3 x y C), !pscal_ev. ring.
Qed.
Lemma cls_sub d f g : cls d f -> cls d g -> cls d (fun x y => f x y - g x y).
Proof.
  intros H G. pose proof (cls_add d f _ H (cls_scal d (- (1)) g G)) as [u [v [H1 [H2 H3]]]]. exists u, v. split; [exact H1|]. split; [exact H2|]. intros x y C. rewrite <- (H3 x y C). ring.
Qed.
Lemma cls_mul d f g : cls d f -> cls d g -> cls (2 * d + 4) (fun x y => f x y * g x y).
Proof.
  intros [u [v [H1 [H2 H3]]]] [u' [v' [G1 [G2 G3]]]]. exists (padd (pmul u u') (pmul cub (pmul v v'))), (padd (pmul u v') (pmul u' v)). rewrite !padd_len.
  pose proof (pmul_len u u'). pose proof (pmul_len cub (pmul v v')) as Q. change (length cub) with 4%nat in Q. pose proof (pmul_len v v'). pose proof (pmul_len u v'). pose proof (pmul_len u' v).
  split; [lia|]. split; [lia|]. intros x y C. rewrite (H3 x y C), (G3 x y C), !padd_ev, !pmul_ev, cub_ev. unfold crv in C. rewrite <- C. ring.
Qed.
Lemma cls_ext d f g : (forall x y, f x y = g x y) -> cls d f -> cls d g.
Proof. intros E [u [v [H1 [H2 H3]]]]. exists u, v. split; [exact H1|]. split; [exact H2|]. intros x y C. rewrite <- E. exact (H3 x y C). Qed.

Definition cls3 (d : Z) (f : K -> K -> kpt p) : Prop := cls d (fun x y => fst (fst (f x y))) /\ cls d (fun x y => snd (fst (f x y))) /\ cls d (fun x y => snd (f x y)).
Lemma cls3_add d f g : cls3 d f -> cls3 d g -> cls3 (4 * d + 12) (fun x y => krcb p a b (f x y) (g x y)).
Proof.
  intros [F1 [F2 F3]] [G1 [G2 G3]].
  set (X1 := fun x y => fst (fst (f x y))) in *. set (Y1 := fun x y => snd (fst (f x y))) in *. set (Z1 := fun x y => snd (f x y)) in *.
  set (X2 := fun x y => fst (fst (g x y))) in *. set (Y2 := fun x y => snd (fst (g x y))) in *. set (Z2 := fun x y => snd (g x y)) in *.
  pose proof (cls_mul _ _ _ F1 G1) as M11. pose proof (cls_mul _ _ _ F1 G2) as M12. pose proof (cls_mul _ _ _ F1 G3) as M13.
  pose proof (cls_mul _ _ _ F2 G1) as M21. pose proof (cls_mul _ _ _ F2 G2) as M22. pose proof (cls_mul _ _ _ F2 G3) as M23.
  pose proof (cls_mul _ _ _ F3 G1) as M31. pose proof (cls_mul _ _ _ F3 G2) as M32. pose proof (cls_mul _ _ _ F3 G3) as M33.
  set (d2 := (2 * d + 4)%Z) in *.
  pose proof (cls_add _ _ _ M13 M31) as S. pose proof (cls_add _ _ _ M12 M21) as T. pose proof (cls_add _ _ _ M23 M32) as Q.
  set (tb := (1 + 1 + 1) * b).
  pose proof (cls_sub _ _ _ (cls_sub _ _ _ M22 (cls_scal _ a _ S)) (cls_scal _ tb _ M33)) as U.
  pose proof (cls_add _ _ _ (cls_add _ _ _ M22 (cls_scal _ a _ S)) (cls_scal _ tb _ M33)) as V.
  pose proof (cls_sub _ _ _ (cls_add _ _ _ (cls_scal _ a _ M11) (cls_scal _ tb _ S)) (cls_scal _ (a * a) _ M33)) as W.
  pose proof (cls_add _ _ _ (cls_scal _ (1 + 1 + 1) _ M11) (cls_scal _ a _ M33)) as N.
  pose proof (cls_sub _ _ _ (cls_mul _ _ _ T U) (cls_mul _ _ _ Q W)) as R1.
  pose proof (cls_add _ _ _ (cls_mul _ _ _ N W) (cls_mul _ _ _ V U)) as R2.
  pose proof (cls_add _ _ _ (cls_mul _ _ _ Q V) (cls_mul _ _ _ T N)) as R3.
  replace (4 * d + 12)%Z with (2 * d2 + 4)%Z by (unfold d2; ring).
  split; [|split].
  - refine (cls_ext _ _ _ _ R1). intros x y. unfold X1, Y1, Z1, X2, Y2, Z2, tb, krcb. destruct (f x y) as [[f1 f2] f3], (g x y) as [[g1 g2] g3]. cbn [fst snd]. ring.
  - refine (cls_ext _ _ _ _ R2). intros x y. unfold X1, Y1, Z1, X2, Y2, Z2, tb, krcb. destruct (f x y) as [[f1 f2] f3], (g x y) as [[g1 g2] g3]. cbn [fst snd]. ring.
  - refine (cls_ext _ _ _ _ R3). intros x y. unfold X1, Y1, Z1, X2, Y2, Z2, tb, krcb. destruct (f x y) as [[f1 f2] f3], (g x y) as [[g1 g2] g3]. cbn [fst snd]. ring.
Qed.
(** the coordinates of m (x, y) *)
Fixpoint mults (m : positive) (x y : K) : kpt p :=
  match m with
  | xH => (x, y, 1)
  | xO q => krcb p a b (mults q x y) (mults q x y)
  | xI q => krcb p a b (krcb p a b (mults q x y) (mults q x y)) (x, y, 1)
  end.
Fixpoint mdeg (m : positive) : Z := match m with xH => 2 | xO q => 4 * mdeg q + 12 | xI q => 4 * (4 * mdeg q + 12) + 12 end.
Lemma base_cls : cls3 2 (fun x y => (x, y, 1)).
Proof.
  split; [|split]; cbn [fst snd].
  - exists [0; 1], []. split; [cbn; lia|]. split; [cbn; lia|]. intros x y _. cbn. ring.
  - exists [], [1]. split; [cbn; lia|]. split; [cbn; lia|]. intros x y _. cbn. ring.
  - exists [1], []. split; [cbn; lia|]. split; [cbn; lia|]. intros x y _. cbn. ring.
Qed.
Lemma cls3_mono d e f : (d <= e)%Z -> cls3 d f -> cls3 e f.
Proof. intros L [A [B C]]. repeat split; eapply cls_mono; eauto. Qed.
Lemma mults_cls m : (2 <= mdeg m)%Z /\ cls3 (mdeg m) (mults m).
Proof.
  induction m as [q [L IH]|q [L IH]|]; cbn [mdeg mults].
  - split; [lia|]. pose proof (cls3_add _ _ _ IH IH) as D. refine (cls3_add _ _ _ D (cls3_mono _ _ _ _ base_cls)). lia.
  - split; [lia|]. exact (cls3_add _ _ _ IH IH).
  - split; [lia|]. exact base_cls.
Qed.
Hypothesis WG : cgroup (apt p) (AInf p) (asum p a) (aneg p) (aon p a b).
Notation zt := (ztimes (apt p) (AInf p) (asum p a) (aneg p)).
Lemma mults_ok m x y : crv x y -> kden p (mults m x y) (zt (Zpos m) (AAff p x y)).
Proof.
  intros C. assert (O : aon p a b (AAff p x y)) by exact C. assert (B0 : kden p (x, y, 1) (AAff p x y)) by (cbn; split; [apply (f1_neq_f0 p Hp)|split; ring]).
  assert (DB : forall q, kden p (mults q x y) (zt (Zpos q) (AAff p x y)) -> kden p (krcb p a b (mults q x y) (mults q x y)) (zt (Zpos (xO q)) (AAff p x y))).
  { intros q IH. change (Zpos (xO q)) with (2 * Zpos q)%Z. replace (2 * Zpos q)%Z with (Zpos q + Zpos q)%Z by ring. rewrite (ztimes_add _ _ _ _ _ WG) by exact O.
    apply (krcb_ok p Hp Hp3 a b Hno2); auto; apply (ztimes_on _ _ _ _ _ WG); exact O. }
  induction m as [q IH|q IH|]; cbn [mults].
  - change (Zpos (xI q)) with (Zpos (xO q) + 1)%Z. rewrite (ztimes_add _ _ _ _ _ WG), (ztimes_1 _ _ _ _ _ WG) by exact O.
    apply (krcb_ok p Hp Hp3 a b Hno2); auto. apply (ztimes_on _ _ _ _ _ WG); exact O.
  - auto.
  - rewrite (ztimes_1 _ _ _ _ _ WG) by exact O. exact B0.
Qed.
Definition yof (A : apt p) : K := match A with AInf _ => 0 | AAff _ _ y => y end.
Definition xof (A : apt p) : K := match A with AInf _ => 0 | AAff _ x _ => x end.
(** a polynomial that vanishes at the x of every point with m (x, y) = (_, -y), and does not at a point for which this fails *)
Lemma kpoly m tx ty tx' ty' : crv tx ty -> zt (Zpos m) (AAff p tx ty) = AAff p tx' ty' -> ty' <> - ty ->
  exists N, (Z.of_nat (length N) <= 8 * mdeg m + 20)%Z /\ ev N tx <> 0 /\ forall x y x', crv x y -> zt (Zpos m) (AAff p x y) = AAff p x' (- y) -> ev N x = 0.
Proof.
  intros CT HT HN. destruct (mults_cls m) as [L [CX [CY CZ]]].
  assert (B : cls 2 (fun x y => y)) by exact (proj1 (proj2 base_cls)).
  assert (L' : (mdeg m <= 2 * mdeg m + 4)%Z) by lia.
  pose proof (cls_add _ _ _ (cls_mono _ _ _ L' CY) (cls_mul _ _ _ (cls_mono _ _ _ L B) CZ)) as [u [v [U1 [U2 U3]]]].
  set (N := padd (pmul u u) (pscal (- (1)) (pmul cub (pmul v v)))).
  assert (EN : forall x y, crv x y -> ev N x = (ev u x + y * ev v x) * (ev u x - y * ev v x)).
  { intros x y C. unfold N. rewrite padd_ev, pscal_ev, !pmul_ev, cub_ev. unfold crv in C. rewrite <- C. ring. }
  assert (FV : forall x y x' y', crv x y -> zt (Zpos m) (AAff p x y) = AAff p x' y' -> exists z, z <> 0 /\ ev u x + y * ev v x = (y' + y) * z).
  { intros x y x' y' C E. pose proof (mults_ok m x y C) as D. rewrite E in D. specialize (U3 x y C). cbn beta in U3. destruct (mults m x y) as [[X Y] Z]. cbn [fst snd] in U3. destruct D as [D1 [D2 D3]].
    exists Z. split; [exact D1|]. rewrite <- U3, D3. ring. }
  assert (Cn : forall x y, crv x y -> crv x (- y)) by (intros x y C; unfold crv in *; rewrite <- C; ring).
  exists N. split; [|split].
  - unfold N. rewrite padd_len, pscal_len. pose proof (pmul_len u u). pose proof (pmul_len cub (pmul v v)) as Q. change (length cub) with 4%nat in Q. pose proof (pmul_len v v). lia.
  - destruct (FV tx ty tx' ty' CT HT) as [z [Z1 Z2]].
    assert (HT2 : zt (Zpos m) (AAff p tx (- ty)) = AAff p tx' (- ty')).
    { change (AAff p tx (- ty)) with (aneg p (AAff p tx ty)). assert (E : aneg p (AAff p tx ty) = zt (- (1)) (AAff p tx ty)) by (rewrite (ztimes_opp _ _ _ _ _ WG), (ztimes_1 _ _ _ _ _ WG) by exact CT; reflexivity).
      rewrite E, (ztimes_mul _ _ _ _ _ WG) by exact CT. replace (Zpos m * - (1))%Z with (- Zpos m)%Z by ring. rewrite (ztimes_opp _ _ _ _ _ WG), HT by exact CT. reflexivity. }
    destruct (FV tx (- ty) tx' (- ty') (Cn _ _ CT) HT2) as [z' [Z1' Z2']].
    rewrite (EN tx ty CT), Z2. replace (ev u tx - ty * ev v tx) with (ev u tx + - ty * ev v tx) by ring. rewrite Z2'.
    assert (Q : ty' + ty <> 0) by (intros E; apply HN; transitivity (ty' + ty - ty); [ring|rewrite E; ring]).
    repeat apply (mul_nz p Hp); try assumption. intros E. apply Q. transitivity (- (- ty' + - ty)); [ring|rewrite E; ring].
  - intros x y x' C E. destruct (FV x y x' (- y) C E) as [z [_ Z2]]. rewrite (EN x y C), Z2. ring.
Qed.

(** ** the subgroup *)
Variables (n : Z) (g A : apt p) (m : positive).
Hypothesis Pn : prime n.
Hypothesis Og : aon p a b g.
Hypothesis OA : aon p a b A.
Hypothesis G0 : g <> AInf p.
Hypothesis Gn : zt n g = AInf p.
Hypothesis An : zt n A = AInf p.
Notation lc := (lin (apt p) (AInf p) (asum p a) (aneg p) g A).
Hypothesis KH : forall i j x y, lc i j = AAff p x y -> exists x', zt (Zpos m) (AAff p x y) = AAff p x' (- y).
Lemma zt_inf z : zt z (AInf p) = AInf p.
Proof. transitivity (zt z (zt 0 (AInf p))); [reflexivity|]. rewrite (ztimes_mul _ _ _ _ _ WG), Z.mul_0_r by exact I. reflexivity. Qed.
Lemma unit_mult B z C : aon p a b B -> zt n B = AInf p -> ~ (n | z)%Z -> zt z B = C -> exists w, B = zt w C.
Proof.
  intros OB NB ND E. assert (R : rel_prime z n) by (apply rel_prime_sym; apply prime_rel_prime; assumption).
  destruct (rel_prime_bezout _ _ R) as [u v BZ]. exists u. rewrite <- E, (ztimes_mul _ _ _ _ _ WG) by exact OB.
  transitivity (zt 1 B); [symmetry; apply (ztimes_1 _ _ _ _ _ WG); exact OB|]. rewrite <- BZ, (ztimes_add _ _ _ _ _ WG), <- (ztimes_mul _ _ _ _ _ WG v), NB, zt_inf by exact OB.
  apply (id_r _ _ _ _ _ WG). apply (ztimes_on _ _ _ _ _ WG); exact OB.
Qed.
Lemma small z : (- n < z < n)%Z -> z <> 0%Z -> ~ (n | z)%Z.
Proof. intros H N [k E]. assert (k = 0 \/ 1 <= k \/ k <= -1)%Z as [->|[Q|Q]] by lia; [lia| |]; [assert (n <= k * n)%Z by (rewrite <- (Z.mul_1_l n) at 1; apply Z.mul_le_mono_nonneg_r; lia)|assert (k * n <= - n)%Z by (rewrite <- (Z.mul_1_l n) at 2; rewrite <- Z.mul_opp_l; apply Z.mul_le_mono_nonneg_r; lia)]; lia. Qed.
Hypothesis Nin : forall k, A <> zt k g.
Lemma no_rel i j : (- n < j < n)%Z -> j <> 0%Z -> lc i j <> AInf p.
Proof.
  intros H1 H2 E. assert (Ej : zt j A = zt (- i) g).
  { rewrite (ztimes_opp _ _ _ _ _ WG) by exact Og. pose proof (ztimes_on _ _ _ _ _ WG i _ Og) as O1. pose proof (ztimes_on _ _ _ _ _ WG j _ OA) as O2.
    exact (neg_uniq _ _ _ _ _ WG _ _ O1 O2 E). }
  destruct (unit_mult A j _ OA An (small j H1 H2) Ej) as [w W]. rewrite (ztimes_mul _ _ _ _ _ WG) in W by exact Og. exact (Nin _ W).
Qed.
Definition pts : list (nat * nat) := list_prod (seq 0 (Z.to_nat n)) (seq 1 (Z.to_nat ((n - 1) / 2))).
Definition pt (ij : nat * nat) : apt p := lc (Z.of_nat (fst ij)) (Z.of_nat (snd ij)).
Lemma NoDup_prod {T U} (l : list T) (l' : list U) : NoDup l -> NoDup l' -> NoDup (list_prod l l').
Proof.
  intros H H'. induction H as [|x l N H IH]; cbn [list_prod]; [constructor|]. assert (G : forall l1 l2 : list (T * U), NoDup l1 -> NoDup l2 -> (forall z, In z l1 -> ~ In z l2) -> NoDup (l1 ++ l2)).
  { induction l1 as [|z l1 IH1]; intros l2 Q1 Q2 Q3; [exact Q2|]. inversion Q1; subst. cbn. constructor; [|apply IH1; auto; intros w I; apply Q3; right; exact I]. rewrite in_app_iff. intros [I|I]; [contradiction|]. exact (Q3 z (or_introl eq_refl) I). }
  apply G; [|exact IH|].
  - clear - H'. induction H' as [|y l' N H IH]; cbn [map]; [constructor|]. constructor; [|exact IH]. rewrite in_map_iff. intros [z [E I]]. injection E as ->. contradiction.
  - intros [u v] I1 I2. apply in_map_iff in I1. destruct I1 as [z [E _]]. injection E as <- <-. apply in_prod_iff in I2. tauto.
Qed.
Lemma NoDup_map_on {T U} (f : T -> U) l : (forall u v, In u l -> In v l -> f u = f v -> u = v) -> NoDup l -> NoDup (map f l).
Proof.
  intros I H. induction H as [|x l N H IH]; cbn [map]; [constructor|]. constructor; [|apply IH; intros u v I1 I2; apply I; right; assumption].
  rewrite in_map_iff. intros [z [E J]]. apply N. rewrite <- (I z x (or_intror J) (or_introl eq_refl) E). exact J.
Qed.
Lemma n2 : (2 <= n)%Z. Proof. destruct Pn. lia. Qed.
Lemma lin_on i j : aon p a b (lc i j).
Proof. apply (cg_add _ _ _ _ _ WG); apply (ztimes_on _ _ _ _ _ WG); assumption. Qed.
Lemma pts_in ij : In ij pts -> (0 <= Z.of_nat (fst ij) < n)%Z /\ (1 <= Z.of_nat (snd ij) /\ 2 * Z.of_nat (snd ij) < n)%Z.
Proof.
  pose proof n2 as N2. destruct ij as [i j]. unfold pts. intros I. apply in_prod_iff in I. destruct I as [I J]. apply in_seq in I. apply in_seq in J. cbn [fst snd].
  assert (Q : (2 * ((n - 1) / 2) <= n - 1)%Z) by (apply Z.mul_div_le; lia). assert (Q0 : (0 <= (n - 1) / 2)%Z) by (apply Z.div_pos; lia). lia.
Qed.
Lemma pts_inj u v : In u pts -> In v pts -> xof (pt u) = xof (pt v) -> u = v.
Proof.
  intros I J E. apply pts_in in I. apply pts_in in J. destruct u as [i j], v as [i' j']. unfold pt in E. cbn [fst snd] in *.
  pose proof (no_rel (Z.of_nat i) (Z.of_nat j) ltac:(lia) ltac:(lia)) as N1. pose proof (no_rel (Z.of_nat i') (Z.of_nat j') ltac:(lia) ltac:(lia)) as N2.
  pose proof (lin_on (Z.of_nat i) (Z.of_nat j)) as O1. pose proof (lin_on (Z.of_nat i') (Z.of_nat j')) as O2.
  destruct (lc (Z.of_nat i) (Z.of_nat j)) as [|x y] eqn:E1; [congruence|]. destruct (lc (Z.of_nat i') (Z.of_nat j')) as [|x' y'] eqn:E2; [congruence|]. cbn [xof] in E. subst x'.
  destruct (same_x p Hp a b x y y' O1 O2) as [S|S].
  - subst y'. assert (D : lc (Z.of_nat i - Z.of_nat i') (Z.of_nat j - Z.of_nat j') = AInf p).
    { pose proof (cg_inv _ _ _ _ _ WG _ O1) as Q. rewrite <- E1 in Q at 1. rewrite <- E2 in Q at 1. rewrite (lin_neg _ _ _ _ _ WG), (lin_add _ _ _ _ _ WG) in Q by assumption. exact Q. }
    destruct (Z.eq_dec (Z.of_nat j - Z.of_nat j') 0) as [J0|J0]; [|exfalso; assert (JR : (- n < Z.of_nat j - Z.of_nat j' < n)%Z) by (clear - I J; lia); exact (no_rel _ _ JR J0 D)].
    rewrite J0, (lin_l _ _ _ _ _ WG) in D by assumption. destruct (Z.eq_dec (Z.of_nat i - Z.of_nat i') 0) as [I0|I0]; [assert (E3 : i = i') by (clear - I0; lia); assert (E4 : j = j') by (clear - J0; lia); rewrite E3, E4; reflexivity|].
    exfalso. destruct (unit_mult g _ _ Og Gn (small (Z.of_nat i - Z.of_nat i') ltac:(clear - I J; lia) I0) D) as [w W]. rewrite zt_inf in W. exact (G0 W).
  - exfalso. assert (D : lc (Z.of_nat i + Z.of_nat i') (Z.of_nat j + Z.of_nat j') = AInf p).
    { rewrite <- (lin_add _ _ _ _ _ WG), E1, E2 by assumption. replace y' with (- y) by (transitivity (y + y' - y); [rewrite S; ring|ring]). exact (cg_inv _ _ _ _ _ WG _ O1). }
    assert (JR : (- n < Z.of_nat j + Z.of_nat j' < n)%Z) by (clear - I J; lia). assert (JN : (Z.of_nat j + Z.of_nat j')%Z <> 0%Z) by (clear - I J; lia). exact (no_rel _ _ JR JN D).
Qed.
Lemma too_many tx ty tx' ty' : crv tx ty -> zt (Zpos m) (AAff p tx ty) = AAff p tx' ty' -> ty' <> - ty -> (8 * mdeg m + 20 <= n * ((n - 1) / 2))%Z -> False.
Proof.
  intros CT HT HN LE. pose proof n2 as N2. destruct (kpoly m tx ty tx' ty' CT HT HN) as [N [L [R1 R2]]].
  pose proof (NoDup_map_on (fun ij => xof (pt ij)) pts pts_inj (NoDup_prod _ _ (seq_NoDup _ _) (seq_NoDup _ _))) as ND.
  assert (RT : forall s, In s (map (fun ij => xof (pt ij)) pts) -> ev N s = 0).
  { intros s I. apply in_map_iff in I. destruct I as [[i j] [E I]]. apply pts_in in I. cbn [fst snd] in I. unfold pt in E. cbn [fst snd] in E.
    pose proof (no_rel (Z.of_nat i) (Z.of_nat j) ltac:(lia) ltac:(lia)) as N1. pose proof (lin_on (Z.of_nat i) (Z.of_nat j)) as O1.
    destruct (lc (Z.of_nat i) (Z.of_nat j)) as [|x y] eqn:E1; [congruence|]. cbn [xof] in E. subst s. destruct (KH _ _ _ _ E1) as [x' KE]. exact (R2 x y x' O1 KE). }
  pose proof (roots N _ ND RT (ex_intro _ tx R1)) as RL. rewrite map_length in RL. unfold pts in RL. rewrite prod_length, !seq_length in RL.
  assert (Q : (Z.of_nat (Z.to_nat n * Z.to_nat ((n - 1) / 2)) = n * ((n - 1) / 2))%Z). { rewrite Nat2Z.inj_mul, !Z2Nat.id; [reflexivity|apply Z.div_pos; lia|lia]. }
  apply Nat2Z.inj_lt in RL. rewrite Q in RL. apply (Z.lt_irrefl (n * ((n - 1) / 2))). eapply Z.lt_le_trans; [exact RL|]. eapply Z.le_trans; [exact L|exact LE].
Qed.
End P.
