(** Twisted Edwards curves: the projective formulas compute the affine addition law and never divide by zero. *)
From Coq Require Import ZArith List Lia Znumtheory Ring Field Bool.
From Verif Require Import Proof.NumTheory Proof.FieldP Spec.CurveSpec.
Open Scope Z_scope.

Section E.
Variable p : Z.
Hypothesis Hp : prime p.
Hypothesis Hp3 : 3 < p.
Notation K := (F p).
Notation "0" := (f0 p) : F_scope.
Notation "1" := (f1 p) : F_scope.
Open Scope F_scope.
Add Field Kfield : (F_field p Hp).
Variables a d : K.
Notation "2" := (1 + 1) : F_scope.
Hypothesis Ha : exists s, s * s = a.
Hypothesis Ha0 : a <> 0.
Hypothesis Hd : forall s, s * s <> d.

Definition ept : Type := (K * K)%type.
Definition eon (P : ept) : Prop := let '(x, y) := P in a * x * x + y * y = 1 + d * x * x * y * y.
Definition kpt : Type := (K * K * K)%type.
Definition eden (P : kpt) (A : ept) : Prop := let '(X1, Y1, Z1) := P in let '(x, y) := A in Z1 <> 0 /\ X1 = x * Z1 /\ Y1 = y * Z1.
Definition ezero : ept := (0, 1).
Definition eneg (P : ept) : ept := let '(x, y) := P in (- x, y).
Definition esum (P Q : ept) : ept :=
  let '(x1, y1) := P in let '(x2, y2) := Q in
  let t := d * x1 * x2 * y1 * y2 in ((x1 * y2 + y1 * x2) / (1 + t), (y1 * y2 - a * x1 * x2) / (1 - t)).

Lemma e_two_nz : 2 <> 0.
Proof.
  intros H. unfold f1, f0 in H. rewrite <- mk_add in H by exact Hp. apply mk_eq in H. change (1 + 1)%Z with 2%Z in H. rewrite Z.mod_small, Z.mod_0_l in H by lia. discriminate.
Qed.
Lemma e_mul_nz x y : x <> 0 -> y <> 0 -> x * y <> 0.
Proof. intros H1 H2 H. destruct (F_integral p Hp x y H); contradiction. Qed.
Lemma one_nz : 1 <> 0. Proof. exact (f1_neq_f0 p Hp). Qed.

(** completeness *)
Lemma complete_sq x1 y1 x2 y2 : eon (x1, y1) -> eon (x2, y2) -> (d * x1 * x2 * y1 * y2) * (d * x1 * x2 * y1 * y2) <> 1.
Proof.
  intros H1 H2 He. destruct Ha as [s Hs]. cbn in H1, H2. set (e := d * x1 * x2 * y1 * y2) in *.
  assert (Hx1 : x1 <> 0) by (intros ->; apply one_nz; rewrite <- He; unfold e; ring).
  assert (Hy1 : y1 <> 0) by (intros ->; apply one_nz; rewrite <- He; unfold e; ring).
  assert (Hx2 : x2 <> 0) by (intros ->; apply one_nz; rewrite <- He; unfold e; ring).
  assert (Hy2 : y2 <> 0) by (intros ->; apply one_nz; rewrite <- He; unfold e; ring).
  assert (Hs0 : s <> 0) by (intros ->; apply Ha0; rewrite <- Hs; ring).
  (* (s x1 + w e y1)^2 = d x1^2 y1^2 (s x2 + w y2)^2 for w = 1, -1 *)
  assert (K1 : a * x1 * x1 + y1 * y1 = d * x1 * x1 * y1 * y1 * (a * x2 * x2 + y2 * y2)).
  { rewrite H1, H2. transitivity (e * e + d * x1 * x1 * y1 * y1); [rewrite He; reflexivity|unfold e; ring]. }
  assert (Q : forall w, w * w = 1 -> (s * x1 + w * e * y1) * (s * x1 + w * e * y1) = d * ((x1 * y1 * (s * x2 + w * y2)) * (x1 * y1 * (s * x2 + w * y2)))).
  { intros w Hw. transitivity (s * s * x1 * x1 + (w * w) * (e * e) * y1 * y1 + 2 * s * w * e * x1 * y1); [ring|]. rewrite Hs, Hw, He.
    transitivity (a * x1 * x1 + y1 * y1 + 2 * s * w * e * x1 * y1); [ring|]. rewrite K1.
    transitivity (d * x1 * x1 * y1 * y1 * ((s * s) * x2 * x2 + (w * w) * y2 * y2) + 2 * s * w * e * x1 * y1); [rewrite Hs, Hw; ring|]. unfold e. ring. }
  assert (G : forall w, w * w = 1 -> s * x2 + w * y2 = 0).
  { intros w Hw. destruct (F_dec p (s * x2 + w * y2) 0) as [E|E]; [exact E|]. exfalso. apply (Hd ((s * x1 + w * e * y1) / (x1 * y1 * (s * x2 + w * y2)))).
    transitivity (((s * x1 + w * e * y1) * (s * x1 + w * e * y1)) / ((x1 * y1 * (s * x2 + w * y2)) * (x1 * y1 * (s * x2 + w * y2)))); [field; auto|]. rewrite (Q w Hw). field. auto. }
  pose proof (G 1 ltac:(ring)) as G1. pose proof (G (- (1)) ltac:(ring)) as G2.
  assert (E2 : 2 * (s * x2) = 0) by (transitivity ((s * x2 + 1 * y2) + (s * x2 + - (1) * y2)); [ring|rewrite G1, G2; ring]).
  revert E2. apply e_mul_nz; [exact e_two_nz|]. apply e_mul_nz; assumption.
Qed.
Lemma complete x1 y1 x2 y2 : eon (x1, y1) -> eon (x2, y2) -> 1 + d * x1 * x2 * y1 * y2 <> 0 /\ 1 - d * x1 * x2 * y1 * y2 <> 0.
Proof.
  intros H1 H2. pose proof (complete_sq _ _ _ _ H1 H2) as H. set (e := d * x1 * x2 * y1 * y2) in *. split; intros E; apply H.
  - transitivity (1 + (1 + e) * (e - 1)); [ring|rewrite E; ring].
  - transitivity (1 - (1 - e) * (e + 1)); [ring|rewrite E; ring].
Qed.
Lemma esum_on P Q : eon P -> eon Q -> eon (esum P Q).
Proof.
  destruct P as [x1 y1], Q as [x2 y2]. intros H1 H2. destruct (complete _ _ _ _ H1 H2) as [D1 D2]. cbn in H1, H2. cbn [esum eon].
  (* clear denominators *)
  set (t := d * x1 * x2 * y1 * y2) in *. set (u := x1 * y2 + y1 * x2). set (v := y1 * y2 - a * x1 * x2).
  assert (G : a * u * u * (1 - t) * (1 - t) + v * v * (1 + t) * (1 + t) = (1 + t) * (1 + t) * (1 - t) * (1 - t) + d * u * u * v * v).
  { transitivity ((a * x1 * x1 + y1 * y1 - (a * x2 * x2 + y2 * y2) * d * x1 * x1 * y1 * y1) * (a * x2 * x2 + y2 * y2 - (a * x1 * x1 + y1 * y1) * d * x2 * x2 * y2 * y2) + d * u * u * v * v);
      [subst t u v; ring|]. rewrite H1, H2. subst t u v. ring. }
  transitivity ((a * u * u * (1 - t) * (1 - t) + v * v * (1 + t) * (1 + t)) / ((1 + t) * (1 + t) * (1 - t) * (1 - t))); [field; auto|]. rewrite G. field. auto.
Qed.
Lemma eneg_on P : eon P -> eon (eneg P).
Proof. destruct P as [x y]. cbn. intros H. transitivity (a * x * x + y * y); [ring|]. rewrite H. ring. Qed.
Lemma ezero_on : eon ezero.
Proof. cbn. ring. Qed.
Lemma esum_comm P Q : esum P Q = esum Q P.
Proof. destruct P as [x1 y1], Q as [x2 y2]. cbn. replace (d * x2 * x1 * y2 * y1) with (d * x1 * x2 * y1 * y2) by ring. f_equal; f_equal; ring. Qed.
Lemma esum_0_l P : esum ezero P = P.
Proof. destruct P as [x y]. cbn. replace (d * 0 * x * 1 * y) with 0 by ring. replace (1 + 0) with 1 by ring. replace (1 - 0) with 1 by ring. pose proof one_nz. f_equal; field; exact one_nz. Qed.
Lemma esum_neg P : eon P -> esum P (eneg P) = ezero.
Proof.
  destruct P as [x y]. intros H. destruct (complete _ _ _ _ H (eneg_on (x, y) H)) as [D1 D2]. cbn in *. unfold ezero. f_equal.
  - field. exact D1.
  - transitivity ((a * x * x + y * y) / (1 - d * x * - x * y * y)); [field; exact D2|]. rewrite H. field. exact D2.
Qed.

(** associativity *)
Lemma d_nz : d <> 0.
Proof. intros E. apply (Hd 0). rewrite E. ring. Qed.
Lemma curve_rw x y : eon (x, y) -> (x * x) * (y * y) = (1 / d) * (a * (x * x) + y * y - 1).
Proof. cbn. intros H. pose proof d_nz as D. replace (a * (x * x) + y * y) with (a * x * x + y * y) by ring. rewrite H. field. exact D. Qed.
Section Assoc.
Variables x1 y1 x2 y2 x3 y3 e : K.
Hypothesis He : e * d = 1.
Hypothesis H1 : (x1 * x1) * (y1 * y1) = e * (a * (x1 * x1) + y1 * y1 - 1).
Hypothesis H2 : (x2 * x2) * (y2 * y2) = e * (a * (x2 * x2) + y2 * y2 - 1).
Hypothesis H3 : (x3 * x3) * (y3 * y3) = e * (a * (x3 * x3) + y3 * y3 - 1).
Let t12 := d * x1 * x2 * y1 * y2.
Let u12 := x1 * y2 + y1 * x2.
Let v12 := y1 * y2 - a * x1 * x2.
Let t23 := d * x2 * x3 * y2 * y3.
Let u23 := x2 * y3 + y2 * x3.
Let v23 := y2 * y3 - a * x2 * x3.
Lemma assoc_x : (u12 * (1 - t12) * y3 + v12 * (1 + t12) * x3) * ((1 - t23 * t23) + d * x1 * y1 * u23 * v23) = (x1 * v23 * (1 + t23) + y1 * u23 * (1 - t23)) * ((1 - t12 * t12) + d * u12 * v12 * x3 * y3).
Proof. subst t12 u12 v12 t23 u23 v23. ring [He H1 H2 H3]. Qed.
Lemma assoc_y : (v12 * (1 + t12) * y3 - a * u12 * (1 - t12) * x3) * ((1 - t23 * t23) - d * x1 * y1 * u23 * v23) = (y1 * v23 * (1 + t23) - a * x1 * u23 * (1 - t23)) * ((1 - t12 * t12) - d * u12 * v12 * x3 * y3).
Proof. subst t12 u12 v12 t23 u23 v23. ring [He H1 H2 H3]. Qed.
End Assoc.
Lemma frac_eq n m n' m' : m <> 0 -> m' <> 0 -> n * m' = n' * m -> n / m = n' / m'.
Proof. intros H1 H2 H. transitivity ((n * m') / (m * m')); [field; auto|]. rewrite H. field. auto. Qed.
Lemma comb n m A B' x y k : A <> 0 -> B' <> 0 -> A * B' + k * n * m <> 0 -> (n / A * y + m / B' * x) / (1 + k * (n / A) * (m / B')) = (n * B' * y + m * A * x) / (A * B' + k * n * m).
Proof. intros H1 H2 H3. field. split; [replace (B' * A + k * n * m) with (A * B' + k * n * m) by ring; exact H3|split; assumption]. Qed.
Lemma esum_assoc P Q R : eon P -> eon Q -> eon R -> esum (esum P Q) R = esum P (esum Q R).
Proof.
  intros OP OQ OR. pose proof (esum_on _ _ OP OQ) as OPQ. pose proof (esum_on _ _ OQ OR) as OQR. destruct P as [x1 y1], Q as [x2 y2], R as [x3 y3].
  destruct (complete _ _ _ _ OP OQ) as [A1 A2]. destruct (complete _ _ _ _ OQ OR) as [B1 B2]. cbn [esum] in OPQ, OQR.
  destruct (complete _ _ _ _ OPQ OR) as [C1 C2]. destruct (complete _ _ _ _ OP OQR) as [D1 D2]. cbn [esum].
  assert (He : (1 / d) * d = 1) by (field; exact d_nz).
  pose proof (assoc_x x1 y1 x2 y2 x3 y3 (1 / d) He (curve_rw _ _ OP) (curve_rw _ _ OQ) (curve_rw _ _ OR)) as EX.
  pose proof (assoc_y x1 y1 x2 y2 x3 y3 (1 / d) He (curve_rw _ _ OP) (curve_rw _ _ OQ) (curve_rw _ _ OR)) as EY. clear OP OQ OR OPQ OQR He. cbv zeta in EX, EY.
  set (t12 := d * x1 * x2 * y1 * y2) in *. set (t23 := d * x2 * x3 * y2 * y3) in *.
  set (u12 := x1 * y2 + y1 * x2) in *. set (v12 := y1 * y2 - a * x1 * x2) in *. set (u23 := x2 * y3 + y2 * x3) in *. set (v23 := y2 * y3 - a * x2 * x3) in *.
  assert (G1 : (1 - t12 * t12) + d * u12 * v12 * x3 * y3 <> 0).
  { replace ((1 - t12 * t12) + d * u12 * v12 * x3 * y3) with ((1 + t12) * (1 - t12) * (1 + d * (u12 / (1 + t12)) * x3 * (v12 / (1 - t12)) * y3)) by (field; auto). auto 20 using e_mul_nz. }
  assert (G2 : (1 - t12 * t12) - d * u12 * v12 * x3 * y3 <> 0).
  { replace ((1 - t12 * t12) - d * u12 * v12 * x3 * y3) with ((1 + t12) * (1 - t12) * (1 - d * (u12 / (1 + t12)) * x3 * (v12 / (1 - t12)) * y3)) by (field; auto). auto 20 using e_mul_nz. }
  assert (G3 : (1 - t23 * t23) + d * x1 * y1 * u23 * v23 <> 0).
  { replace ((1 - t23 * t23) + d * x1 * y1 * u23 * v23) with ((1 + t23) * (1 - t23) * (1 + d * x1 * (u23 / (1 + t23)) * y1 * (v23 / (1 - t23)))) by (field; auto). auto 20 using e_mul_nz. }
  assert (G4 : (1 - t23 * t23) - d * x1 * y1 * u23 * v23 <> 0).
  { replace ((1 - t23 * t23) - d * x1 * y1 * u23 * v23) with ((1 + t23) * (1 - t23) * (1 - d * x1 * (u23 / (1 + t23)) * y1 * (v23 / (1 - t23)))) by (field; auto). auto 20 using e_mul_nz. }
  clearbody t12 t23 u12 v12 u23 v23. f_equal.
  - replace (1 + d * (u12 / (1 + t12)) * x3 * (v12 / (1 - t12)) * y3) with (1 + (d * x3 * y3) * (u12 / (1 + t12)) * (v12 / (1 - t12))) by ring.
    replace (1 + d * x1 * (u23 / (1 + t23)) * y1 * (v23 / (1 - t23))) with (1 + (d * x1 * y1) * (u23 / (1 + t23)) * (v23 / (1 - t23))) by ring.
    replace (x1 * (v23 / (1 - t23)) + y1 * (u23 / (1 + t23))) with (u23 / (1 + t23) * y1 + v23 / (1 - t23) * x1) by ring.
    replace (u12 / (1 + t12) * y3 + v12 / (1 - t12) * x3) with (u12 / (1 + t12) * y3 + v12 / (1 - t12) * x3) by ring.
    assert (G1' : (1 + t12) * (1 - t12) + d * x3 * y3 * u12 * v12 <> 0) by (intros E; apply G1; rewrite <- E; ring).
    assert (G3' : (1 + t23) * (1 - t23) + d * x1 * y1 * u23 * v23 <> 0) by (intros E; apply G3; rewrite <- E; ring).
    rewrite (comb _ _ _ _ _ _ _ A1 A2 G1'), (comb _ _ _ _ _ _ _ B1 B2 G3'). apply frac_eq; [exact G1'|exact G3'|].
    etransitivity; [|etransitivity; [exact EX|]]; ring.
  - replace (1 - d * (u12 / (1 + t12)) * x3 * (v12 / (1 - t12)) * y3) with (1 + (- (d * x3 * y3)) * (u12 / (1 + t12)) * (v12 / (1 - t12))) by ring.
    replace (1 - d * x1 * (u23 / (1 + t23)) * y1 * (v23 / (1 - t23))) with (1 + (- (d * x1 * y1)) * (u23 / (1 + t23)) * (v23 / (1 - t23))) by ring.
    replace (y1 * (v23 / (1 - t23)) - a * x1 * (u23 / (1 + t23))) with (u23 / (1 + t23) * (- (a * x1)) + v23 / (1 - t23) * y1) by ring.
    replace (v12 / (1 - t12) * y3 - a * (u12 / (1 + t12)) * x3) with (u12 / (1 + t12) * (- (a * x3)) + v12 / (1 - t12) * y3) by ring.
    assert (G1' : (1 + t12) * (1 - t12) + - (d * x3 * y3) * u12 * v12 <> 0) by (intros E; apply G2; rewrite <- E; ring).
    assert (G3' : (1 + t23) * (1 - t23) + - (d * x1 * y1) * u23 * v23 <> 0) by (intros E; apply G4; rewrite <- E; ring).
    rewrite (comb _ _ _ _ _ _ _ A1 A2 G1'), (comb _ _ _ _ _ _ _ B1 B2 G3'). apply frac_eq; [exact G1'|exact G3'|].
    etransitivity; [|etransitivity; [exact EY|]]; ring.
Qed.
Definition ked_add (P Q : kpt) : kpt :=
  let '(X1, Y1, Z1) := P in let '(X2, Y2, Z2) := Q in
  let f := Z1 * Z2 * Z1 * Z2 - d * X1 * X2 * Y1 * Y2 in
  let g := Z1 * Z2 * Z1 * Z2 + d * X1 * X2 * Y1 * Y2 in
  (Z1 * Z2 * f * (X1 * Y2 + X2 * Y1), Z1 * Z2 * g * (Y1 * Y2 - a * X1 * X2), f * g).
Definition ked_dbl (P : kpt) : kpt :=
  let '(X1, Y1, Z1) := P in
  let f := a * X1 * X1 + Y1 * Y1 in
  let j := f - 2 * Z1 * Z1 in
  (2 * X1 * Y1 * j, f * (a * X1 * X1 - Y1 * Y1), f * j).
Lemma ked_add_ok P Q A C : eon A -> eon C -> eden P A -> eden Q C -> eden (ked_add P Q) (esum A C).
Proof.
  destruct P as [[X1 Y1] Z1], Q as [[X2 Y2] Z2], A as [x1 y1], C as [x2 y2]. intros OA OC [HZ1 [-> ->]] [HZ2 [-> ->]]. destruct (complete _ _ _ _ OA OC) as [D1 D2].
  cbn [ked_add esum eden]. split.
  - match goal with |- ?e <> 0 => replace e with (Z1 * Z1 * Z2 * Z2 * (Z1 * Z1 * Z2 * Z2) * ((1 + d * x1 * x2 * y1 * y2) * (1 - d * x1 * x2 * y1 * y2))) by ring end. auto 20 using e_mul_nz.
  - split; field; assumption.
Qed.
Lemma ked_dbl_ok P A : eon A -> eden P A -> eden (ked_dbl P) (esum A A).
Proof.
  destruct P as [[X1 Y1] Z1], A as [x y]. intros OA [HZ1 [-> ->]]. destruct (complete _ _ _ _ OA OA) as [D1 D2].
  cbn [ked_dbl esum eden]. cbn in OA.
  assert (F1 : a * x * x + y * y <> 0) by (rewrite OA; intros E; apply D1; rewrite <- E; ring).
  assert (F2 : a * x * x + y * y - 2 <> 0) by (rewrite OA; intros E; apply D2; transitivity (- (1 + d * x * x * y * y - 2)); [ring|rewrite E; ring]).
  assert (T : d * x * x * y * y = a * x * x + y * y - 1) by (rewrite OA; ring).
  rewrite T. split.
  - match goal with |- ?e <> 0 => replace e with (Z1 * Z1 * Z1 * Z1 * ((a * x * x + y * y) * (a * x * x + y * y - 2))) by ring end. auto 20 using e_mul_nz.
  - assert (F3 : 1 + (a * x * x + y * y - 1) <> 0) by (intros E; apply F1; rewrite <- E; ring).
    assert (F4 : 1 - (a * x * x + y * y - 1) <> 0) by (intros E; apply F2; transitivity (- (1 - (a * x * x + y * y - 1))); [ring|rewrite E; ring]).
    split; field; assumption.
Qed.
End E.
