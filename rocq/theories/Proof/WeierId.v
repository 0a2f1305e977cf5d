(** The rational-function identities behind the associativity of the chord-and-tangent law, in any field. *)
From Coq Require Import Ring Field.

Section Id.
Variable K : Type.
Variables (k0 k1 : K) (kadd kmul ksub : K -> K -> K) (kopp : K -> K) (kdiv : K -> K -> K) (kinv : K -> K).
Hypothesis KF : field_theory k0 k1 kadd kmul ksub kopp kdiv kinv (@eq K).
Notation "0" := k0. Notation "1" := k1.
Infix "+" := kadd. Infix "*" := kmul. Infix "-" := ksub. Infix "/" := kdiv. Notation "- x" := (kopp x).
Notation "2" := (1 + 1).
Add Field KFf : KF.
Hypothesis Hint : forall x y, x * y = 0 -> x = 0 \/ y = 0.
Hypothesis H2 : 2 <> 0.

(** Lines y = l x + m through x1, x2 (third root x12) and y = k x + n through x2, x3 (third root x23), meeting at x2. *)
Variables x1 x2 x3 l k m n : K.
Definition third (l x y : K) : K := l * l - x - y.
Notation x12 := (third l x1 x2).
Notation x23 := (third k x2 x3).
Definition e2 (x y z : K) : K := x * y + (x + y) * z.
Hypothesis Hk : l - k <> 0.
Hypothesis Hn : k * x2 + n = l * x2 + m.
Hypothesis Ha : e2 x1 x2 x12 + 2 * l * m = e2 x2 x3 x23 + 2 * k * n.
Notation a := (e2 x1 x2 x12 + 2 * l * m).
Notation y1 := (l * x1 + m).
Notation y3 := (k * x3 + n).
Notation y12 := (- (l * x12 + m)).
Notation y23 := (- (k * x23 + n)).

Lemma solve_m : m = (e2 x2 x3 x23 - e2 x1 x2 x12) / (2 * (l - k)) + k * x2.
Proof.
  assert (En : n = l * x2 + m - k * x2) by (rewrite <- Hn; ring).
  assert (E : e2 x2 x3 x23 - e2 x1 x2 x12 = 2 * (l - k) * (m - k * x2)).
  { transitivity (e2 x2 x3 x23 + 2 * k * n - 2 * k * n - (e2 x1 x2 x12 + 2 * l * m) + 2 * l * m); [ring|]. rewrite <- Ha. rewrite En. ring. }
  rewrite E. field. split; assumption.
Qed.
Lemma solve_n : n = (l - k) * x2 + ((e2 x2 x3 x23 - e2 x1 x2 x12) / (2 * (l - k)) + k * x2).
Proof. rewrite <- solve_m. transitivity (k * x2 + n - k * x2); [ring|]. rewrite Hn. ring. Qed.
Definition s1 (c : bool) : K := if c then (y3 - y12) / (x3 - x12) else (x3 * x3 + x3 * x12 + x12 * x12 + a) / (y3 + y12).
Definition s2 (c : bool) : K := if c then (y1 - y23) / (x1 - x23) else (x1 * x1 + x1 * x23 + x23 * x23 + a) / (y1 + y23).
Definition ok1 (c : bool) : Prop := if c then x3 - x12 <> 0 else y3 + y12 <> 0.
Definition ok2 (c : bool) : Prop := if c then x1 - x23 <> 0 else y1 + y23 <> 0.
Lemma mnz x y : x <> 0 -> y <> 0 -> x * y <> 0.
Proof. intros A1 A2 A3. destruct (Hint _ _ A3); contradiction. Qed.
Lemma assoc_tt : ok1 true -> ok2 true -> let X := s1 true * s1 true - x12 - x3 in
  X = s2 true * s2 true - x23 - x1 /\ s1 true * (x3 - X) - y3 = s2 true * (x1 - X) - y1.
Proof.
  cbn. intros D1 D2. pose proof solve_m as Em. pose proof solve_n as En. split; unfold s1, s2; rewrite En, Em; unfold third, e2 in *; field; repeat split; assumption.
Qed.
Lemma assoc_ft : ok1 false -> ok2 true -> let X := s1 false * s1 false - x12 - x3 in
  X = s2 true * s2 true - x23 - x1 /\ s1 false * (x3 - X) - y3 = s2 true * (x1 - X) - y1.
Proof.
  cbn. intros D1 D2. pose proof solve_m as Em. pose proof solve_n as En.
  (* y3 + y12 as a fraction over 2 (l - k) *)
  assert (N : k * x3 + n + - (l * third l x1 x2 + m) = (2 * (l - k) * (k * x3 + (l - k) * x2 - l * third l x1 x2)) / (2 * (l - k))).
  { rewrite En, Em. unfold third, e2. field. split; assumption. }
  assert (D1' : k * x3 + (l - k) * x2 - l * third l x1 x2 <> 0). { intros E. apply D1. rewrite N, E. field. split; assumption. }
  unfold s1, s2. rewrite N. rewrite En, Em. clear N. split; unfold third, e2 in *; field; repeat split; assumption.
Qed.
Lemma assoc_tf : ok1 true -> ok2 false -> let X := s1 true * s1 true - x12 - x3 in
  X = s2 false * s2 false - x23 - x1 /\ s1 true * (x3 - X) - y3 = s2 false * (x1 - X) - y1.
Proof.
  cbn. intros D1 D2. pose proof solve_m as Em. pose proof solve_n as En.
  assert (M : l * x1 + m + - (k * third k x2 x3 + n) = l * x1 - (l - k) * x2 - k * third k x2 x3) by (rewrite En, Em; ring).
  rewrite M in D2. unfold s1, s2. rewrite M. rewrite En, Em. clear M. split; unfold third, e2 in *; field; repeat split; assumption.
Qed.
Lemma assoc_ff : ok1 false -> ok2 false -> let X := s1 false * s1 false - x12 - x3 in
  X = s2 false * s2 false - x23 - x1 /\ s1 false * (x3 - X) - y3 = s2 false * (x1 - X) - y1.
Proof.
  cbn. intros D1 D2. pose proof solve_m as Em. pose proof solve_n as En.
  assert (N : k * x3 + n + - (l * third l x1 x2 + m) = k * x3 + (l - k) * x2 - l * third l x1 x2) by (rewrite En, Em; ring).
  assert (M : l * x1 + m + - (k * third k x2 x3 + n) = l * x1 - (l - k) * x2 - k * third k x2 x3) by (rewrite En, Em; ring).
  rewrite N in D1. rewrite M in D2. unfold s1, s2. rewrite N, M. rewrite En, Em. clear N M. split; unfold third, e2 in *; field; repeat split; assumption.
Qed.
End Id.
