(** The levels of the tower are commutative rings; [ring] works in each of them. *)
From Coq Require Import ZArith Ring.
From Verif Require Import Spec.TowerSpec.
Open Scope Z_scope.

Ltac z2 := repeat match goal with x : Z2 |- _ => destruct x as [? ?] end; unfold add2, sub2, neg2, mul2, conj2, zero2, one2, xi, i2; cbn [fst snd]; f_equal; ring.
Lemma Z2_ring : ring_theory zero2 one2 add2 mul2 sub2 neg2 (@eq Z2).
Proof. constructor; intros; z2. Qed.
Add Ring Z2r : Z2_ring.

Ltac z4 := repeat match goal with x : Z4 |- _ => destruct x as [? ?] end; unfold add4, sub4, neg4, mul4, conj4, zero4, one4; cbn [fst snd]; f_equal; ring.
Lemma Z4_ring : ring_theory zero4 one4 add4 mul4 sub4 neg4 (@eq Z4).
Proof. constructor; intros; z4. Qed.
Add Ring Z4r : Z4_ring.

Definition sub12 (x y : Z12) : Z12 := add12 x (neg12 y).
Ltac z12 := repeat match goal with x : Z12 |- _ => destruct x as [[? ?] ?] end; unfold sub12, add12, neg12, mul12, zero12, one12, c0, c1, c2; cbn [fst snd]; f_equal; [f_equal|]; ring.
Lemma Z12_ring : ring_theory zero12 one12 add12 mul12 sub12 neg12 (@eq Z12).
Proof. constructor; intros; try reflexivity; z12. Qed.
Add Ring Z12r : Z12_ring.

Lemma w4_sq : mul4 w4 w4 = of2 xi. Proof. reflexivity. Qed.
Lemma conj4_mul x y : conj4 (mul4 x y) = mul4 (conj4 x) (conj4 y). Proof. z4. Qed.
Lemma conj4_add x y : conj4 (add4 x y) = add4 (conj4 x) (conj4 y). Proof. z4. Qed.
Lemma conj2_mul x y : conj2 (mul2 x y) = mul2 (conj2 x) (conj2 y). Proof. z2. Qed.
Lemma conj2_add x y : conj2 (add2 x y) = add2 (conj2 x) (conj2 y). Proof. z2. Qed.

(** congruence modulo p at each level = equality up to a multiple of p *)
Definition k2 (k : Z) : Z2 := (k, 0).
Definition k4 (k : Z) : Z4 := (k2 k, zero2).
Definition k12 (k : Z) : Z12 := (k4 k, zero4, zero4).
Lemma mod_ex p a b : p <> 0 -> (a mod p = b mod p <-> exists d, a = b + p * d).
Proof.
  intros Hp. split.
  - intros H. exists (a / p - b / p). rewrite (Z.div_mod a p), (Z.div_mod b p) at 1 by assumption. rewrite H. ring.
  - intros [d ->]. rewrite Z.mul_comm. apply Z.mod_add. assumption.
Qed.
Lemma eq2_ex p x y : p <> 0 -> (eq2 p x y <-> exists d, x = add2 y (mul2 (k2 p) d)).
Proof.
  intros Hp. destruct x as [x0 x1], y as [y0 y1]. unfold eq2, k2. cbn [fst snd]. split.
  - intros [H0 H1]. apply (mod_ex p) in H0; [|exact Hp]. apply (mod_ex p) in H1; [|exact Hp]. destruct H0 as [d0 ->], H1 as [d1 ->]. exists (d0, d1). unfold add2, mul2. cbn [fst snd]. f_equal; ring.
  - intros [[d0 d1] E]. unfold add2, mul2 in E. cbn [fst snd] in E. inversion E. split; apply (mod_ex p); try exact Hp; [exists d0|exists d1]; ring.
Qed.
Lemma eq4_ex p x y : p <> 0 -> (eq4 p x y <-> exists d, x = add4 y (mul4 (k4 p) d)).
Proof.
  intros Hp. destruct x as [x0 x1], y as [y0 y1]. unfold eq4, k4. cbn [fst snd]. split.
  - intros [H0 H1]. apply (eq2_ex p) in H0; [|exact Hp]. apply (eq2_ex p) in H1; [|exact Hp]. destruct H0 as [d0 ->], H1 as [d1 ->]. exists (d0, d1). unfold add4, mul4. cbn [fst snd]. f_equal; ring.
  - intros [[d0 d1] E]. unfold add4, mul4 in E. cbn [fst snd] in E. inversion E. split; apply (eq2_ex p); try exact Hp; [exists d0|exists d1]; ring.
Qed.
Lemma eq12_ex p x y : p <> 0 -> (eq12 p x y <-> exists d, x = add12 y (mul12 (k12 p) d)).
Proof.
  intros Hp. destruct x as [[x0 x1] x2], y as [[y0 y1] y2]. unfold eq12, k12, c0, c1, c2. cbn [fst snd]. split.
  - intros [H0 [H1 H2]]. apply (eq4_ex p) in H0; [|exact Hp]. apply (eq4_ex p) in H1; [|exact Hp]. apply (eq4_ex p) in H2; [|exact Hp]. destruct H0 as [d0 ->], H1 as [d1 ->], H2 as [d2 ->]. exists (d0, d1, d2). unfold add12, mul12, c0, c1, c2. cbn [fst snd]. f_equal; [f_equal|]; ring.
  - intros [[[d0 d1] d2] E]. unfold add12, mul12, c0, c1, c2 in E. cbn [fst snd] in E. inversion E. split; [|split]; apply (eq4_ex p); try exact Hp; [exists d0|exists d1|exists d2]; ring.
Qed.
Section Cong.
Variable p : Z.
Hypothesis Hp : p <> 0.
Lemma eq2_refl x : eq2 p x x. Proof. split; reflexivity. Qed.
Lemma eq4_refl x : eq4 p x x. Proof. split; apply eq2_refl. Qed.
Lemma eq12_refl x : eq12 p x x. Proof. split; [|split]; apply eq4_refl. Qed.
Lemma eq2_sym x y : eq2 p x y -> eq2 p y x. Proof. intros [? ?]. split; symmetry; assumption. Qed.
Lemma eq4_sym x y : eq4 p x y -> eq4 p y x. Proof. intros [? ?]. split; apply eq2_sym; assumption. Qed.
Lemma eq12_sym x y : eq12 p x y -> eq12 p y x. Proof. intros [? [? ?]]. split; [|split]; apply eq4_sym; assumption. Qed.
Lemma eq2_trans x y z : eq2 p x y -> eq2 p y z -> eq2 p x z. Proof. intros [A B] [C D]. split; congruence. Qed.
Lemma eq4_trans x y z : eq4 p x y -> eq4 p y z -> eq4 p x z. Proof. intros [A B] [C D]. split; eapply eq2_trans; eassumption. Qed.
Lemma eq12_trans x y z : eq12 p x y -> eq12 p y z -> eq12 p x z. Proof. intros [A [B C]] [D [E F]]. split; [|split]; eapply eq4_trans; eassumption. Qed.
Lemma eq2_add x y x' y' : eq2 p x x' -> eq2 p y y' -> eq2 p (add2 x y) (add2 x' y').
Proof. rewrite !eq2_ex by exact Hp. intros [d ->] [e ->]. exists (add2 d e). ring. Qed.
Lemma eq2_mul x y x' y' : eq2 p x x' -> eq2 p y y' -> eq2 p (mul2 x y) (mul2 x' y').
Proof. rewrite !eq2_ex by exact Hp. intros [d ->] [e ->]. exists (add2 (add2 (mul2 x' e) (mul2 d y')) (mul2 (k2 p) (mul2 d e))). ring. Qed.
Lemma eq2_neg x x' : eq2 p x x' -> eq2 p (neg2 x) (neg2 x').
Proof. rewrite !eq2_ex by exact Hp. intros [d ->]. exists (neg2 d). ring. Qed.
Lemma eq4_add x y x' y' : eq4 p x x' -> eq4 p y y' -> eq4 p (add4 x y) (add4 x' y').
Proof. rewrite !eq4_ex by exact Hp. intros [d ->] [e ->]. exists (add4 d e). ring. Qed.
Lemma eq4_mul x y x' y' : eq4 p x x' -> eq4 p y y' -> eq4 p (mul4 x y) (mul4 x' y').
Proof. rewrite !eq4_ex by exact Hp. intros [d ->] [e ->]. exists (add4 (add4 (mul4 x' e) (mul4 d y')) (mul4 (k4 p) (mul4 d e))). ring. Qed.
Lemma eq4_neg x x' : eq4 p x x' -> eq4 p (neg4 x) (neg4 x').
Proof. rewrite !eq4_ex by exact Hp. intros [d ->]. exists (neg4 d). ring. Qed.
Lemma eq12_add x y x' y' : eq12 p x x' -> eq12 p y y' -> eq12 p (add12 x y) (add12 x' y').
Proof. rewrite !eq12_ex by exact Hp. intros [d ->] [e ->]. exists (add12 d e). ring. Qed.
Lemma eq12_mul x y x' y' : eq12 p x x' -> eq12 p y y' -> eq12 p (mul12 x y) (mul12 x' y').
Proof. rewrite !eq12_ex by exact Hp. intros [d ->] [e ->]. exists (add12 (add12 (mul12 x' e) (mul12 d y')) (mul12 (k12 p) (mul12 d e))). ring. Qed.
End Cong.

(** norms *)
Lemma norm2_mul x y : norm2 (mul2 x y) = norm2 x * norm2 y.
Proof. destruct x, y. unfold norm2, mul2. cbn [fst snd]. ring. Qed.
Lemma norm2_conj x : mul2 x (conj2 x) = k2 (norm2 x).
Proof. destruct x. unfold norm2, mul2, conj2, k2. cbn [fst snd]. f_equal; ring. Qed.
Lemma norm4_mul x y : norm4 (mul4 x y) = mul2 (norm4 x) (norm4 y).
Proof. destruct x, y. unfold norm4, mul4. cbn [fst snd]. ring. Qed.
Lemma norm4_conj x : mul4 x (conj4 x) = of2 (norm4 x).
Proof. destruct x. unfold norm4, mul4, conj4, of2. cbn [fst snd]. f_equal; ring. Qed.
Lemma norm12_adj v : mul12 v (adj12 v) = of4 (norm12 v).
Proof. destruct v as [[a b] d]. unfold norm12, adj12, of4, mul12, c0, c1, c2. cbn [fst snd]. apply f_equal2; [apply f_equal2|]; ring. Qed.
Lemma norm12_mul x y : norm12 (mul12 x y) = mul4 (norm12 x) (norm12 y).
Proof. destruct x as [[a b] d], y as [[e f] g]. unfold norm12, adj12, mul12, c0, c1, c2. cbn [fst snd]. generalize w4. intros w. ring. Qed.
Lemma conj12_mul x y : conj12 (mul12 x y) = mul12 (conj12 x) (conj12 y).
Proof.
  destruct x as [[a b] d], y as [[e f] g]. unfold conj12, mul12, c0, c1, c2. cbn [fst snd]. rewrite !conj4_add, !conj4_mul, ?conj4_add, ?conj4_mul. change (conj4 w4) with (neg4 w4).
  apply f_equal2; [apply f_equal2|]; ring.
Qed.
Lemma conj12_add x y : conj12 (add12 x y) = add12 (conj12 x) (conj12 y).
Proof. destruct x as [[a b] d], y as [[e f] g]. unfold conj12, add12, c0, c1, c2. cbn [fst snd]. rewrite !conj4_add. apply f_equal2; [apply f_equal2|]; ring. Qed.
