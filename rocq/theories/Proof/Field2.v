(** The field F_p(i), p = 3 mod 4, with Leibniz equality. *)
From Coq Require Import ZArith Lia Znumtheory Ring Field.
From Verif Require Import Spec.TowerSpec Proof.NumTheory Proof.FieldP Proof.TowerRing Proof.TowerInv.
Open Scope Z_scope.

Section F2.
Variable p : Z.
Hypothesis Hp : prime p.
Hypothesis H34 : p mod 4 = 3.
Add Field Kf_f2 : (F_field p Hp).
Notation F := (F p).
Definition F2 : Type := (F * F)%type.
Definition q0 : F2 := (f0 p, f0 p).
Definition q1 : F2 := (f1 p, f0 p).
Definition qadd (x y : F2) : F2 := (fst x + fst y, snd x + snd y)%F.
Definition qsub (x y : F2) : F2 := (fst x - fst y, snd x - snd y)%F.
Definition qopp (x : F2) : F2 := (- fst x, - snd x)%F.
Definition qmul (x y : F2) : F2 := (fst x * fst y - snd x * snd y, fst x * snd y + snd x * fst y)%F.
Definition qnorm (x : F2) : F := (fst x * fst x + snd x * snd x)%F.
Definition qinv (x : F2) : F2 := (fst x / qnorm x, - snd x / qnorm x)%F.
Definition qdiv (x y : F2) : F2 := qmul x (qinv y).
Definition mk2 (u : Z2) : F2 := (mk p (fst u), mk p (snd u)).
Definition uz (x : F2) : Z2 := (fz (fst x), fz (snd x)).
Lemma mk2_uz x : mk2 (uz x) = x.
Proof. destruct x as [a b]. unfold mk2, uz. cbn [fst snd]. rewrite !mk_fz by exact Hp. reflexivity. Qed.
Lemma mk2_eq u v : mk2 u = mk2 v <-> eq2 p u v.
Proof.
  unfold mk2, eq2. split.
  - intros E. split; apply mk_eq; congruence.
  - intros [E1 E2]. f_equal; apply mk_eq; assumption.
Qed.
Lemma mk2_add u v : mk2 (add2 u v) = qadd (mk2 u) (mk2 v).
Proof. unfold mk2, add2, qadd. cbn [fst snd]. rewrite !mk_add by exact Hp. reflexivity. Qed.
Lemma mk2_sub u v : mk2 (sub2 u v) = qsub (mk2 u) (mk2 v).
Proof. unfold mk2, sub2, qsub. cbn [fst snd]. rewrite !mk_sub by exact Hp. reflexivity. Qed.
Lemma mk2_neg u : mk2 (neg2 u) = qopp (mk2 u).
Proof. unfold mk2, neg2, qopp. cbn [fst snd]. rewrite !mk_opp by exact Hp. reflexivity. Qed.
Lemma mk2_mul u v : mk2 (mul2 u v) = qmul (mk2 u) (mk2 v).
Proof. unfold mk2, mul2, qmul. cbn [fst snd]. rewrite mk_add, mk_sub, !mk_mul by exact Hp. reflexivity. Qed.
Lemma q_ring : ring_theory q0 q1 qadd qmul qsub qopp (@eq F2).
Proof.
  constructor; intros; repeat match goal with x : F2 |- _ => destruct x end; unfold qadd, qmul, qsub, qopp, q0, q1; cbn [fst snd]; f_equal; ring.
Qed.
Lemma qnorm_0 x : qnorm x = f0 p -> x = q0.
Proof.
  intros E. rewrite <- (mk2_uz x). change q0 with (mk2 zero2). apply mk2_eq. apply (norm2_zero p Hp _ H34). unfold norm2, uz. cbn [fst snd]. apply mk_0; [exact Hp|]. rewrite mk_add, !mk_mul, !mk_fz by exact Hp. exact E.
Qed.
Lemma q_field : field_theory q0 q1 qadd qmul qsub qopp qdiv qinv (@eq F2).
Proof.
  constructor; [exact q_ring| |reflexivity|].
  - unfold q1, q0. intros E. apply (f1_neq_f0 p Hp). exact (f_equal fst E).
  - intros x H. assert (N : qnorm x <> f0 p) by (intros E; apply H; apply qnorm_0; exact E). destruct x as [a b]. unfold qmul, qinv, q1. unfold qnorm in *. cbn [fst snd] in *. f_equal; field; exact N.
Qed.
Lemma q_dec (x y : F2) : {x = y} + {x <> y}.
Proof. destruct x as [a b], y as [a' b']. destruct (F_dec p a a') as [->|N]; [|right; congruence]. destruct (F_dec p b b') as [->|N]; [left; reflexivity|right; congruence]. Qed.
Lemma q_integral x y : qmul x y = q0 -> x = q0 \/ y = q0.
Proof.
  intros E. assert (N : (qnorm x * qnorm y)%F = f0 p).
  { transitivity (qnorm (qmul x y)); [destruct x, y; unfold qnorm, qmul; cbn [fst snd]; ring|]. rewrite E. unfold qnorm, q0. cbn [fst snd]. ring. }
  destruct (F_integral p Hp _ _ N) as [H|H]; [left|right]; apply qnorm_0; exact H.
Qed.
Lemma q_two : 2 < p -> qadd q1 q1 <> q0.
Proof.
  intros H2 E. apply (f_equal fst) in E. unfold qadd, q1, q0 in E. cbn [fst snd] in E. unfold f1, f0 in E. rewrite <- mk_add in E by exact Hp. apply mk_eq in E. change (1 + 1) with 2 in E. rewrite Z.mod_small, Z.mod_0_l in E by lia. discriminate E.
Qed.
End F2.
