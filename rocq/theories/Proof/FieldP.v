(** The field Z/pZ with Leibniz equality, so that [ring] and [field] apply to congruences modulo a prime. *)
From Coq Require Import ZArith List Lia Znumtheory Ring Field Eqdep_dec Bool.
From Verif Require Import Proof.NumTheory.
Open Scope Z_scope.

Section F.
Variable p : Z.
Hypothesis Hp : prime p.
Let p2 : 2 <= p. Proof. exact (prime_ge_2 p Hp). Qed.

Definition F : Type := {z : Z | (z =? z mod p) = true}.
Definition fz (x : F) : Z := proj1_sig x.
Lemma mk_ok z : (z mod p =? (z mod p) mod p) = true.
Proof. rewrite Zmod_mod. apply Z.eqb_refl. Qed.
Definition mk (z : Z) : F := exist _ (z mod p) (mk_ok z).
Lemma fz_mk z : fz (mk z) = z mod p. Proof. reflexivity. Qed.
Lemma F_eq (x y : F) : fz x = fz y -> x = y.
Proof.
  destruct x as [a Ha], y as [b Hb]. cbn. intros ->. f_equal. apply UIP_dec. apply bool_dec.
Qed.
Lemma fz_range x : 0 <= fz x < p.
Proof. destruct x as [a Ha]. cbn. apply Z.eqb_eq in Ha. rewrite Ha. apply Z.mod_pos_bound. lia. Qed.
Lemma mk_fz x : mk (fz x) = x.
Proof. apply F_eq. rewrite fz_mk. apply Z.mod_small. apply fz_range. Qed.
Lemma mk_eq a b : a mod p = b mod p <-> mk a = mk b.
Proof.
  split; intros H.
  - apply F_eq. rewrite !fz_mk. exact H.
  - apply (f_equal fz) in H. rewrite !fz_mk in H. exact H.
Qed.
Definition fadd (x y : F) : F := mk (fz x + fz y).
Definition fmul (x y : F) : F := mk (fz x * fz y).
Definition fopp (x : F) : F := mk (- fz x).
Definition fsub (x y : F) : F := mk (fz x - fz y).
Definition finv (x : F) : F := mk (fz x ^ (p - 2)).
Definition fdiv (x y : F) : F := fmul x (finv y).
Definition f0 : F := mk 0.
Definition f1 : F := mk 1.
Lemma mk_add a b : mk (a + b) = fadd (mk a) (mk b).
Proof. unfold fadd. apply mk_eq. rewrite !fz_mk. apply Z.add_mod. lia. Qed.
Lemma mk_mul a b : mk (a * b) = fmul (mk a) (mk b).
Proof. unfold fmul. apply mk_eq. rewrite !fz_mk. apply Z.mul_mod. lia. Qed.
Lemma mk_sub a b : mk (a - b) = fsub (mk a) (mk b).
Proof. unfold fsub. apply mk_eq. rewrite !fz_mk. apply Zminus_mod. Qed.
Lemma mk_opp a : mk (- a) = fopp (mk a).
Proof.
  unfold fopp. apply mk_eq. rewrite !fz_mk. rewrite <- (Z.sub_0_l a), <- (Z.sub_0_l (a mod p)), Zminus_mod.
  symmetry. rewrite Zminus_mod, Zmod_mod. reflexivity.
Qed.
Lemma F_ring : ring_theory f0 f1 fadd fmul fsub fopp (@eq F).
Proof.
  constructor; intros; apply F_eq; unfold fadd, fmul, fsub, fopp, f0, f1; rewrite ?fz_mk.
  - rewrite Z.mod_0_l, Z.add_0_l by lia. rewrite <- fz_mk, mk_fz. reflexivity.
  - f_equal; ring.
  - rewrite Z.add_mod_idemp_l, Z.add_mod_idemp_r by lia. f_equal; ring.
  - rewrite (Z.mod_small 1), Z.mul_1_l by lia. rewrite <- fz_mk, mk_fz. reflexivity.
  - f_equal; ring.
  - rewrite Z.mul_mod_idemp_l, Z.mul_mod_idemp_r by lia. f_equal; ring.
  - rewrite Z.mul_mod_idemp_l by lia. rewrite <- Z.add_mod by lia. f_equal; ring.
  - rewrite Z.add_mod_idemp_r by lia. f_equal; ring.
  - rewrite Z.add_mod_idemp_r by lia. rewrite Z.add_opp_diag_r. reflexivity.
Qed.
Lemma mk_0 a : mk a = f0 <-> a mod p = 0.
Proof. unfold f0. rewrite <- mk_eq, Z.mod_0_l by lia. tauto. Qed.
Lemma f1_neq_f0 : f1 <> f0.
Proof. unfold f1. rewrite mk_0, Z.mod_1_l by lia. lia. Qed.
Lemma finv_l x : x <> f0 -> fmul (finv x) x = f1.
Proof.
  intros H. unfold fmul, finv, f1. apply mk_eq. rewrite fz_mk, Z.mul_mod_idemp_l by lia. rewrite Z.mul_comm, fermat_inv; [symmetry; apply Z.mod_1_l; lia|exact Hp|].
  intros E. apply H. rewrite <- (mk_fz x). apply mk_0. exact E.
Qed.
Lemma F_field : field_theory f0 f1 fadd fmul fsub fopp fdiv finv (@eq F).
Proof. constructor; [exact F_ring|exact f1_neq_f0|reflexivity|exact finv_l]. Qed.
Lemma F_integral x y : fmul x y = f0 -> x = f0 \/ y = f0.
Proof.
  intros H. rewrite <- (mk_fz x), <- (mk_fz y) in *. rewrite <- mk_mul in H. rewrite mk_0 in H. rewrite !mk_0.
  apply Z.mod_divide in H; [|lia]. apply prime_mult in H; [|exact Hp].
  destruct H as [H|H]; [left|right]; apply Z.mod_divide; auto; lia.
Qed.
Lemma F_dec (x y : F) : {x = y} + {x <> y}.
Proof. destruct (Z.eq_dec (fz x) (fz y)) as [E|E]; [left; apply F_eq; exact E|right; intros ->; apply E; reflexivity]. Qed.
End F.
Arguments fz {p}.
Arguments fadd {p}. Arguments fmul {p}. Arguments fsub {p}. Arguments fopp {p}. Arguments finv {p}. Arguments fdiv {p}.

Declare Scope F_scope.
Delimit Scope F_scope with F.
Bind Scope F_scope with F.
Infix "+" := fadd : F_scope.
Infix "*" := fmul : F_scope.
Infix "-" := fsub : F_scope.
Infix "/" := fdiv : F_scope.
Notation "- x" := (fopp x) : F_scope.
