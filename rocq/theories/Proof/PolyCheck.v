(** Exact polynomial arithmetic on coefficient lists. *)
From Verif Require Import Base.Word Spec.IsoSpec.
From Coq Require Import Lia.
Fixpoint padd (a b : list Z) : list Z :=
  match a, b with [], _ => b | _, [] => a | x :: s, y :: t => (x + y) :: padd s t end.
Fixpoint pmul (a b : list Z) : list Z :=
  match a with [] => [] | k :: t => padd (map (Z.mul k) b) (0 :: pmul t b) end.
Lemma ev_add a b x : peval (padd a b) x = peval a x + peval b x.
Proof. revert b. induction a as [|y a IH]; intros [|z b]; cbn [padd peval fold_right]; try ring. fold (peval (padd a b) x). rewrite IH. unfold peval. ring. Qed.
Lemma ev_scale k b x : peval (map (Z.mul k) b) x = k * peval b x.
Proof. induction b as [|z b IH]; cbn [map peval fold_right]; [ring|]. fold (peval (map (Z.mul k) b) x). rewrite IH. unfold peval. ring. Qed.
Lemma ev_pmul a b x : peval (pmul a b) x = peval a x * peval b x.
Proof.
  induction a as [|k a IH]; cbn [pmul]; [reflexivity|]. rewrite ev_add, ev_scale. cbn [peval fold_right]. fold (peval (pmul a b) x). rewrite IH. unfold peval. ring.
Qed.
Fixpoint peqb (a b : list Z) : bool :=
  match a, b with [], [] => true | x :: s, y :: t => (x =? y) && peqb s t | _, _ => false end.
Lemma peqb_ok a b : peqb a b = true -> a = b.
Proof. revert b. induction a as [|x a IH]; intros [|y b]; cbn; try discriminate; [reflexivity|]. intros H. apply Bool.andb_true_iff in H. destruct H as [H1 H2]. apply Z.eqb_eq in H1. rewrite H1, (IH _ H2). reflexivity. Qed.
