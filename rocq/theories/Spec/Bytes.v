(** Byte strings and integers (OS2IP / I2OSP of RFC 8017, big-endian). *)
From Verif Require Import Base.Word.

Definition is_byte (b : Z) : Prop := 0 <= b < 256.
Definition bytes (l : list Z) : Prop := Forall is_byte l.

(** big-endian value *)
Definition os2ip (l : list Z) : Z := fold_left (fun a b => 256 * a + b) l 0.
(** n-byte big-endian encoding (of [v mod 256^n]) *)
Fixpoint i2osp (v : Z) (n : nat) : list Z :=
  match n with
  | O => []
  | S m => i2osp (v / 256) m ++ [v mod 256]
  end.

Lemma os2ip_app a b : os2ip (a ++ b) = os2ip a * 256 ^ Z.of_nat (length b) + os2ip b.
Proof.
  unfold os2ip. rewrite fold_left_app. generalize (fold_left (fun a b => 256 * a + b) a 0).
  assert (G : forall b x, fold_left (fun a b => 256 * a + b) b x
     = x * 256 ^ Z.of_nat (length b) + fold_left (fun a b => 256 * a + b) b 0).
  { clear. induction b as [|y b IH]; intros x.
    - cbn [fold_left length]. change (Z.of_nat 0) with 0. rewrite Z.pow_0_r. lia.
    - cbn [fold_left length]. rewrite IH, (IH (256 * 0 + y)).
      rewrite Nat2Z.inj_succ, Z.pow_succ_r by lia. ring. }
  intros z. apply G.
Qed.
Lemma os2ip_snoc a b : os2ip (a ++ [b]) = 256 * os2ip a + b.
Proof. unfold os2ip. rewrite fold_left_app. reflexivity. Qed.

Lemma os2ip_range l : bytes l -> 0 <= os2ip l < 256 ^ Z.of_nat (length l).
Proof.
  intros H. induction l as [|x l IH] using rev_ind.
  - cbn. lia.
  - apply Forall_app in H. destruct H as [H1 H2]. inversion H2; subst.
    specialize (IH H1). rewrite os2ip_snoc, app_length. cbn [length].
    replace (Z.of_nat (length l + 1)) with (Z.succ (Z.of_nat (length l))) by lia.
    rewrite Z.pow_succ_r by lia. unfold is_byte in *. lia.
Qed.

Lemma i2osp_length v n : length (i2osp v n) = n.
Proof. revert v. induction n as [|n IH]; intros v; cbn; [reflexivity|]. rewrite app_length, IH. cbn. lia. Qed.
Lemma i2osp_bytes v n : bytes (i2osp v n).
Proof.
  revert v. induction n as [|n IH]; intros v; cbn; [constructor|].
  apply Forall_app. split; [apply IH|]. constructor; [|constructor]. apply Z.mod_pos_bound. lia.
Qed.
Lemma os2ip_i2osp n v : os2ip (i2osp v n) = v mod 256 ^ Z.of_nat n.
Proof.
  revert v. induction n as [|n IH]; intros v.
  - cbn. rewrite Z.mod_1_r. reflexivity.
  - cbn [i2osp]. rewrite os2ip_snoc, IH. rewrite Nat2Z.inj_succ, Z.pow_succ_r by lia.
    rewrite Z.rem_mul_r by lia. lia.
Qed.
Lemma i2osp_os2ip l : bytes l -> i2osp (os2ip l) (length l) = l.
Proof.
  intros H. induction l as [|x l IH] using rev_ind; [reflexivity|].
  apply Forall_app in H. destruct H as [H1 H2]. inversion H2; subst.
  rewrite app_length, Nat.add_comm. cbn [length Nat.add i2osp]. rewrite os2ip_snoc.
  unfold is_byte in *.
  replace ((256 * os2ip l + x) / 256) with (os2ip l)
    by (rewrite Z.mul_comm, Z.div_add_l by lia; rewrite Z.div_small by lia; lia).
  replace ((256 * os2ip l + x) mod 256) with x
    by (rewrite Z.add_comm, Z.mul_comm, Z.mod_add, Z.mod_small by lia; reflexivity).
  rewrite IH by assumption. reflexivity.
Qed.
Lemma os2ip_inj a b : bytes a -> bytes b -> length a = length b -> os2ip a = os2ip b -> a = b.
Proof. intros Ha Hb Hl H. rewrite <- (i2osp_os2ip a Ha), <- (i2osp_os2ip b Hb). congruence. Qed.

(** hexadecimal digit strings, most significant digit first *)
Definition hexval (ds : list Z) : Z := fold_left (fun a d => 16 * a + d) ds 0.
Definition is_hex (d : Z) : Prop := 0 <= d < 16.
